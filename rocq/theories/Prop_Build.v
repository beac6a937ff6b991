(** The insert command, reading back what the tools wrote, and the number of jobs (C57, C59, C62, C63, C64). *)
From Coq Require Import Lia Permutation.
From Verif Require Import M_Cli M_RefLibm Spec_Bits Spec_Hash Spec_V2 Spec_V2File Spec_V1 Spec_Bloom Spec_Libm Spec_Lines Spec_Cli P_Base P_V1Codec P_V2Codec P_V2Hist P_V1Hist P_Codec P_Bloom P_Lines P_Batch P_Par P_Sink P_Check P_Create
  Prop_Codec Prop_Bloom Prop_Par Prop_Check Prop_Create Ex_Base Ex_V1 Ex_Cli.
Open Scope N_scope.

(** * Sizes of files *)
Lemma image_len fb fb' f cb cb' : length fb = length fb' -> len (v2_image fb f cb) = len (v2_image fb' f cb').
Proof. intro E. unfold v2_image, len. rewrite !app_length, !le_bytes_length, E. reflexivity. Qed.
Lemma load_len pr c f : bytes_ok c -> bf_from_reader pr c = Ok f -> len (bf_write f) = len c.
Proof.
  intros B E. apply bf_ok_inv in E. destruct f as [f|f].
  - pose proof (v1_load_sound _ _ _ B E) as V. change (bf_write (V1 f)) with (v1_write f). rewrite v1_write_image, (f1_bytes _ _ V). unfold v1_image, len. rewrite !app_length. cbn [length]. now rewrite (f1_reserved _ _ V).
  - destruct (v2_load_sound _ _ _ B E) as [cb V]. change (bf_write (V2 f)) with (v2_write f). rewrite v2_write_image, (vf_bytes _ _ _ V). apply image_len. unfold v2_flag_out. cbn [length]. now rewrite (vf_reserved _ _ _ V).
Qed.
Lemma frame_len f g : bf_wf f -> bf_wf g -> bf_same_frame f g -> bf_data g = bf_data f -> len (bf_write g) = len (bf_write f).
Proof.
  destruct f as [f|f], g as [g|g]; cbn [bf_wf bf_same_frame bf_data]; try contradiction; intros Wf Wg F D.
  - change (len (v1_write g) = len (v1_write f)). rewrite !v1_write_len, D. destruct F as (_ & _ & _ & _ & _ & _ & ->). reflexivity.
  - change (len (v2_write g) = len (v2_write f)). rewrite (write_len _ Wg), (write_len _ Wf), D. destruct F as (_ & _ & _ & _ & _ & _ & -> & ->). reflexivity.
Qed.
Lemma frame_version f g : bf_same_frame f g -> bf_version g = bf_version f.
Proof. destruct f, g; cbn; try contradiction; reflexivity. Qed.
Lemma frame_fpp f g : bf_same_frame f g -> bf_fpp g = bf_fpp f.
Proof. destruct f as [f|f], g as [g|g]; cbn; try contradiction; [intros (_ & _ & Q & _); exact Q|intros (_ & _ & _ & _ & Q & _); exact Q]. Qed.
Lemma stdin_lines_bytes a stdin sls : bytes_ok stdin -> stdin_lines a stdin sls -> Forall bytes_ok sls.
Proof.
  intros B [(_ & _ & T)|(_ & ->)]; [|constructor]. apply Forall_forall. intros e He. apply Forall_forall. intros x Hx. unfold bytes_ok in B. rewrite Forall_forall in B. apply B. exact (text_In _ _ _ _ T He Hx).
Qed.

(** * C57 *)
(** insert: whatever the filter file was before, afterwards it loads, in any build, to a filter with the same parameters and data,
    that has exactly the old bits and those of the lines, contains every line and what it contained, and has the same size. As
    much room as the old file takes is enough, and other files are left alone. *)
Theorem C57_insert pr L wy par w stdin room jobs a w' c f : fs_bytes w -> bytes_ok stdin -> w (ia_file a) = Some c -> file_size_ok c -> bf_from_reader pr c = Ok f -> len c <= room ->
  cmd_insert pr L wy par w stdin room jobs a = (w', Ok tt) ->
  exists sls ls c' g, stdin_lines a stdin sls /\ file_lines w (ia_inputs a) ls /\ w' (ia_file a) = Some c' /\ len c' = len c /\ (forall pr', bf_from_reader pr' c' = Ok g) /\
    bf_version g = bf_version f /\ bf_capacity g = bf_capacity f /\ bf_fpp g = bf_fpp f /\ bf_data g = bf_data f /\
    (forall s, bf_spot g s = true <-> bf_spot f s = true \/ exists d, In d (sls ++ ls) /\ bf_spots wy f d s) /\
    (bf_has_bits f -> forall d, In d (sls ++ ls) -> bf_contains_bytes wy g d = Ok true) /\
    (forall d, bytes_ok d -> bf_contains_bytes wy f d = Ok true -> bf_contains_bytes wy g d = Ok true) /\
    forall q, q <> ia_file a -> w' q = w q.
Proof.
  intros Bw Bs Ec Sc Ld Hr E. destruct (C47_insert _ _ _ _ _ _ _ _ _ _ _ E) as [Oth _]. unfold cmd_insert in E. destruct (insert_filter pr L wy par w stdin jobs a) as [h|e|] eqn:H; [|injection E as _ E; discriminate E..].
  apply insert_filter_inv in H as (c0 & f0 & sls & f1 & E1 & E2 & S & I & P). assert (c0 = c) as -> by congruence. assert (f0 = f) as -> by congruence. clear E1 E2.
  pose proof (bf_load_wf pr c f (Bw _ _ Ec) Sc Ld) as W. pose proof (stdin_lines_bytes _ _ _ Bs S) as Bl. destruct (inserts_sem _ _ _ _ _ W Bl I) as (F1 & W1 & D1 & S1).
  destruct (parallel_sem _ _ _ _ _ _ _ _ _ W1 Bw P) as (ls & Fl & Wh & F2 & D2 & S2). pose proof (bf_frame_trans _ _ _ F1 F2) as F. assert (D : bf_data h = bf_data f) by congruence.
  assert (Len : len (bf_write h) = len c) by (rewrite (frame_len f h W Wh F D); exact (load_len pr c f (Bw _ _ Ec) Ld)).
  rewrite save_ok in E by lia. apply pair_inj in E as [<- _].
  assert (Sp : forall s, bf_spot h s = true <-> bf_spot f s = true \/ exists d, In d (sls ++ ls) /\ bf_spots wy f d s).
  { intro s. rewrite S2, S1. split.
    - intros [[H|(d & Hd & H)]|(d & Hd & H)]; [now left|right; exists d; rewrite in_app_iff; auto|right; exists d; rewrite in_app_iff; split; [auto|]]. exact (proj1 (bf_frame_spots wy f f1 d s F1) H).
    - intros [H|(d & Hd & H)]; [auto|]. apply in_app_or in Hd as [Hd|Hd]; [left; right; eauto|right; exists d; split; [exact Hd|]]. exact (proj2 (bf_frame_spots wy f f1 d s F1) H). }
  pose proof (bh_load wy L pr c f (Bw _ _ Ec) Sc Ld) as Hf. destruct (inserts_hist pr wy L f sls f1 _ Hf Bl I) as (K1 & Hk1 & I1).
  destruct (parallel_holds pr L wy par w f1 (ia_inputs a) jobs h K1 ls) as (K2 & Hk2 & I2); [exists K1; auto|exact Bw|exact Fl|exact P|].
  destruct (C52_roundtrip_partial pr wy L h (ex_intro _ K2 Hk2)) as (g & R & V & Q1 & Q2 & _ & Q4 & _ & Q6 & Q7 & _ & Q9).
  assert (R' : forall pr', bf_from_reader pr' (bf_write h) = Ok g) by (intro pr'; destruct pr, pr'; exact R).
  exists sls, ls, (bf_write h), g. split; [exact S|]. split; [exact Fl|]. split; [apply fs_set_same|]. split; [exact Len|]. split; [exact R'|].
  split; [now rewrite V, (frame_version _ _ F)|]. split; [now rewrite Q1, (bf_frame_capacity _ _ F)|]. split; [now rewrite Q2, (frame_fpp _ _ F)|]. split; [congruence|]. split; [intro s; rewrite Q6; apply Sp|]. split; [|split].
  - intros HB d Hd. change (py_contains_bytes wy g d = Ok true). rewrite Q7. change (bf_contains_bytes wy h d = Ok true). apply (bf_hist_contains wy L h K2 d Hk2); [|exact (bf_frame_has_bits _ _ F HB)].
    apply I2. apply in_app_or in Hd as [Hd|Hd]; [left; apply I1; auto|now right].
  - intros d Bd Hd. change (py_contains_bytes wy g d = Ok true). rewrite Q7. change (bf_contains_bytes wy h d = Ok true). apply (bf_contains_mono wy f h d W Wh Bd F); [|exact Hd]. intros s Hs. apply Sp. now left.
  - exact Oth.
Qed.
Print Assumptions C57_insert.
(** And when does it succeed: in a release build, when the lines, with those already counted, fit into the capacity. *)
Theorem C57_succeeds L wy par w stdin room jobs a c f sls ls : fs_bytes w -> bytes_ok stdin -> w (ia_file a) = Some c -> file_size_ok c -> bf_from_reader Release c = Ok f -> len c <= room -> bf_usable f -> bf_fpp_real f ->
  stdin_lines a stdin sls -> file_lines w (ia_inputs a) ls -> bf_count_estimate f + len sls + len ls <= bf_capacity f ->
  exists w', cmd_insert Release L wy par w stdin room jobs a = (w', Ok tt).
Proof.
  intros Bw Bs Ec Sc Ld Hr U Fp S Fl Hn. pose proof (bf_load_wf Release c f (Bw _ _ Ec) Sc Ld) as W. pose proof (stdin_lines_bytes _ _ _ Bs S) as Bl.
  assert (Cap : bf_capacity f < two64) by (destruct f as [f|f]; [exact (w1_capacity _ W)|exact (wf_capacity _ W)]).
  destruct (inserts_fit Release wy sls f W U Bl Cap) as (f1 & I); [lia|]. destruct (inserts_sem _ _ _ _ _ W Bl I) as (F1 & W1 & D1 & _).
  assert (Cnt : bf_count_estimate f1 <= bf_count_estimate f + len sls).
  { clear -I W Bl Cap Hn. revert W Cap Hn Bl. induction I as [f|f d g b ds h E I IH]; intros W Cap Hn Bl; [lia|]. inversion Bl as [|? ? Bd Bl' Eq]; subst. rewrite len_cons in *.
    destruct (bf_insert_sem _ _ _ _ _ _ W Bd E) as [Fr Wg _ _ (_ & _ & Cg & _)]. assert (Cg' : bf_count_estimate g <= bf_count_estimate f + 1).
    { rewrite Cg. destruct b; [|lia]. unfold w64. apply N.mod_le. discriminate. }
    assert (Q := IH Wg ltac:(rewrite (bf_frame_capacity _ _ Fr); exact Cap) ltac:(rewrite (bf_frame_capacity _ _ Fr); lia) Bl'). lia. }
  destruct (parallel_fits Release L wy par w f1 (ia_inputs a) jobs ls W1 (bf_frame_usable _ _ F1 U)) as [(h & P)|(_ & Q & _)]; [|exact Bw|exact Fl|now rewrite (bf_frame_capacity _ _ F1)|rewrite (bf_frame_capacity _ _ F1); lia| |discriminate].
  { clear -Fp F1. revert Fp F1. destruct f as [f|f], f1 as [g|g]; cbn; try contradiction; [|trivial]. intros Q (_ & _ & -> & _). exact Q. }
  destruct (parallel_sem _ _ _ _ _ _ _ _ _ W1 Bw P) as (ls' & Fl' & Wh & F2 & D2 & _). pose proof (bf_frame_trans _ _ _ F1 F2) as F.
  assert (Len : len (bf_write h) = len c) by (rewrite (frame_len f h W Wh F ltac:(congruence)); exact (load_len Release c f (Bw _ _ Ec) Ld)).
  exists (fs_set w (ia_file a) (bf_write h)). unfold cmd_insert. enough (G : insert_filter Release L wy par w stdin jobs a = Ok h) by (rewrite G; apply save_ok; lia).
  unfold insert_filter, fs_open. rewrite Ec. cbn [obind]. rewrite Ld. cbn [obind]. destruct S as [(R & V & T)|(R & ->)].
  - rewrite (proj1 (reads_stdin_b a) R). rewrite (proj2 (insert_content Release wy f stdin f1 sls T) (conj V I)). exact P.
  - destruct (ia_stdin a || is_nil (ia_inputs a)) eqn:Q; [contradiction R; now apply reads_stdin_b|]. cbn [obind]. inversion I; subst. exact P.
Qed.
Print Assumptions C57_succeeds.
(** "foo" into a filter on disk with room for it, from stdin and two files. *)
Definition shelf_e : fs := fs_set txt [1] (bf_write (V1 e0)).
Definition into_e : insert_args := {| ia_stdin := true; ia_file := [1]; ia_inputs := [pa; pb] |}.
Example C57_example : bf_from_reader Release (bf_write (V1 e0)) = Ok (V1 e0) /\ bf_usable (V1 e0) /\ bf_fpp_real (V1 e0) /\ len (bf_write (V1 e0)) = 56 /\ bf_capacity (V1 e0) = 4 /\
  exists w' c' g, cmd_insert Release ref_libm (fun _ => 0) None shelf_e (dc ++ [10]) 56 2 into_e = (w', Ok tt) /\ w' [1] = Some c' /\ bf_from_reader Release c' = Ok g /\
    bf_contains_bytes (fun _ => 0) (V1 e0) dc = Ok false /\ bf_contains_bytes (fun _ => 0) g dc = Ok true /\ bf_contains_bytes (fun _ => 0) g da = Ok true /\ bf_count_estimate g = 3.
Proof.
  split; [vm_compute; reflexivity|]. split; [split; [discriminate|intros _; discriminate]|]. split; [vm_compute; reflexivity|]. split; [vm_compute; reflexivity|]. split; [reflexivity|].
  assert (Q : exists g, insert_filter Release ref_libm (fun _ => 0) None shelf_e (dc ++ [10]) 2 into_e = Ok g /\ (len (bf_write g) <=? 56) = true /\ bf_from_reader Release (bf_write g) = Ok g /\
    bf_contains_bytes (fun _ => 0) (V1 e0) dc = Ok false /\ bf_contains_bytes (fun _ => 0) g dc = Ok true /\ bf_contains_bytes (fun _ => 0) g da = Ok true /\ bf_count_estimate g = 3).
  { eexists. split; [vm_compute; reflexivity|]. split; [vm_compute; reflexivity|]. split; [vm_compute; reflexivity|]. split; [vm_compute; reflexivity|]. split; [vm_compute; reflexivity|]. split; vm_compute; reflexivity. }
  destruct Q as (g & E & R & Q). exists (fs_set shelf_e [1] (bf_write g)), (bf_write g), g. unfold cmd_insert. rewrite E. split; [apply save_ok; now apply N.leb_le|]. split; [apply fs_set_same|exact Q].
Qed.

(** * C59 *)
(** show prints what the fully loaded filter says of itself, for every file that loads; the size printed is that of
    size_in_bytes (whose value for v1 filters is another matter, C34). *)
Theorem C59_show pr w p c f size : fs_bytes w -> w p = Some c -> bf_from_reader pr c = Ok f -> bf_size_in_bytes pr f = Ok size ->
  exists s, cmd_show pr w p = Ok s /\ sh_version s = bf_version f /\ sh_capacity s = bf_capacity f /\ sh_count s = bf_count_estimate f /\ sh_fpp s = bf_fpp f /\
    bz_in_bytes (sh_data s) = len (bf_data f) /\ bz_in_bytes (sh_size s) = size.
Proof.
  intros B E Ld Sz. destruct (C22_partial_read pr c f (B _ _ E) Ld) as (g & G & Q1 & Q2 & Q3 & Q4 & _ & Q6 & Q7). unfold cmd_show, fs_open. rewrite E. cbn [obind]. rewrite G. cbn [obind]. unfold show_bf. rewrite Q7, Sz. cbn [obind].
  assert (BZ : forall n, bz_in_bytes (bz_from_bytes n) = n) by (intro n; unfold bz_from_bytes; repeat (destruct (_ <? _); [reflexivity|]); reflexivity).
  eexists. split; [reflexivity|]. cbn [sh_version sh_capacity sh_count sh_fpp sh_data sh_size]. rewrite !BZ, Q1, Q2, Q3, Q4, Q6. repeat (split; [reflexivity|]). reflexivity.
Qed.
Print Assumptions C59_show.
(** For v2 files that is the size of the buckets and the cache, hence the file is the size shown, 56 bytes and the data. *)
Theorem C59_show_v2 pr w p c f : fs_bytes w -> w p = Some c -> file_size_ok c -> bf_from_reader pr c = Ok f -> bf_version f = 2 ->
  exists s, cmd_show pr w p = Ok s /\ len c = 56 + bz_in_bytes (sh_size s) + bz_in_bytes (sh_data s).
Proof.
  intros B E Sc Ld V. destruct f as [f|f]; [discriminate|]. pose proof (bf_load_wf pr c _ (B _ _ E) Sc Ld) as W. cbn [bf_wf] in W. pose proof (load_len pr c _ (B _ _ E) Ld) as Ln. change (len (v2_write f) = len c) in Ln.
  rewrite (write_len f W) in Ln. assert (Sz : bf_size_in_bytes pr (V2 f) = Ok (len (v2_buckets f) * 4096 + len (v2_index_cache f))).
  { pose proof (wf_buckets_len _ W) as HB. pose proof (wf_cache_len _ W) as HC. pose proof (wf_n_buckets _ W) as HN. pose proof (wf_cache_size _ W) as HS. unfold isize_max, two64 in *.
    cbn [bf_size_in_bytes]. unfold v2_size_in_bytes, checked_mul, checked_add. rewrite HN, HS. change BUCKET_SIZE with 4096. cbv zeta.
    rewrite (proj2 (N.ltb_lt _ _)) by (unfold two64; lia). cbn [obind]. rewrite (proj2 (N.ltb_lt _ _)) by (unfold two64; lia). reflexivity. }
  destruct (C59_show pr w p c _ _ B E Ld Sz) as (s & S & _ & _ & _ & _ & D & Q). exists s. split; [exact S|]. rewrite D, Q, <- Ln. cbn [bf_data]. lia.
Qed.
Print Assumptions C59_show_v2.
(** Full statement: show fails for files that do not load. False: the bits are not read, so a file cut off in the middle is shown
    like a complete one. *)
Theorem C59_refuted : exists w p c, fs_bytes w /\ w p = Some c /\ (forall pr, bf_from_reader pr c = Err IoError) /\ forall pr, exists s, cmd_show pr w p = Ok s /\ sh_count s = 2.
Proof.
  set (c := firstn 50 (bf_write (V1 e2))). exists (fun q => if list_eqb [1] q then Some c else None), [1], c. split.
  { intros q c'. destruct (list_eqb [1] q); [|discriminate]. intro E. injection E as <-. unfold c. vm_compute (firstn _ _). repeat (constructor; [reflexivity|]). constructor. }
  split; [reflexivity|]. split; [intros []; vm_compute; reflexivity|]. intros []; eexists; (split; [vm_compute; reflexivity|reflexivity]).
Qed.
Print Assumptions C59_refuted.
(** And a file of 48 bytes that announces 2^61 bits makes show panic in a debug build. *)
Theorem C59_debug_refuted : exists w p c, fs_bytes w /\ w p = Some c /\ len c = 48 /\ cmd_show Debug w p = Panic /\ exists s, cmd_show Release w p = Ok s.
Proof.
  set (c := v1_image [1; 0; 0; 0; 0; 0; 0; 0] (tiny ONone p001 3 (2 ^ 61) [])). exists (fun q => if list_eqb [1] q then Some c else None), [1], c. split.
  { intros q c'. destruct (list_eqb [1] q); [|discriminate]. intro E. injection E as <-. unfold c. vm_compute (v1_image _ _). repeat (constructor; [reflexivity|]). constructor. }
  split; [reflexivity|]. split; [vm_compute; reflexivity|]. split; [vm_compute; reflexivity|]. eexists. vm_compute. reflexivity.
Qed.
Print Assumptions C59_debug_refuted.
Example C59_example : exists s, cmd_show Debug shelf [1] = Ok s /\ sh_capacity s = 4 /\ sh_count s = 2 /\ sh_version s = 1.
Proof. eexists. split; [vm_compute; reflexivity|]. split; [|split]; reflexivity. Qed.

(** * C62 *)
(** Python's save and load: after any number of saves with room, load gives for each path an equivalent of the filter saved there
    last, and everything that was not saved is as before. *)
Fixpoint saves (room : N) (w : fs) (l : list (path * bloom)) : fs := match l with [] => w | (p, f) :: r => saves room (fst (py_save w p f room)) r end.
Lemma list_eq_N (p q : list N) : {p = q} + {p <> q}.
Proof. exact (list_eq_dec N.eq_dec p q). Defined.
Fixpoint last_saved (l : list (path * bloom)) (p : path) : option bloom :=
  match l with [] => None | (q, f) :: r => match last_saved r p with Some g => Some g | None => if list_eq_N q p then Some f else None end end.
Theorem C62_python_files pr wy L room l w p : Forall (fun x => bf_reach wy L (snd x) /\ len (bf_write (snd x)) <= room) l ->
  match last_saved l p with
  | None => saves room w l p = w p
  | Some f => exists g, py_load pr (saves room w l) p = Ok g /\ bf_version g = bf_version f /\ bf_capacity g = bf_capacity f /\ bf_fpp g = bf_fpp f /\ bf_count_estimate g = bf_count_estimate f /\
      bf_data g = bf_data f /\ (forall s, bf_spot g s = bf_spot f s) /\ (forall d, py_contains_bytes wy g d = py_contains_bytes wy f d) /\ (bf_kept wy L f -> g = f)
  end.
Proof.
  intro H. assert (G : forall w, saves room w l p = match last_saved l p with None => w p | Some f => Some (bf_write f) end /\ forall f, last_saved l p = Some f -> bf_reach wy L f).
  { clear w. induction H as [|[q f] l [R Sz] _ IH]; intro w; [now split|]. cbn [saves last_saved snd] in *. unfold py_save. rewrite save_ok by exact Sz. cbn [fst]. destruct (IH (fs_set w q (bf_write f))) as [-> I].
    destruct (last_saved l p) as [g|]; [split; [reflexivity|exact I]|]. destruct (list_eq_N q p) as [->|Ne]; [split; [apply fs_set_same|intros g E; now injection E as <-]|split; [apply fs_set_other; congruence|discriminate]]. }
  destruct (G w) as [E I]. destruct (last_saved l p) as [f|]; [|exact E]. destruct (C52_roundtrip_partial pr wy L f (I f eq_refl)) as (g & Q0 & Q1 & Q2 & Q3 & Q4 & Q5 & _ & Q7 & Q8 & _).
  exists g. split; [unfold py_load, fs_open; rewrite E; exact Q0|]. split; [exact Q1|]. split; [exact Q2|]. split; [exact Q3|]. split; [exact Q4|]. split; [exact Q5|]. split; [exact Q7|]. split; [exact Q8|].
  intro K. pose proof (bf_kept_roundtrip pr wy L f K) as X. change (bf_from_reader pr (bf_write f) = Ok g) in Q0. congruence.
Qed.
Print Assumptions C62_python_files.
(** A path that was never there: an error, not an empty filter. *)
Theorem C62_missing pr w p : w p = None -> py_load pr w p = Err IoError.
Proof. intro E. unfold py_load, fs_open. now rewrite E. Qed.
Print Assumptions C62_missing.
Example C62_example : py_load Debug (saves 100 txt [([1], V1 e0); ([2], V1 q1); ([1], V1 e2)]) [1] = Ok (V1 e2) /\ py_load Debug (saves 100 txt [([1], V1 e0); ([2], V1 q1); ([1], V1 e2)]) [2] = Ok (V1 q1) /\
  py_load Debug (saves 100 txt [([1], V1 e0)]) pa = Err IoError.
Proof. split; [|split]; vm_compute; reflexivity. Qed.

(** * C64 *)
Lemma file_lines_member w files ls d : file_lines w files ls -> (In d ls <-> exists p c es, In p files /\ w p = Some c /\ text c es /\ In d es).
Proof.
  induction 1 as [|p c es r ls E U T F IH].
  - split; [contradiction|intros (p & c & es & [] & _)].
  - rewrite in_app_iff, IH. split.
    + intros [H|(q & c' & es' & Hq & Q)]; [exists p, c, es; repeat split; auto; now left|exists q, c', es'; split; [now right|exact Q]].
    + intros (q & c' & es' & [<-|Hq] & E' & T' & H); [left|right; eauto 8]. assert (c' = c) as -> by congruence. rewrite (text_det _ _ T _ T') in H. exact H.
Qed.
(** Neither the number of jobs, the number of processors, the order of the files, nor the build, changes the bits: two successful
    parallel insertions of the same files end with the same parameters and bits, and every query answers the same. *)
Theorem C64_any_jobs pr pr' L L' wy par par' w f files files' jobs jobs' g g' : bf_wf f -> fs_bytes w -> (forall p, In p files <-> In p files') ->
  parallel_insert pr L wy par w f files jobs = Ok g -> parallel_insert pr' L' wy par' w f files' jobs' = Ok g' ->
  bf_same_content g g' /\ bf_data g' = bf_data g /\ forall d, bytes_ok d -> (bf_contains_bytes wy g' d = Ok true <-> bf_contains_bytes wy g d = Ok true).
Proof.
  intros W B P E E'. destruct (parallel_sem _ _ _ _ _ _ _ _ _ W B E) as (ls & Fl & Wg & F & D & S). destruct (parallel_sem _ _ _ _ _ _ _ _ _ W B E') as (ls' & Fl' & Wg' & F' & D' & S').
  assert (C : bf_same_content g g').
  { apply bf_spots_ext; [exact Wg|exact Wg'|exact (bf_frame_trans _ _ _ (bf_frame_sym _ _ F) F')|]. intro s. rewrite S, S'.
    assert (M : forall d, In d ls' <-> In d ls) by (intro d; rewrite (file_lines_member _ _ _ d Fl), (file_lines_member _ _ _ d Fl'); split; intros (p & c & es & Hp & Q); exists p, c, es; (split; [now apply P|exact Q])).
    split; intros [H|(d & Hd & H)]; auto; right; exists d; (split; [now apply M|exact H]). }
  split; [exact C|]. split; [congruence|]. intros d Bd. exact (bf_content_contains wy g g' d Wg Wg' Bd C).
Qed.
Print Assumptions C64_any_jobs.
(** Full statement: the whole result is the same. False: with several batches the count is an estimate. Three files into a filter
    for six: 3 entries with one job, 2 with three. And into a filter for four with probability 0.5: with three jobs it is full. *)
Theorem C64_refuted : exists wy w files cap fpp f g g', bf_with_version_capacity_opt Release ref_libm 1 cap fpp ONone = Ok f /\ parallel_insert Release ref_libm wy None w f files 1 = Ok g /\
  parallel_insert Release ref_libm wy None w f files 3 = Ok g' /\ bf_count_estimate g = 3 /\ bf_count_estimate g' = 2.
Proof.
  exists (fun _ => 0), txt, [pa; pb; pc], 6, p001. eexists. eexists. eexists. split; [vm_compute; reflexivity|]. split; [vm_compute; reflexivity|]. split; [vm_compute; reflexivity|]. split; reflexivity.
Qed.
Print Assumptions C64_refuted.
Theorem C64_full_refuted : exists wy w files cap fpp f g g' d, bf_with_version_capacity_opt Release ref_libm 1 cap fpp ONone = Ok f /\ parallel_insert Release ref_libm wy None w f files 1 = Ok g /\
  parallel_insert Release ref_libm wy None w f files 3 = Ok g' /\ bf_is_full g = false /\ bf_is_full g' = true /\
  snd (bf_insert_bytes Release wy g d) = Ok true /\ snd (bf_insert_bytes Release wy g' d) = Err TooManyEntries.
Proof.
  exists (fun _ => 0), txt, [pa; pb; pc], 4, 4602678819172646912. eexists. eexists. eexists. exists [2]. split; [vm_compute; reflexivity|]. split; [vm_compute; reflexivity|]. split; [vm_compute; reflexivity|].
  split; [vm_compute; reflexivity|]. split; [vm_compute; reflexivity|]. split; vm_compute; reflexivity.
Qed.
Print Assumptions C64_full_refuted.

(** * C63 *)
Lemma create_inv pr L wy par w jobs a g : fs_bytes w -> ca_probability a < two64 -> ca_capacity a < two64 -> create_filter pr L wy par w jobs a = Ok g ->
  exists n l f, n < two64 /\ bf_with_version_capacity_opt pr L (ca_version a) n (ca_probability a) l = Ok f /\ parallel_insert pr L wy par w f (ca_dataset a) jobs = Ok g /\ bf_kept wy L g.
Proof.
  intros B Hp Hc G. unfold create_filter in G. destruct (check_output pr w (ca_file a)) as [[]|e|]; [|discriminate..]. cbn [obind] in G.
  assert (N : forall n, match ca_dataset a with [] => Ok (ca_capacity a) | _ => count_lines_parallel pr par w (ca_dataset a) jobs end = Ok n -> n < two64).
  { intros n Q. destruct (ca_dataset a) as [|p r] eqn:D; [injection Q as <-; exact Hc|]. rewrite <- D in Q. destruct (count_cases pr par w (ca_dataset a) jobs) as [(m & E & Hm)|[E|E]]; rewrite E in Q; [injection Q as <-; exact Hm|discriminate..]. }
  match type of G with obind ?c _ = _ => destruct c as [n|e|] end; [|discriminate..]. specialize (N n eq_refl). cbn [obind] in G. destruct (opt_of_u8 (ca_optimize a)) as [l|e|]; [|discriminate..]. cbn [obind] in G.
  unfold bf_of_params in G. cbn [p_version p_capacity p_fpp p_opt params_opt params_version params_new] in G. destruct (bf_with_version_capacity_opt pr L (ca_version a) n (ca_probability a) l) as [f|e|] eqn:E; [|discriminate..]. cbn [obind] in G.
  exists n, l, f. split; [exact N|]. split; [exact E|]. split; [exact G|]. destruct (fresh_facts wy pr L _ _ _ _ f N Hp E) as (_ & _ & _ & _ & K). exact (parallel_kept _ _ _ _ _ _ _ _ _ K B G).
Qed.
Lemma kept_write_bytes wy L f : bf_kept wy L f -> bytes_ok (bf_write f).
Proof. intro K. pose proof (bf_kept_wf _ _ _ K) as W. destruct f as [f|f]; [exact (v1_write_bytes f W)|exact (write_bytes f W)]. Qed.
Lemma answer_contained wy f k ls : (forall d, In d ls -> bf_contains_bytes wy f d = Ok true) ->
  (ka_verify k = true -> answer wy f k ls = []) /\ (ka_verify k = false -> ka_silent k = false -> answer wy f k ls = map Plain ls).
Proof.
  intro H. assert (C : forall d, In d ls -> contained wy f d = true) by (intros d Hd; unfold contained; now rewrite (H d Hd)). unfold answer. split.
  - intros ->. enough (filter (fun d => negb (contained wy f d)) ls = []) as -> by reflexivity. clear H. induction ls as [|d ls IH]; [reflexivity|]. cbn [filter]. rewrite (C d (or_introl eq_refl)). apply IH. intros e He. apply C. now right.
  - intros -> ->. f_equal. clear H. induction ls as [|d ls IH]; [reflexivity|]. cbn [filter]. rewrite (C d (or_introl eq_refl)). f_equal. apply IH. intros e He. apply C. now right.
Qed.
(** Checking what is known to be contained, with any number of jobs and any schedule. *)
Lemma check_contained pr wy w stdin jobs k f ls out r : checkable pr w stdin k f [] ls -> jobs <> 0 -> (forall d, In d ls -> bf_contains_bytes wy f d = Ok true) -> cmd_check pr wy w stdin jobs k out r ->
  r = Ok tt /\ (ka_verify k = true -> out = []) /\ (ka_verify k = false -> ka_silent k = false -> Permutation (map Plain ls) out).
Proof.
  intros C J H E. split; [exact (proj2 (C44_jobs_partial _ _ _ _ _ _ _ _ _ C J) _ _ E)|]. destruct (C45_prints _ _ _ _ _ _ _ _ _ _ _ C J E) as (out2 & lss & -> & _ & _ & P & _). rewrite answer_nil. cbn [app].
  destruct (answer_contained wy f k ls H) as [A A']. split; [intro V; rewrite (A V) in P; now apply Permutation_nil|intros V Q; rewrite (A' V Q) in P; exact P].
Qed.
(** Create a filter from text files, then check the same files: with --verify nothing is printed, otherwise every line. *)
Theorem C63_create_check pr pr' L wy par w room jobs a w' g ls stdin jobs' k out r : libm_ln2_sq L -> libm_ln_range L -> fs_bytes w -> ca_probability a < two64 -> ca_capacity a < two64 -> file_lines w (ca_dataset a) ls ->
  ~ In (ca_file a) (ca_dataset a) -> ca_dataset a <> [] -> create_filter pr L wy par w jobs a = Ok g -> bf_has_bits g -> len (bf_write g) <= room -> room < 2 ^ 61 -> cmd_create pr L wy par w room jobs a = (w', Ok tt) ->
  ka_file k = ca_file a -> ka_inputs k = ca_dataset a -> ka_stdin k = false -> jobs' <> 0 -> cmd_check pr' wy w' stdin jobs' k out r ->
  r = Ok tt /\ (ka_verify k = true -> out = []) /\ (ka_verify k = false -> ka_silent k = false -> Permutation (map Plain ls) out).
Proof.
  intros A1 A2 B Hp Hc F Nin Ne G HB Hr R61 E K1 K2 K3 J C. destruct (create_inv _ _ _ _ _ _ _ _ B Hp Hc G) as (n & l & f & Hn & Ef & P & K). unfold cmd_create in E. rewrite G, save_ok in E by exact Hr. apply pair_inj in E as [<- _].
  destruct (fresh_facts wy pr L _ _ _ _ f Hn Hp Ef) as (W & _). pose proof (fresh_usable pr L _ _ _ _ f A1 A2 Hn Ef) as U. destruct (parallel_sem _ _ _ _ _ _ _ _ _ W B P) as (ls' & Fl & Wg & Fr & _).
  eapply check_contained; [|exact J| |exact C].
  - constructor.
    + intros p c. destruct (list_eq_N p (ca_file a)) as [->|Np]; [rewrite fs_set_same; intro Q; injection Q as <-; exact (kept_write_bytes _ _ _ K)|rewrite fs_set_other by exact Np; apply B].
    + rewrite K1, fs_set_same. exists (bf_write g). split; [reflexivity|]. split; [unfold file_size_ok, two64; lia|exact (bf_kept_roundtrip pr' _ _ _ K)].
    + exact (bf_frame_usable _ _ Fr U).
    + rewrite K2. apply (file_lines_other w); [|exact F]. intros p Hq. apply fs_set_other. intros ->. contradiction.
    + rewrite K3, K2. destruct (ca_dataset a); [contradiction|reflexivity].
  - intros d Hd. destruct (parallel_holds pr L wy par w f (ca_dataset a) jobs g (fun _ => False) ls) as (K' & H' & I'); [exists (fun _ => False); split; [exact (bh_make wy L pr _ _ _ _ f Hn Hp Ef)|auto]|exact B|exact F|exact P|].
    exact (bf_hist_contains wy L g K' d H' (I' d (or_intror Hd)) HB).
Qed.
Print Assumptions C63_create_check.
(** Insert files into an existing filter, then check them. *)
Theorem C63_insert_check pr pr' L wy par w stdin room jobs a w' c f ls stdin' jobs' k out r : fs_bytes w -> bytes_ok stdin -> w (ia_file a) = Some c -> file_size_ok c -> bf_from_reader pr c = Ok f -> len c <= room ->
  bf_usable f -> bf_has_bits f -> file_lines w (ia_inputs a) ls -> ~ In (ia_file a) (ia_inputs a) -> ia_inputs a <> [] -> cmd_insert pr L wy par w stdin room jobs a = (w', Ok tt) ->
  ka_file k = ia_file a -> ka_inputs k = ia_inputs a -> ka_stdin k = false -> jobs' <> 0 -> cmd_check pr' wy w' stdin' jobs' k out r ->
  r = Ok tt /\ (ka_verify k = true -> out = []) /\ (ka_verify k = false -> ka_silent k = false -> Permutation (map Plain ls) out).
Proof.
  intros B Bs Ec Sc Ld Hr U HB Fl Nin Ne E K1 K2 K3 J C. assert (E' := E). unfold cmd_insert in E'. destruct (insert_filter pr L wy par w stdin jobs a) as [h|e|] eqn:H; [|injection E' as _ E'; discriminate E'..].
  apply insert_filter_inv in H as (c0 & f0 & sls & f1 & E1 & E2 & S & I & P). assert (c0 = c) as -> by congruence. assert (f0 = f) as -> by congruence. clear E1 E2.
  pose proof (bf_load_wf pr c f (B _ _ Ec) Sc Ld) as W. pose proof (stdin_lines_bytes _ _ _ Bs S) as Bl. destruct (inserts_sem _ _ _ _ _ W Bl I) as (F1 & W1 & D1 & _).
  destruct (parallel_sem _ _ _ _ _ _ _ _ _ W1 B P) as (ls0 & Fl0 & Wh & F2 & D2 & _). pose proof (bf_frame_trans _ _ _ F1 F2) as F.
  assert (Len : len (bf_write h) = len c) by (rewrite (frame_len f h W Wh F ltac:(congruence)); exact (load_len pr c f (B _ _ Ec) Ld)). rewrite save_ok in E' by lia. apply pair_inj in E' as [Ew _].
  assert (Bh : bytes_ok (bf_write h)) by (clear -Wh; destruct h as [h|h]; [exact (v1_write_bytes h Wh)|exact (write_bytes h Wh)]).
  destruct (C57_insert _ _ _ _ _ _ _ _ _ _ _ _ B Bs Ec Sc Ld Hr E) as (sls' & ls' & c' & g & S' & Fl' & Ec' & Lc & Ld' & _ & _ & _ & _ & _ & Q & _ & Oth).
  rewrite (file_lines_det _ _ _ Fl _ Fl') in Q. assert (c' = bf_write h) as -> by (rewrite <- Ew, fs_set_same in Ec'; congruence).
  eapply check_contained; [|exact J| |exact C].
  - constructor.
    + intros p cp. rewrite <- Ew. destruct (list_eq_N p (ia_file a)) as [->|Np]; [rewrite fs_set_same; intro X; injection X as <-; exact Bh|rewrite fs_set_other by exact Np; apply B].
    + rewrite K1. exists (bf_write h). split; [exact Ec'|]. split; [unfold file_size_ok in *; now rewrite Lc|exact (Ld' pr')].
    + assert (Ug : bf_usable h) by exact (bf_frame_usable _ _ F U). specialize (Ld' pr). clear -Ug Wh Ld'. apply bf_ok_inv in Ld'. destruct g as [g|g]; destruct h as [h|h].
      * change (v1_from_reader pr (v1_write h) = Ok g) in Ld'. rewrite (v1_roundtrip pr h Wh) in Ld'. injection Ld' as <-. exact Ug.
      * exfalso. change (v1_from_reader pr (v2_write h) = Ok g) in Ld'. pose proof (bf_ok_v1 _ _ _ _ Ld') as Q1. pose proof (bf_ok_v2 _ _ _ _ (v2_roundtrip pr h Wh)) as Q2. congruence.
      * exfalso. change (v2_from_reader pr (v1_write h) = Ok g) in Ld'. pose proof (bf_ok_v2 _ _ _ _ Ld') as Q1. pose proof (bf_ok_v1 _ _ _ _ (v1_roundtrip pr h Wh)) as Q2. congruence.
      * change (v2_from_reader pr (v2_write h) = Ok g) in Ld'. rewrite (v2_roundtrip pr h Wh) in Ld'. injection Ld' as <-. exact Ug.
    + rewrite K2. apply (file_lines_other w); [|exact Fl]. intros p Hq. apply Oth. intros ->. contradiction.
    + rewrite K3, K2. destruct (ia_inputs a); [contradiction|reflexivity].
  - intros d Hd. apply (Q HB d). apply in_or_app. now right.
Qed.
Print Assumptions C63_insert_check.
(** The conditions hold in the example of C46: three files, a filter with bits, 56 bytes. *)
Example C63_example : exists g w', create_filter Release ref_libm (fun _ => 0) None txt 2 ex_create = Ok g /\ bf_has_bits g /\ len (bf_write g) <= 1000 /\ cmd_create Release ref_libm (fun _ => 0) None txt 1000 2 ex_create = (w', Ok tt) /\
  ~ In (ca_file ex_create) (ca_dataset ex_create) /\ exists out, cmd_check Release (fun _ => 0) w' [] 3 plain_check out (Ok tt) /\ out = [Plain da; Plain db; Plain dc].
Proof.
  assert (Q : exists g, create_filter Release ref_libm (fun _ => 0) None txt 2 ex_create = Ok g /\ bf_has_bits g /\ (len (bf_write g) <=? 1000) = true /\ bf_from_reader Release (bf_write g) = Ok g /\
    map (check_worker (fun _ => 0) (fs_set txt [1] (bf_write g)) g plain_check) (batches [pa; pb; pc] 3) = [([Plain da], Ok tt); ([Plain db], Ok tt); ([Plain dc], Ok tt)]).
  { eexists. split; [vm_compute; reflexivity|]. split; [discriminate|]. split; [vm_compute; reflexivity|]. split; vm_compute; reflexivity. }
  destruct Q as (g & E & HB & R & Ld & Q). exists g, (fs_set txt [1] (bf_write g)). split; [exact E|]. split; [exact HB|]. split; [now apply N.leb_le|]. split; [unfold cmd_create; rewrite E; apply save_ok; now apply N.leb_le|].
  split; [intros [X|[X|[X|[]]]]; discriminate|]. eexists. split; [|reflexivity].
  eapply (ck_run _ _ _ _ _ _ (bf_write g) g [] _ (Ok tt)); [reflexivity|exact Ld|reflexivity|].
  pose proof (cf_run (fun _ => 0) (fs_set txt [1] (bf_write g)) g plain_check 3 [[Plain da]; [Plain db]; [Plain dc]] [Plain da; Plain db; Plain dc]) as X. cbv zeta in X. change (ka_inputs plain_check) with [pa; pb; pc] in X. rewrite Q in X.
  apply X; [discriminate|discriminate|reflexivity|]. exact (interleave_concat [[Plain da]; [Plain db]; [Plain dc]]).
Qed.
