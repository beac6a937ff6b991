(** C111: create while the files change. *)
From Coq Require Import Lia.
From Verif Require Import M_Cli M_Moving M_RefLibm Spec_Bits Spec_Hash Spec_V2 Spec_V1 Spec_Bloom Spec_Libm Spec_Lines Spec_Cli P_Base P_V2Make P_V2Size P_V1Codec P_Codec P_Bloom P_Lines P_Batch P_Par P_Sink P_Geom P_Create
  Prop_Bits Prop_Make Prop_Par Prop_Create Ex_Base Ex_V1 Ex_Cli.
Open Scope N_scope.

(** Files that stay as they are: the command as before. *)
Lemma moving_still pr L wy par w room jobs a : cmd_create_moving pr L wy par w w w w room jobs a = cmd_create pr L wy par w room jobs a.
Proof. reflexivity. Qed.
Lemma moving_inv pr L wy par w0 w1 w2 jobs a ls g : file_lines w1 (ca_dataset a) ls -> len ls < two64 -> ca_probability a < two64 -> ca_dataset a <> [] -> create_filter_moving pr L wy par w0 w1 w2 jobs a = Ok g ->
  exists l f, bf_with_version_capacity_opt pr L (ca_version a) (len ls) (ca_probability a) l = Ok f /\ parallel_insert pr L wy par w2 f (ca_dataset a) jobs = Ok g.
Proof.
  intros F Hn Hp Ne E. unfold create_filter_moving in E. destruct (check_output _ _ _) as [[]| |]; cbn [obind] in E; try discriminate. pose proof (count_ok pr par w1 _ jobs ls F Hn) as Q.
  destruct (ca_dataset a) as [|p r] eqn:D; [contradiction|]. rewrite Q in E. cbn [obind] in E. destruct (opt_of_u8 _) as [l| |]; cbn [obind] in E; try discriminate.
  unfold bf_of_params in E. cbn [p_version p_capacity p_fpp p_opt params_opt params_version params_new] in E. destruct (bf_with_version_capacity_opt _ _ _ _ _ l) as [f| |] eqn:M; cbn [obind] in E; try discriminate. eauto.
Qed.
(** Full statement: create writes a filter that contains every line it read. When it succeeds, the capacity is the number of lines
    at the time of counting, and what the filter contains are the lines at the time of inserting. Other files, and the output until
    then, are left as they have become. *)
Theorem C111_contained pr L wy par w0 w1 w2 w3 room jobs a ls g : fs_bytes w2 -> file_lines w1 (ca_dataset a) ls -> len ls < two64 -> ca_probability a < two64 -> ca_dataset a <> [] ->
  create_filter_moving pr L wy par w0 w1 w2 jobs a = Ok g -> len (bf_write g) <= room ->
  bf_capacity g = len ls /\
  (exists ls2, file_lines w2 (ca_dataset a) ls2 /\ (bf_has_bits g -> forall d, In d ls2 -> bf_contains_bytes wy g d = Ok true)) /\
  exists w' c, cmd_create_moving pr L wy par w0 w1 w2 w3 room jobs a = (w', Ok tt) /\ w' (ca_file a) = Some c /\ (forall pr', bf_from_reader pr' c = Ok g) /\ forall q, q <> ca_file a -> w' q = w3 q.
Proof.
  intros B F Hn Hp Ne C Hr. destruct (moving_inv _ _ _ _ _ _ _ _ _ _ _ F Hn Hp Ne C) as (l & f & M & G). destruct (fresh_facts wy pr L _ _ _ _ f Hn Hp M) as (W & P & Cf & Zf & K).
  destruct (parallel_sem _ _ _ _ _ _ _ _ _ W B G) as (ls2 & Fl & Wg & Fr & D & S). pose proof (parallel_kept _ _ _ _ _ _ _ _ _ K B G) as Kg.
  split; [rewrite (bf_frame_capacity _ _ Fr); exact Cf|]. split.
  - exists ls2. split; [exact Fl|]. intros HB d Hd. destruct (parallel_holds pr L wy par w2 f (ca_dataset a) jobs g (fun _ => False) ls2) as (K' & H' & I'); [exists (fun _ => False); split; [exact (bh_make wy L pr _ _ _ _ f Hn Hp M)|auto]|exact B|exact Fl|exact G|].
    exact (bf_hist_contains wy L g K' d H' (I' d (or_intror Hd)) HB).
  - exists (fs_set w3 (ca_file a) (bf_write g)), (bf_write g). unfold cmd_create_moving. rewrite C. split; [exact (save_ok _ _ _ _ Hr)|]. split; [apply fs_set_same|]. split; [intro pr'; exact (bf_kept_roundtrip pr' _ _ _ Kg)|].
    intros q Hq. now apply fs_set_other.
Qed.
(** When it fails, the files are as the others left them, except for lack of room while saving. *)
Theorem C111_failed pr L wy par w0 w1 w2 w3 room jobs a w' r : cmd_create_moving pr L wy par w0 w1 w2 w3 room jobs a = (w', r) -> r <> Ok tt ->
  (forall q, q <> ca_file a -> w' q = w3 q) /\ (w' (ca_file a) = w3 (ca_file a) \/ exists g, create_filter_moving pr L wy par w0 w1 w2 jobs a = Ok g /\ r = Err IoError /\ room < len (bf_write g)).
Proof.
  unfold cmd_create_moving. destruct (create_filter_moving pr L wy par w0 w1 w2 jobs a) as [g|e|]; intros E N; [|injection E as <- <-; split; [reflexivity|now left]..]. split; [intros q; exact (save_others _ _ _ _ _ _ q E)|].
  right. exists g. split; [reflexivity|]. destruct (save_err _ _ _ _ _ _ E) as [Q|Q]; [contradiction|exact Q].
Qed.
(** It does succeed if there are no more lines than were counted (release builds, and debug builds with version 1 or one batch). *)
Theorem C111_fits_partial pr L wy par w0 w1 w2 jobs a ls ls2 : libm_ln2_sq L -> libm_ln_range L -> fs_bytes w2 -> good_args pr w0 a -> ca_dataset a <> [] -> file_lines w1 (ca_dataset a) ls -> len ls < 9007199254740992 ->
  file_lines w2 (ca_dataset a) ls2 -> len ls2 <= len ls ->
  (exists g, create_filter_moving pr L wy par w0 w1 w2 jobs a = Ok g) \/
  (create_filter_moving pr L wy par w0 w1 w2 jobs a = Panic /\ pr = Debug /\ ca_version a = 2 /\ 1 < len (batches (ca_dataset a) (optimal_jobs par jobs))).
Proof.
  intros A B Bw (GO & V & O & Hp & R) Ne F Hn F2 H2. assert (H64 : len ls < two64) by (unfold two64; lia). destruct (opt_of_u8_good _ O) as (l & El). destruct (make_good pr L _ (len ls) _ l A B V R Hn) as (f & Ef).
  assert (E0 : create_filter_moving pr L wy par w0 w1 w2 jobs a = parallel_insert pr L wy par w2 f (ca_dataset a) jobs).
  { unfold create_filter_moving. rewrite (check_output_good _ _ _ GO). cbn [obind]. pose proof (count_ok pr par w1 _ jobs ls F H64) as Q. destruct (ca_dataset a) as [|p r] eqn:D; [contradiction|]. rewrite Q. cbn [obind]. rewrite El. cbn [obind].
    unfold bf_of_params. cbn [p_version p_capacity p_fpp p_opt params_opt params_version params_new]. rewrite Ef. reflexivity. }
  destruct (fresh_facts wy pr L _ _ _ _ f H64 Hp Ef) as (W & P & Cf & Zf & K). pose proof (fresh_usable pr L _ _ _ _ f A B H64 Ef) as U.
  assert (Vf : bf_version f = ca_version a) by (pose proof (bf_make_inv _ _ _ _ _ _ _ Ef) as Q; destruct f; destruct Q as [-> _]; reflexivity).
  rewrite E0. destruct (parallel_fits pr L wy par w2 f (ca_dataset a) jobs ls2 W U P Bw F2) as [G|(G & D & Q & M)]; [now rewrite Cf|rewrite Cf, Zf; lia|now left|right]. split; [exact G|]. split; [exact D|]. split; [congruence|exact M].
Qed.
(** With one batch a filter never counts more entries than were counted: if the files grew too much, create panics. *)
Lemma inserts_capped pr wy f ds g : bf_wf f -> Forall bytes_ok ds -> bf_capacity f < two64 -> bf_count_estimate f <= bf_capacity f -> inserts pr wy f ds g -> bf_count_estimate g <= bf_capacity g.
Proof.
  intros W B C H I. revert W B C H. induction I as [|f d g b ds h E I IH]; intros W B C H; [exact H|]. inversion B as [|? ? Bd Bds]; subst. pose proof (bf_insert_sem _ _ _ _ _ _ W Bd E) as S. pose proof (ib_cases _ _ _ _ _ _ S) as (_ & _ & Kc & Kf & _).
  pose proof (bf_frame_capacity _ _ (ib_frame _ _ _ _ _ _ S)) as Q. apply IH; [exact (ib_wf _ _ _ _ _ _ S)|exact Bds|now rewrite Q|]. rewrite Q, Kc. destruct b; [|exact H]. specialize (Kf eq_refl). rewrite w64_id by lia. lia.
Qed.
Theorem C111_one_batch pr L wy par w0 w1 w2 jobs a ls g : fs_bytes w2 -> file_lines w1 (ca_dataset a) ls -> len ls < two64 -> ca_probability a < two64 -> ca_dataset a <> [] -> optimal_jobs par jobs = 1 \/ len (ca_dataset a) = 1 ->
  create_filter_moving pr L wy par w0 w1 w2 jobs a = Ok g -> bf_count_estimate g <= len ls.
Proof.
  intros B F Hn Hp Ne J E. destruct (moving_inv _ _ _ _ _ _ _ _ _ _ _ F Hn Hp Ne E) as (l & f & M & G). destruct (fresh_facts wy pr L _ _ _ _ f Hn Hp M) as (W & P & Cf & Zf & K).
  apply (proj1 (C42_one_batch_partial pr L wy par w2 f (ca_dataset a) jobs Ne J)) in G as (ls2 & Fl & I). pose proof (file_lines_bytes _ _ _ B Fl) as Bl. pose proof (inserts_sem _ _ _ _ _ W Bl I) as (Fr & _).
  pose proof (inserts_capped pr wy f ls2 g W Bl ltac:(now rewrite Cf) ltac:(rewrite Zf; lia) I) as Q. rewrite (bf_frame_capacity _ _ Fr), Cf in Q. exact Q.
Qed.
(** Files that grew: two lines each instead of one. *)
Definition dq : list byte := [113].
Definition grown : fs := fs_set (fs_set txt pa (da ++ 10 :: db ++ 10 :: [])) pb (dc ++ 10 :: dq ++ 10 :: []).
Lemma plain_line l x c es : ~ In LF (l ++ [x]) -> x <> CR -> text c es -> text ((l ++ [x]) ++ 10 :: c) ((l ++ [x]) :: es).
Proof. intros A B T. apply text_lf; [exact A|now apply not_cr|exact T]. Qed.
Lemma grown_ab : file_lines grown [pa; pb] [da; db; dc; dq].
Proof.
  apply (fl_cons grown pa (da ++ 10 :: db ++ [10]) [da; db] [pb] [dc; dq]); [reflexivity|apply utf8_valid_iff; reflexivity| |apply (fl_cons grown pb (dc ++ 10 :: dq ++ [10]) [dc; dq] [] []); [reflexivity|apply utf8_valid_iff; reflexivity| |constructor]].
  - apply (plain_line [104; 101; 108; 108] 111); [not_in|discriminate|]. apply (plain_line [112; 111; 112; 112] 121); [not_in|discriminate|constructor].
  - apply (plain_line [98; 97] 114); [not_in|discriminate|]. apply (plain_line [] 113); [not_in|discriminate|constructor].
Qed.
Lemma txt_ab : file_lines txt [pa; pb] [da; db].
Proof. pose proof txt_b as B. apply (fl_cons txt pa (da ++ [10]) [da] [pb] [db]); [reflexivity|apply utf8_valid_iff; reflexivity|apply (plain_line [104; 101; 108; 108] 111); [not_in|discriminate|constructor]|exact B]. Qed.
Lemma grown_bytes : fs_bytes grown.
Proof. intros p c. unfold grown, fs_set. destruct (list_eqb pb p); [|destruct (list_eqb pa p); [|apply txt_bytes]]; intro E; injection E as <-; repeat (constructor; [reflexivity|]); constructor. Qed.
Definition two_files : create_args := {| ca_version := 1; ca_capacity := 0; ca_probability := p001; ca_optimize := 0; ca_file := [1]; ca_dataset := [pa; pb] |}.
Lemma two_files_good : good_args Release txt two_files.
Proof. split; [now left|]. split; [now left|]. split; [discriminate|]. split; [reflexivity|vm_compute; reflexivity]. Qed.
Theorem C111_grown_refuted : exists wy w1 w2 a ls ls2, fs_bytes w2 /\ good_args Release w1 a /\ file_lines w1 (ca_dataset a) ls /\ file_lines w2 (ca_dataset a) ls2 /\
  forall w3 room, cmd_create_moving Release ref_libm wy None w1 w1 w2 w3 room 1 a = (w3, Panic).
Proof.
  exists (fun _ => 0), txt, grown, two_files, [da; db], [da; db; dc; dq]. split; [exact grown_bytes|]. split; [exact two_files_good|]. split; [exact txt_ab|]. split; [exact grown_ab|]. intros w3 room. unfold cmd_create_moving.
  assert (E : create_filter_moving Release ref_libm (fun _ => 0) None txt txt grown 1 two_files = Panic) by (vm_compute; reflexivity). rewrite E. reflexivity.
Qed.
(** With two jobs the same files are accepted: four entries in a filter made for two, whose rate was chosen for two. *)
Theorem C111_over_refuted : exists wy w1 w2 a ls ls2 g, fs_bytes w2 /\ good_args Release w1 a /\ file_lines w1 (ca_dataset a) ls /\ file_lines w2 (ca_dataset a) ls2 /\ NoDup ls2 /\
  create_filter_moving Release ref_libm wy None w1 w1 w2 2 a = Ok g /\ bf_capacity g < len ls2 /\ bf_capacity g < bf_count_estimate g.
Proof.
  exists (fun _ => 0), txt, grown, two_files, [da; db], [da; db; dc; dq]. eexists. split; [exact grown_bytes|]. split; [exact two_files_good|]. split; [exact txt_ab|]. split; [exact grown_ab|].
  split; [repeat (constructor; [intro Q; cbn in Q; repeat (destruct Q as [Q|Q]; [discriminate Q|]); exact Q|]); constructor|]. split; [vm_compute; reflexivity|]. split; vm_compute; reflexivity.
Qed.
(** The output is only looked at in the beginning: a file that appeared since then is lost, whatever it is. *)
Theorem C111_output_refuted : exists wy w w3 a c, good_args Release w a /\ fs_bytes w3 /\ w3 (ca_file a) = Some c /\ (forall pr f, bf_from_reader pr c <> Ok f) /\
  exists w' c', cmd_create_moving Release ref_libm wy None w w w w3 1000 1 a = (w', Ok tt) /\ w' (ca_file a) = Some c' /\ c' <> c.
Proof.
  exists (fun _ => 0), txt, (fs_set txt [1] da), two_files, da. split; [exact two_files_good|]. split; [|split; [reflexivity|]].
  { intros p c. unfold fs_set. destruct (list_eqb [1] p); [|apply txt_bytes]. intro E. injection E as <-. repeat (constructor; [reflexivity|]). constructor. }
  split; [intros [] f; vm_compute; discriminate|].
  assert (Q : exists g, create_filter_moving Release ref_libm (fun _ => 0) None txt txt txt 1 two_files = Ok g /\ (len (bf_write g) <=? 1000) = true /\ hd 0 (bf_write g) = 1) by (eexists; split; [vm_compute; reflexivity|split; vm_compute; reflexivity]).
  destruct Q as (g & E & R & H). exists (fs_set (fs_set txt [1] da) [1] (bf_write g)), (bf_write g). unfold cmd_create_moving. rewrite E. split; [apply save_ok; now apply N.leb_le|]. split; [apply fs_set_same|]. intro Q. rewrite Q in H. discriminate H.
Qed.
Print Assumptions C111_contained.
Print Assumptions C111_failed.
Print Assumptions C111_fits_partial.
Print Assumptions C111_one_batch.
Print Assumptions C111_grown_refuted.
Print Assumptions C111_over_refuted.
Print Assumptions C111_output_refuted.
(** A dataset that lost a file's second line between the passes: the filter has room left and contains what was read. *)
Example C111_example : file_lines grown [pa; pb] [da; db; dc; dq] /\ file_lines txt [pa; pb] [da; db] /\
  exists g, create_filter_moving Release ref_libm (fun _ => 0) None txt grown txt 1 two_files = Ok g /\ bf_capacity g = 4 /\ bf_count_estimate g = 2 /\ bf_contains_bytes (fun _ => 0) g db = Ok true.
Proof. split; [exact grown_ab|]. split; [exact txt_ab|]. eexists. split; [vm_compute; reflexivity|]. split; [vm_compute; reflexivity|]. split; vm_compute; reflexivity. Qed.
