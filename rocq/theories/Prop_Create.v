(** The create and insert commands (C46, C47). *)
From Coq Require Import Lia.
From Verif Require Import M_Cli M_RefLibm Spec_Bits Spec_Hash Spec_V2 Spec_V1 Spec_Bloom Spec_Libm Spec_Lines Spec_Cli P_Base P_V2Make P_V2Size P_V1Codec P_Codec P_Bloom P_Lines P_Batch P_Par P_Sink P_Geom P_Create
  Prop_Bits Prop_Make Ex_Base Ex_V1 Ex_Cli.
Open Scope N_scope.

(** * C46 *)
(** Arguments create accepts: a known version and level, a probability in range, and an output that does not exist or is a
    filter. *)
Definition good_output (pr : profile) (w : fs) (p : path) : Prop := w p = None \/ exists c f, w p = Some c /\ bf_from_reader pr c = Ok f.
Definition good_args (pr : profile) (w : fs) (a : create_args) : Prop :=
  good_output pr w (ca_file a) /\ (ca_version a = 1 \/ ca_version a = 2) /\ ca_optimize a <= 3 /\ ca_probability a < two64 /\ fpp_in_range (ca_probability a) = true.
Lemma check_output_good pr w p : good_output pr w p -> check_output pr w p = Ok tt.
Proof. unfold check_output. intros [->|(c & f & -> & ->)]; reflexivity. Qed.
Lemma opt_of_u8_good o : o <= 3 -> exists l, opt_of_u8 o = Ok l.
Proof. intro H. assert (C : o = 0 \/ o = 1 \/ o = 2 \/ o = 3) by lia. destruct C as [->|[->|[->| ->]]]; eexists; reflexivity. Qed.
Lemma opt_of_u8_bad o : 3 < o -> opt_of_u8 o = Err (OptLevelError o).
Proof. intro H. unfold opt_of_u8. cbn [opt_to_u8]. destruct (N.eqb_spec o 0); [lia|]. destruct (N.eqb_spec o 1); [lia|]. destruct (N.eqb_spec o 2); [lia|]. destruct (N.eqb_spec o 3); [lia|reflexivity]. Qed.
Lemma create_unfold pr L wy par w jobs a l n : check_output pr w (ca_file a) = Ok tt -> ca_dataset a <> [] -> count_lines_parallel pr par w (ca_dataset a) jobs = Ok n -> opt_of_u8 (ca_optimize a) = Ok l ->
  create_filter pr L wy par w jobs a = (let? b := bf_with_version_capacity_opt pr L (ca_version a) n (ca_probability a) l in parallel_insert pr L wy par w b (ca_dataset a) jobs).
Proof. intros E1 Ne E2 E3. unfold create_filter. rewrite E1. cbn [obind]. destruct (ca_dataset a) as [|p r] eqn:D; [contradiction|]. rewrite E2. cbn [obind]. rewrite E3. reflexivity. Qed.
Lemma make_good pr L v n p l : libm_ln2_sq L -> libm_ln_range L -> v = 1 \/ v = 2 -> fpp_in_range p = true -> n < 9007199254740992 -> exists f, bf_with_version_capacity_opt pr L v n p l = Ok f.
Proof.
  intros A B V R Hn. unfold bf_with_version_capacity_opt. destruct V as [->| ->]; cbn [N.eqb Pos.eqb].
  - destruct (C23_v1_make_succeeds L n p R) as (f & ->). eexists. reflexivity.
  - destruct (make_succeeds pr L n p l A B R Hn) as (f & ->). eexists. reflexivity.
Qed.
(** Full statement: from text files and good arguments, create writes a filter of capacity the number of lines containing
    every line. Proved for release builds and less than 2^53 lines, except that a filter without bits (v1, fpp 1.0) contains
    nothing (C46_refuted); in debug builds merging several v2 filters may panic (see C28, C55: saturated buckets). *)
Theorem C46_create_partial pr L wy par w room jobs a ls : libm_ln2_sq L -> libm_ln_range L -> fs_bytes w -> good_args pr w a -> ca_dataset a <> [] -> file_lines w (ca_dataset a) ls -> len ls < 9007199254740992 ->
  (exists g, create_filter pr L wy par w jobs a = Ok g /\ bf_capacity g = len ls /\ bf_version g = ca_version a /\ bf_fpp g = ca_probability a /\
     (bf_has_bits g -> forall d, In d ls -> bf_contains_bytes wy g d = Ok true) /\
     (len (bf_write g) <= room -> exists w' c, cmd_create pr L wy par w room jobs a = (w', Ok tt) /\ w' (ca_file a) = Some c /\ (forall pr', bf_from_reader pr' c = Ok g) /\ forall q, q <> ca_file a -> w' q = w q)) \/
  (create_filter pr L wy par w jobs a = Panic /\ pr = Debug /\ ca_version a = 2 /\ 1 < len (batches (ca_dataset a) (optimal_jobs par jobs))).
Proof.
  intros A B Bw (GO & V & O & Hp & R) Ne F Hn. assert (H64 : len ls < two64) by (unfold two64; lia). destruct (opt_of_u8_good _ O) as (l & El). destruct (make_good pr L _ (len ls) _ l A B V R Hn) as (f & Ef).
  assert (E0 : create_filter pr L wy par w jobs a = parallel_insert pr L wy par w f (ca_dataset a) jobs).
  { rewrite (create_unfold pr L wy par w jobs a l (len ls)); [|now apply check_output_good|exact Ne|now apply count_ok|exact El]. now rewrite Ef. }
  destruct (fresh_facts wy pr L _ _ _ _ f H64 Hp Ef) as (W & P & Cf & Zf & K). pose proof (fresh_usable pr L _ _ _ _ f A B H64 Ef) as U.
  assert (Vf : bf_version f = ca_version a) by (pose proof (bf_make_inv _ _ _ _ _ _ _ Ef) as Q; destruct f; destruct Q as [-> _]; reflexivity).
  assert (Pf : bf_fpp f = ca_probability a). { pose proof (bf_make_inv _ _ _ _ _ _ _ Ef) as Q. destruct f; destruct Q as [_ Q]; [exact (c1_fpp _ _ _ _ (v1_make_created _ _ _ _ Q))|exact (cr_fpp _ _ _ _ (v2_make_created _ _ _ _ _ _ Q))]. }
  destruct (parallel_fits pr L wy par w f (ca_dataset a) jobs ls W U P Bw F) as [(g & G)|(G & D & Q & M)]; [now rewrite Cf|rewrite Cf, Zf; lia| |right; rewrite E0; split; [exact G|]; split; [exact D|]; split; [congruence|exact M]].
  left. exists g. rewrite E0. split; [exact G|]. destruct (parallel_sem _ _ _ _ _ _ _ _ _ W Bw G) as (ls' & Fl & Wg & Fr & D & S). split; [rewrite (bf_frame_capacity _ _ Fr); exact Cf|].
  split; [rewrite <- Vf; revert Fr; destruct f, g; cbn; try contradiction; reflexivity|].
  split; [rewrite <- Pf; revert Fr; destruct f as [f|f], g as [g|g]; cbn; try contradiction; [intros (_ & _ & Q & _); exact Q|intros (_ & _ & _ & _ & Q & _); exact Q]|]. pose proof (parallel_kept _ _ _ _ _ _ _ _ _ K Bw G) as Kg. split.
  - intros HB d Hd. destruct (parallel_holds pr L wy par w f (ca_dataset a) jobs g (fun _ => False) ls) as (K' & H' & I'); [exists (fun _ => False); split; [exact (bh_make wy L pr _ _ _ _ f H64 Hp Ef)|auto]|exact Bw|exact F|exact G|].
    exact (bf_hist_contains wy L g K' d H' (I' d (or_intror Hd)) HB).
  - intro Hr. exists (fs_set w (ca_file a) (bf_write g)), (bf_write g). unfold cmd_create. rewrite E0, G. split; [exact (save_ok _ _ _ _ Hr)|]. split; [apply fs_set_same|]. split; [intro pr'; exact (bf_kept_roundtrip pr' _ _ _ Kg)|].
    intros q Hq. now apply fs_set_other.
Qed.
Print Assumptions C46_create_partial.
Lemma checked_add_cases pr a b : checked_add pr a b = Ok (a + b) /\ a + b < two64 \/ (exists m, checked_add pr a b = Ok m /\ m < two64) \/ checked_add pr a b = Panic.
Proof. unfold checked_add. destruct (N.ltb_spec (a + b) two64); [left; auto|]. right. destruct pr; [now right|left]. eexists. split; [reflexivity|apply w64_lt]. Qed.
Lemma count_batch_cases pr w b : forall acc, acc < two64 -> (exists n, count_lines_batch pr w acc b = Ok n /\ n < two64) \/ count_lines_batch pr w acc b = Err IoError \/ count_lines_batch pr w acc b = Panic.
Proof.
  induction b as [|q b IH]; intros acc H; [left; eexists; split; [reflexivity|exact H]|]. cbn [count_lines_batch]. unfold fs_open. destruct (w q) as [c|]; cbn [obind]; [|auto].
  destruct (checked_add_cases pr acc (len (lines c))) as [[-> Q]|[(m & -> & Q)| ->]]; cbn [obind]; auto.
Qed.
Lemma sum_joined_cases pr l : Forall (fun r => (exists n, r = Ok n) \/ r = Err IoError \/ r = Panic) l -> forall acc, acc < two64 ->
  (exists n, sum_joined pr acc l = Ok n /\ n < two64) \/ sum_joined pr acc l = Err IoError \/ sum_joined pr acc l = Panic.
Proof.
  induction 1 as [|r l [(n & ->)|[-> | ->]] _ IH]; intros acc H; cbn [sum_joined obind]; auto; [eauto|]. destruct (checked_add_cases pr acc n) as [[-> Q]|[(m & -> & Q)| ->]]; cbn [obind]; auto.
Qed.
Lemma count_cases pr par w files jobs : (exists n, count_lines_parallel pr par w files jobs = Ok n /\ n < two64) \/ count_lines_parallel pr par w files jobs = Err IoError \/ count_lines_parallel pr par w files jobs = Panic.
Proof.
  apply sum_joined_cases; [|reflexivity]. apply Forall_forall. intros r Hr. apply in_map_iff in Hr as (b & <- & _). destruct (count_batch_cases pr w b 0 eq_refl) as [(n & -> & _)|[-> | ->]]; eauto.
Qed.
(** Never TooManyEntries, for any arguments, capacity, math library and build. *)
Theorem C46_never_full pr L wy par w jobs a : fs_bytes w -> ca_probability a < two64 -> ca_dataset a <> [] -> create_filter pr L wy par w jobs a <> Err TooManyEntries.
Proof.
  intros Bw Hp Ne. unfold create_filter. destruct (check_output pr w (ca_file a)) as [[]|e|] eqn:E1; cbn [obind]; [| |discriminate].
  2:{ unfold check_output in E1. destruct (w (ca_file a)) as [c|]; [|discriminate]. destruct (bf_from_reader pr c); [discriminate|injection E1 as <-; discriminate|discriminate]. }
  destruct (ca_dataset a) as [|p r] eqn:D; [contradiction|]. rewrite <- D in *. clear D p r Ne. destruct (count_cases pr par w (ca_dataset a) jobs) as [(n & -> & Hn)|[-> | ->]]; cbn [obind]; [|discriminate..].
  destruct (opt_of_u8 (ca_optimize a)) as [l|e|] eqn:E3; cbn [obind]; [| |discriminate].
  2:{ destruct (N.le_gt_cases (ca_optimize a) 3) as [O|O]; [destruct (opt_of_u8_good _ O) as (l & Q); congruence|rewrite (opt_of_u8_bad _ O) in E3; injection E3 as <-; discriminate]. }
  unfold bf_of_params. cbn [p_version p_capacity p_fpp p_opt params_opt params_version params_new]. destruct (bf_with_version_capacity_opt pr L (ca_version a) n (ca_probability a) l) as [f|e|] eqn:E4; cbn [obind]; [| |discriminate].
  - assert (P : bf_fpp_real f /\ bf_wf f).
    { destruct (fresh_facts wy pr L _ _ _ _ f Hn Hp E4) as (W & Q & _). auto. }
    destruct P as [P W]. destruct (parallel_cases pr L wy par w f (ca_dataset a) jobs W Bw P) as [(g & ->)|(-> & _)]; discriminate.
  - intro Q. injection Q as ->. unfold bf_with_version_capacity_opt in E4. destruct (C37_constructors pr L n (ca_probability a) l) as [C1 C2]. destruct (fpp_in_range (ca_probability a)).
    + destruct (C2 eq_refl) as [(f & Q1) Q2]. destruct (ca_version a =? 1); [rewrite Q1 in E4; discriminate|]. destruct (ca_version a =? 2); [|discriminate]. destruct (v2_make pr L n (ca_probability a) l) as [f2|e|] eqn:Q3; [discriminate|contradiction (Q2 e eq_refl)|discriminate].
    + destruct (C1 eq_refl) as (Q1 & Q2 & _). rewrite Q1, Q2 in E4. destruct (ca_version a =? 1); [discriminate|]. destruct (ca_version a =? 2); discriminate.
Qed.
Print Assumptions C46_never_full.
(** A v1 filter for probability 1.0 is created and written, and does not contain its line. *)
Theorem C46_refuted : exists wy w a g, fs_bytes w /\ good_args Release w a /\ file_lines w (ca_dataset a) [da] /\ create_filter Release ref_libm wy None w 1 a = Ok g /\ bf_capacity g = 1 /\
  bf_contains_bytes wy g da = Ok false.
Proof.
  exists (fun _ => 0), txt, {| ca_version := 1; ca_capacity := 0; ca_probability := p1; ca_optimize := 0; ca_file := [1]; ca_dataset := [pa] |}. eexists.
  split; [exact txt_bytes|]. split; [split; [now left|]; split; [now left|]; split; [discriminate|]; split; [reflexivity|vm_compute; reflexivity]|]. split; [exact txt_a|].
  split; [vm_compute; reflexivity|]. split; vm_compute; reflexivity.
Qed.
Print Assumptions C46_refuted.
(** A dataset of three files, created by two jobs. *)
Definition ex_create : create_args := {| ca_version := 1; ca_capacity := 0; ca_probability := p001; ca_optimize := 0; ca_file := [1]; ca_dataset := [pa; pb; pc] |}.
Example C46_example : good_args Release txt ex_create /\ file_lines txt (ca_dataset ex_create) [da; db; dc] /\
  exists w', cmd_create Release ref_libm (fun _ => 0) None txt 1000 2 ex_create = (w', Ok tt) /\ exists c g, w' [1] = Some c /\ bf_from_reader Release c = Ok g /\ bf_capacity g = 3 /\ bf_count_estimate g = 3 /\
    bf_contains_bytes (fun _ => 0) g db = Ok true.
Proof.
  split; [split; [now left|]; split; [now left|]; split; [discriminate|]; split; [reflexivity|vm_compute; reflexivity]|]. split; [exact txt_abc|].
  assert (Q : exists g, create_filter Release ref_libm (fun _ => 0) None txt 2 ex_create = Ok g /\ (len (bf_write g) <=? 1000) = true /\ bf_from_reader Release (bf_write g) = Ok g /\ bf_capacity g = 3 /\
            bf_count_estimate g = 3 /\ bf_contains_bytes (fun _ => 0) g db = Ok true).
  { eexists. split; [vm_compute; reflexivity|]. split; [vm_compute; reflexivity|]. split; [vm_compute; reflexivity|]. split; [vm_compute; reflexivity|]. split; vm_compute; reflexivity. }
  destruct Q as (g & E & R & Q). exists (fs_set txt [1] (bf_write g)). unfold cmd_create. rewrite E. split; [apply save_ok; now apply N.leb_le|]. exists (bf_write g), g. split; [apply fs_set_same|exact Q].
Qed.

(** * C47 *)
(** Whatever the result, no other file changes; and the filter file only changes once the whole filter was built: a failing
    command that changed it failed while saving, for lack of room. *)
Lemma save_others w p f room w' r q : save w p f room = (w', r) -> q <> p -> w' q = w q.
Proof. unfold save. destruct (write_to_sink _ _) as [s r0]. intros E N. injection E as <- _. now apply fs_set_other. Qed.
Theorem C47_create pr L wy par w room jobs a w' r : cmd_create pr L wy par w room jobs a = (w', r) ->
  (forall q, q <> ca_file a -> w' q = w q) /\
  (r <> Ok tt -> w' = w \/ exists g, create_filter pr L wy par w jobs a = Ok g /\ r = Err IoError /\ room < len (bf_write g)).
Proof.
  unfold cmd_create. destruct (create_filter pr L wy par w jobs a) as [g|e|]; intro E; [|injection E as <- <-; split; [reflexivity|now left]..]. split; [intros q; exact (save_others _ _ _ _ _ _ q E)|].
  intro N. right. exists g. split; [reflexivity|]. destruct (save_err _ _ _ _ _ _ E) as [Q|Q]; [contradiction|exact Q].
Qed.
Print Assumptions C47_create.
Theorem C47_insert pr L wy par w stdin room jobs a w' r : cmd_insert pr L wy par w stdin room jobs a = (w', r) ->
  (forall q, q <> ia_file a -> w' q = w q) /\
  (r <> Ok tt -> w' = w \/ exists g, insert_filter pr L wy par w stdin jobs a = Ok g /\ r = Err IoError /\ room < len (bf_write g)).
Proof.
  unfold cmd_insert. destruct (insert_filter pr L wy par w stdin jobs a) as [g|e|]; intro E; [|injection E as <- <-; split; [reflexivity|now left]..]. split; [intros q; exact (save_others _ _ _ _ _ _ q E)|].
  intro N. right. exists g. split; [reflexivity|]. destruct (save_err _ _ _ _ _ _ E) as [Q|Q]; [contradiction|exact Q].
Qed.
Print Assumptions C47_insert.
(** The listed failures of create: each makes it fail and leaves every file as it was. *)
Inductive create_cannot (pr : profile) (w : fs) (a : create_args) : Prop :=
| cc_output c e : w (ca_file a) = Some c -> bf_from_reader pr c = Err e -> create_cannot pr w a
| cc_dataset p : In p (ca_dataset a) -> bad_file w p -> create_cannot pr w a
| cc_version : ca_version a <> 1 -> ca_version a <> 2 -> create_cannot pr w a
| cc_optimize : 3 < ca_optimize a -> create_cannot pr w a
| cc_probability : fpp_in_range (ca_probability a) = false -> create_cannot pr w a.
Theorem C47_create_fails pr L wy par w room jobs a w' r : create_cannot pr w a -> cmd_create pr L wy par w room jobs a = (w', r) -> w' = w /\ r <> Ok tt.
Proof.
  intros H E. assert (Q : forall g, create_filter pr L wy par w jobs a <> Ok g).
  { intros g G. unfold create_filter in G. destruct (check_output pr w (ca_file a)) as [[]|e|] eqn:E1; [|discriminate..]. cbn [obind] in G.
    match type of G with obind ?c _ = _ => destruct c as [n|e|] end; [|discriminate..]. cbn [obind] in G. destruct (opt_of_u8 (ca_optimize a)) as [l|e|] eqn:E3; [|discriminate..]. cbn [obind] in G.
    unfold bf_of_params in G. cbn [p_version p_capacity p_fpp p_opt params_opt params_version params_new] in G. destruct (bf_with_version_capacity_opt pr L (ca_version a) n (ca_probability a) l) as [f|e|] eqn:E4; [|discriminate..]. cbn [obind] in G.
    destruct H as [c e C1 C2|p Hp B|V1 V2|O|R].
    - unfold check_output in E1. rewrite C1, C2 in E1. discriminate.
    - rewrite (parallel_bad _ _ _ _ _ _ _ _ p Hp B) in G. discriminate.
    - unfold bf_with_version_capacity_opt in E4. destruct (N.eqb_spec (ca_version a) 1); [contradiction|]. destruct (N.eqb_spec (ca_version a) 2); [contradiction|discriminate].
    - rewrite (opt_of_u8_bad _ O) in E3. discriminate.
    - destruct (C37_constructors pr L n (ca_probability a) l) as [C1 _]. destruct (C1 R) as (Q1 & Q2 & _). unfold bf_with_version_capacity_opt in E4. rewrite Q1, Q2 in E4. destruct (ca_version a =? 1); [discriminate|]. destruct (ca_version a =? 2); discriminate. }
  unfold cmd_create in E. destruct (create_filter pr L wy par w jobs a) as [g|e|]; [contradiction (Q g eq_refl)|injection E as <- <-; split; [reflexivity|discriminate]..].
Qed.
Print Assumptions C47_create_fails.
(** And of insert. [stdin_lines] are the lines it reads from stdin (with --stdin, or without input files). The last case: with
    one job, more lines than the filter takes. *)
Definition reads_stdin (a : insert_args) : Prop := ia_stdin a = true \/ ia_inputs a = [].
Definition stdin_lines (a : insert_args) (stdin : list byte) (ls : list (list byte)) : Prop := reads_stdin a /\ utf8 stdin /\ text stdin ls \/ ~ reads_stdin a /\ ls = [].
Inductive insert_cannot (pr : profile) (wy : hasher) (par : parallelism) (w : fs) (stdin : list byte) (jobs : N) (a : insert_args) : Prop :=
| ic_missing : w (ia_file a) = None -> insert_cannot pr wy par w stdin jobs a
| ic_reject c e : w (ia_file a) = Some c -> bf_from_reader pr c = Err e -> insert_cannot pr wy par w stdin jobs a
| ic_input p : In p (ia_inputs a) -> bad_file w p -> insert_cannot pr wy par w stdin jobs a
| ic_stdin : reads_stdin a -> ~ utf8 stdin -> insert_cannot pr wy par w stdin jobs a
| ic_full_stdin c f ls : stdin_lines a stdin ls -> w (ia_file a) = Some c -> bf_from_reader pr c = Ok f -> (forall g, ~ inserts pr wy f ls g) -> insert_cannot pr wy par w stdin jobs a
| ic_full c f sls ls : stdin_lines a stdin sls -> w (ia_file a) = Some c -> bf_from_reader pr c = Ok f -> optimal_jobs par jobs = 1 -> file_lines w (ia_inputs a) ls -> (forall g, ~ inserts pr wy f (sls ++ ls) g) ->
    insert_cannot pr wy par w stdin jobs a.
Lemma reads_stdin_b a : reads_stdin a <-> ia_stdin a || is_nil (ia_inputs a) = true.
Proof. unfold reads_stdin. rewrite Bool.orb_true_iff. destruct (ia_inputs a); cbn [is_nil]; [tauto|]. split; intros [H|H]; auto; discriminate. Qed.
Lemma inserts_app pr wy f a : forall g b h, inserts pr wy f a g -> inserts pr wy g b h -> inserts pr wy f (a ++ b) h.
Proof. intros g b h I. revert b h. induction I; cbn [app]; intros b' h' J; [exact J|]. econstructor; eauto. Qed.
(** What insert does. *)
Lemma insert_filter_inv pr L wy par w stdin jobs a g : insert_filter pr L wy par w stdin jobs a = Ok g ->
  exists c f sls f1, w (ia_file a) = Some c /\ bf_from_reader pr c = Ok f /\ stdin_lines a stdin sls /\ inserts pr wy f sls f1 /\ parallel_insert pr L wy par w f1 (ia_inputs a) jobs = Ok g.
Proof.
  intro G. unfold insert_filter, fs_open in G. destruct (w (ia_file a)) as [c|] eqn:E1; [|discriminate]. cbn [obind] in G. destruct (bf_from_reader pr c) as [f|e|] eqn:E2; [|discriminate..]. cbn [obind] in G.
  destruct (ia_stdin a || is_nil (ia_inputs a)) eqn:S.
  - destruct (insert_lines pr wy f (lines stdin)) as [f1 r1] eqn:E3. destruct r1 as [[]|e|]; [|discriminate..]. cbn [obind] in G. destruct (text_total (length stdin) stdin (Nat.le_refl _)) as (es & T).
    apply (insert_content pr wy f stdin f1 es T) in E3 as [U I]. exists c, f, es, f1. split; [reflexivity|]. split; [exact E2|]. split; [left; split; [now apply reads_stdin_b|auto]|]. auto.
  - cbn [obind] in G. exists c, f, [], f. split; [reflexivity|]. split; [exact E2|]. split; [right; split; [rewrite reads_stdin_b; congruence|reflexivity]|]. split; [constructor|exact G].
Qed.
Lemma stdin_lines_det a stdin l l' : stdin_lines a stdin l -> stdin_lines a stdin l' -> l' = l.
Proof. intros [(R & _ & T)|(R & ->)] [(R' & _ & T')|(R' & ->)]; [exact (text_det _ _ T _ T')|contradiction..|reflexivity]. Qed.
Theorem C47_insert_fails pr L wy par w stdin room jobs a w' r : insert_cannot pr wy par w stdin jobs a -> cmd_insert pr L wy par w stdin room jobs a = (w', r) -> w' = w /\ r <> Ok tt.
Proof.
  intros H E. assert (Q : forall g, insert_filter pr L wy par w stdin jobs a <> Ok g).
  { intros g G. apply insert_filter_inv in G as (c0 & f0 & sls0 & f1 & E1 & E2 & S & I & G). destruct H as [M|c e M M'|p Hp B|R U|c f ls S' M M' F|c f sls ls S' M M' J Fl F].
    - congruence.
    - congruence.
    - rewrite (parallel_bad _ _ _ _ _ _ _ _ p Hp B) in G. discriminate.
    - destruct S as [(_ & U' & _)|(R' & _)]; contradiction.
    - assert (f0 = f) as -> by congruence. rewrite (stdin_lines_det _ _ _ _ S' S) in I. exact (F f1 I).
    - assert (f0 = f) as -> by congruence. rewrite (stdin_lines_det _ _ _ _ S' S) in I. destruct (ia_inputs a) as [|p ps] eqn:Ei.
      + inversion Fl; subst. rewrite app_nil_r in F. exact (F f1 I).
      + rewrite <- Ei in *. assert (Ne : ia_inputs a <> []) by (rewrite Ei; discriminate). destruct (parallel_one pr L wy par w f1 (ia_inputs a) jobs Ne (or_introl J)) as [A _]. apply A, worker_ok in G as (ls' & Fl' & I').
        rewrite (file_lines_det _ _ _ Fl _ Fl') in I'. exact (F g (inserts_app _ _ _ _ _ _ _ I I')). }
  unfold cmd_insert in E. destruct (insert_filter pr L wy par w stdin jobs a) as [g|e|]; [contradiction (Q g eq_refl)|injection E as <- <-; split; [reflexivity|discriminate]..].
Qed.
Print Assumptions C47_insert_fails.
(** The probability 0 is refused; so is a filter file that is not one, or a third line for a filter of two. *)
Definition disk_q0 : fs := fun q => if list_eqb [1] q then Some (bf_write (V1 q0)) else txt q.
Definition into_q0 (files : list path) : insert_args := {| ia_stdin := false; ia_file := [1]; ia_inputs := files |}.
Example C47_example : create_cannot Release txt {| ca_version := 1; ca_capacity := 5; ca_probability := 0; ca_optimize := 0; ca_file := [1]; ca_dataset := [] |} /\
  create_cannot Release txt {| ca_version := 1; ca_capacity := 5; ca_probability := p001; ca_optimize := 0; ca_file := pa; ca_dataset := [] |} /\
  insert_cannot Release (fun _ => 0) None disk_q0 [] 1 (into_q0 [pa; pb; pc]) /\ insert_cannot Release (fun _ => 0) None disk_q0 [] 1 (into_q0 [pbad]) /\
  snd (cmd_insert Release ref_libm (fun _ => 0) None disk_q0 [] 1000 1 (into_q0 [pa; pb])) = Ok tt.
Proof.
  split; [apply cc_probability; vm_compute; reflexivity|]. split; [eapply cc_output; [reflexivity|vm_compute; reflexivity]|]. split; [|split; [|vm_compute; reflexivity]].
  - eapply (ic_full _ _ _ _ _ _ _ _ (V1 q0) [] [da; db; dc]); [right; split; [intros [H|H]; discriminate|reflexivity]|reflexivity|vm_compute; reflexivity|reflexivity| |].
    + assert (Q : forall p, In p [pa; pb; pc] -> txt p = disk_q0 p) by (intros p [<-|[<-|[<-|[]]]]; reflexivity). assert (Gen : forall fl ls, (forall p, In p fl -> txt p = disk_q0 p) -> file_lines txt fl ls -> file_lines disk_q0 fl ls).
      { intros fl ls X F. induction F; [constructor|]. econstructor; [rewrite <- (X p (or_introl eq_refl)); eassumption|assumption|assumption|]. apply IHF. intros q Hq. apply X. now right. }
      exact (Gen _ _ Q txt_abc).
    + intros g I. apply inserts_inv in I as (g1 & b1 & I1 & I). vm_compute in I1. injection I1 as <- <-. apply inserts_inv in I as (g2 & b2 & I2 & I). vm_compute in I2. injection I2 as <- <-. apply inserts_inv in I as (g3 & b3 & I3 & _). vm_compute in I3. discriminate.
  - eapply (ic_input _ _ _ _ _ _ _ pbad); [now left|]. destruct txt_bad as [[B|(c & B & U)] _]; [discriminate|]. right. exists c. auto.
Qed.
