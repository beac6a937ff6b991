(** C86, C87: the commands when files fail to open, are read in pieces, interrupted, or fail to be read. *)
From Coq Require Import Lia.
From Verif Require Import M_CliIO M_RefLibm Spec_Bits Spec_Hash Spec_V2 Spec_V1 Spec_Bloom Spec_Lines Spec_Cli P_Base P_Bloom P_Batch P_Par P_Create P_Check Prop_Par P_BufRead Prop_BufRead P_BufLines Prop_BufLines P_CliIO Ex_Base Ex_V1 Ex_Cli Prop_Bloom Prop_Check.
Open Scope N_scope.

Lemma txt_short : fs_short txt.
Proof. intros p c. unfold txt. repeat (destruct (list_eqb _ p); [intro E; injection E as <-; reflexivity|]). discriminate. Qed.
Lemma shelf_short : fs_short shelf.
Proof. intros p c. unfold shelf, fs_set. destruct (list_eqb [1] p); [intro E; injection E as <-; vm_compute; reflexivity|apply txt_short]. Qed.
(** ** C86: insert and create *)
(** insert does what it does with files that can be read, or leaves everything as it was and does not succeed. *)
Theorem C86_insert pr L wy par w stdin room jobs a w' r : fs_short w -> len stdin < two64 -> cmd_insert_io pr L wy par w stdin room jobs a (w', r) ->
  (w', r) = cmd_insert pr L wy par w stdin room jobs a \/ w' = w /\ (r = Err IoError \/ r = Panic).
Proof.
  intros Hw Hs H. unfold cmd_insert. inversion H as [e F Q|F Q|f F Q]; subst.
  - destruct (insert_filter_cases _ _ _ _ _ _ _ _ _ Hw Hs F) as [<-|[E|E]]; [now left| |discriminate]. right. injection E as ->. auto.
  - destruct (insert_filter_cases _ _ _ _ _ _ _ _ _ Hw Hs F) as [<-|[E|E]]; [now left|discriminate|auto].
  - destruct (insert_filter_cases _ _ _ _ _ _ _ _ _ Hw Hs F) as [<-|[E|E]]; [now left|discriminate..].
Qed.
Print Assumptions C86_insert.
(** What it does with files that can be read is one of the possible runs. *)
Theorem C86_insert_possible pr L wy par w stdin room jobs a : fs_short w -> len stdin < two64 -> cmd_insert_io pr L wy par w stdin room jobs a (cmd_insert pr L wy par w stdin room jobs a).
Proof.
  intros Hw Hs. pose proof (insert_filter_reliable pr L wy par w stdin jobs a Hw Hs) as F. unfold cmd_insert. destruct (insert_filter pr L wy par w stdin jobs a) as [f|e|]; now constructor.
Qed.
Print Assumptions C86_insert_possible.
(** create leaves everything as it was and does not succeed, or does what it does with files that can be read, except that failures
    while counting can make the capacity larger than the number of lines, never smaller (up to the wrapping of the sum at 2^64). *)
Theorem C86_create pr L wy par w room jobs a w' r : fs_short w -> cmd_create_io pr L wy par w room jobs a (w', r) ->
  w' = w /\ (r = Err IoError \/ r = Err NotPoppy \/ r = Panic) \/
  check_output pr w (ca_file a) = Ok tt /\ exists cap, (w', r) = create_with pr L wy par w room jobs a cap /\
    (ca_dataset a = [] /\ cap = ca_capacity a \/ ca_dataset a <> [] /\ exists ks, Forall2 (enough w) (ca_dataset a) ks /\ cap = w64 (sumN ks)).
Proof.
  intros Hw H. assert (G : forall o, create_filter_io pr L wy par w jobs a o -> o = Err IoError \/ o = Err NotPoppy \/ o = Panic \/
    check_output pr w (ca_file a) = Ok tt /\ exists cap, o = (let? op := opt_of_u8 (ca_optimize a) in
       let? b := bf_of_params pr L (params_opt (params_version (params_new cap (ca_probability a)) (ca_version a)) op) in parallel_insert pr L wy par w b (ca_dataset a) jobs) /\
    (ca_dataset a = [] /\ cap = ca_capacity a \/ ca_dataset a <> [] /\ exists ks, Forall2 (enough w) (ca_dataset a) ks /\ cap = w64 (sumN ks))).
  { clear H. intros o [e H|H|o' H D F|e H D C|H D C|k o' H D C F].
    - destruct (output_err _ _ _ _ Hw H) as [Q|[Q|[Q|Q]]]; try discriminate; injection Q as ->; auto.
    - auto.
    - destruct (fill_cases _ _ _ _ _ _ _ _ _ Hw F) as [->| ->]; [|auto]. right. right. right. split; [exact (output_ok _ _ _ Hw H)|]. exists (ca_capacity a). auto.
    - apply counted_err in C as ->. auto.
    - auto.
    - destruct (fill_cases _ _ _ _ _ _ _ _ _ Hw F) as [->| ->]; [|auto]. right. right. right. split; [exact (output_ok _ _ _ Hw H)|]. exists k. split; [reflexivity|]. right. split; [exact D|]. exact (counted_enough _ _ _ _ _ _ Hw C). }
  unfold create_with. inversion H as [e F Q|F Q|f F Q]; subst.
  - destruct (G _ F) as [E|[E|[E|(E & cap & EQ & C)]]]; try discriminate; try (injection E as ->; now left; auto). right. split; [exact E|]. exists cap. rewrite <- EQ. auto.
  - destruct (G _ F) as [E|[E|[E|(E & cap & EQ & C)]]]; try discriminate; [now left; auto|]. right. split; [exact E|]. exists cap. rewrite <- EQ. auto.
  - destruct (G _ F) as [E|[E|[E|(E & cap & EQ & C)]]]; try discriminate. right. split; [exact E|]. exists cap. rewrite <- EQ. auto.
Qed.
Print Assumptions C86_create.
(** Success means that the filter saved holds every line of every file of the dataset, whatever failed on the way. *)
Theorem C86_create_complete pr L wy par w room jobs a w' : fs_short w -> fs_bytes w -> ca_capacity a < two64 -> ca_probability a < two64 -> cmd_create_io pr L wy par w room jobs a (w', Ok tt) ->
  exists g ls, save w (ca_file a) g room = (w', Ok tt) /\ file_lines w (ca_dataset a) ls /\ (bf_has_bits g -> forall d, In d ls -> bf_contains_bytes wy g d = Ok true).
Proof.
  intros Hw Bw Hc Hp H. destruct (C86_create _ _ _ _ _ _ _ _ _ _ Hw H) as [(_ & [Q|[Q|Q]])|(_ & cap & E & C)]; [discriminate..|]. assert (Hcap : cap < two64) by (destruct C as [[_ ->]|(_ & ks & _ & ->)]; [exact Hc|apply w64_lt]). clear C H.
  unfold create_with in E. destruct (opt_of_u8 (ca_optimize a)) as [o|e|]; [|discriminate..]. cbn [obind] in E. unfold bf_of_params in E. cbn [p_version p_capacity p_fpp p_opt params_opt params_version params_new] in E.
  destruct (bf_with_version_capacity_opt pr L (ca_version a) cap (ca_probability a) o) as [b|e|] eqn:M; [|discriminate..]. cbn [obind] in E. destruct (parallel_insert pr L wy par w b (ca_dataset a) jobs) as [g|e|] eqn:G; [|discriminate..].
  pose proof (bh_make wy L pr _ _ _ _ b Hcap Hp M) as R. destruct (C40_nothing_lost pr L wy par w b (ca_dataset a) jobs g (ex_intro _ _ R) Bw G) as (ls & F & Fr & _). exists g, ls. split; [now symmetry|]. split; [exact F|]. intros HB d Hd.
  destruct (C40_history pr L wy par w b _ (ca_dataset a) jobs g ls R Bw F G) as (K' & R' & I). exact (bf_hist_contains wy L g K' d R' (I d (or_intror Hd)) HB).
Qed.
Print Assumptions C86_create_complete.
(** What create does with files that can be read is one of the possible runs. *)
Theorem C86_create_possible pr L wy par w room jobs a : fs_short w -> cmd_create_io pr L wy par w room jobs a (cmd_create pr L wy par w room jobs a).
Proof.
  intro Hw. pose proof (create_filter_reliable pr L wy par w jobs a Hw) as F. unfold cmd_create. destruct (create_filter pr L wy par w jobs a) as [f|e|]; now constructor.
Qed.
Print Assumptions C86_create_possible.
(** Full statement: create gives the capacity that is the number of lines. A file of one line, whose first read fails while the
    lines are counted and which is then read without failure: a filter for two entries, and success. *)
Theorem C86_refuted : exists w a, fs_short w /\ file_lines w (ca_dataset a) [da] /\ exists g w', cmd_create_io Release ref_libm (fun _ => 0) None w 10000 1 a (w', Ok tt) /\ w' (ca_file a) = Some (bf_write g) /\ bf_capacity g = 2.
Proof.
  set (a := {| ca_version := 1; ca_capacity := 0; ca_probability := p001; ca_optimize := 0; ca_file := [1]; ca_dataset := [pa] |}). exists txt, a. split; [exact txt_short|]. split; [exact txt_a|].
  set (m := {| md_all := da ++ [10]; md_pos := 0; md_plan := [Fail]; md_broken := false |}).
  assert (C : count_lines_io Release None txt [pa] 1 (Ok 2)).
  { apply (cl_run Release None txt [pa] 1 [Ok 2]). constructor; [|constructor]. apply (cb_next Release txt 0 pa [] 2 2); [|reflexivity|constructor]. apply (M_CliIO.count_ok txt pa (da ++ [10]) m 10 20); [reflexivity|split; reflexivity|vm_compute; reflexivity|reflexivity]. }
  assert (X : exists g, (let? o := opt_of_u8 (ca_optimize a) in let? b := bf_of_params Release ref_libm (params_opt (params_version (params_new 2 (ca_probability a)) (ca_version a)) o) in parallel_insert Release ref_libm (fun _ => 0) None txt b (ca_dataset a) 1) = Ok g /\ bf_capacity g = 2 /\ (len (bf_write g) <=? 10000) = true).
  { eexists. split; [vm_compute; reflexivity|]. split; vm_compute; reflexivity. }
  destruct X as (g & Eg & Cg & Lg). exists g, (fs_set txt (ca_file a) (bf_write g)). split; [|split; [reflexivity|exact Cg]]. apply N.leb_le in Lg. rewrite <- (save_ok txt (ca_file a) g 10000 Lg). apply create_save. apply (cr_counted Release ref_libm (fun _ => 0) None txt 1 a 2); [constructor; reflexivity|discriminate|exact C|]. rewrite <- Eg. apply fill_reliable. exact txt_short.
Qed.
Print Assumptions C86_refuted.
(** A run of insert in which reading the second file fails after its first byte; nothing is changed. *)
Definition shelf_insert : insert_args := {| ia_stdin := false; ia_file := [1]; ia_inputs := [pa; pb] |}.
Example C86_example : cmd_insert_io Release ref_libm (fun _ => 0) None shelf [] 10000 1 shelf_insert (shelf, Panic) /\ exists g, cmd_insert Release ref_libm (fun _ => 0) None shelf [] 10000 1 shelf_insert = (fs_set shelf [1] (bf_write g), Ok tt).
Proof.
  assert (SH : fs_short shelf) by exact shelf_short. split.
  - apply insert_panic. assert (LD : file_load Release shelf [1] (Ok be2)) by (replace (Ok be2) with (open_load Release shelf [1]) by (vm_compute; reflexivity); now apply file_load_reliable).
    apply (if_run Release ref_libm (fun _ => 0) None shelf [] 1 shelf_insert be2 be2); [exact LD|constructor; reflexivity|]. apply (par_run Release ref_libm (fun _ => 0) None shelf be2 [pa; pb] 1 [Err IoError]); [discriminate|]. constructor; [|constructor].
    pose proof (process_reliable Release (fun _ => 0) shelf be2 pa SH) as P. destruct (process_file Release (fun _ => 0) shelf be2 pa) as [f' o] eqn:E. assert (O : o = Ok tt) by (change o with (snd (f', o)); rewrite <- E; vm_compute; reflexivity). subst o.
    apply (worker_next Release (fun _ => 0) shelf be2 pa [pb] f'); [exact P|]. apply (worker_err Release (fun _ => 0) shelf f' pb [] f' IoError). change (f', @Err unit IoError) with (insert_lines Release (fun _ => 0) f' (map Some [] ++ [None])). apply process_ok. apply (fseen_ok shelf pb (db ++ [13; 10])); [reflexivity|].
    apply (seen_run (db ++ [13; 10]) {| md_all := db ++ [13; 10]; md_pos := 0; md_plan := [Short 1; Fail]; md_broken := false |} 10 20 [] false); [split; reflexivity|vm_compute; reflexivity].
  - assert (X : exists g, insert_filter Release ref_libm (fun _ => 0) None shelf [] 1 shelf_insert = Ok g /\ (len (bf_write g) <=? 10000) = true) by (eexists; split; vm_compute; reflexivity).
    destruct X as (g & Eg & Lg). apply N.leb_le in Lg. exists g. unfold cmd_insert. rewrite Eg. exact (save_ok shelf (ia_file shelf_insert) g 10000 Lg).
Qed.

(** ** C87: check *)
(** Success: the same lines as with files that can be read. *)
Theorem C87_ok pr wy w stdin jobs a out : fs_short w -> len stdin < two64 -> cmd_check_io pr wy w stdin jobs a out (Ok tt) -> cmd_check pr wy w stdin jobs a out (Ok tt).
Proof.
  intros Hw Hs H. inversion H as [| | |f out1 out2 r F S C]; subst. destruct (file_load_cases _ _ _ _ Hw F) as [E|E]; [|discriminate]. unfold open_load in E. destruct (fs_open w (ka_file a)) as [c|e|] eqn:O; [|discriminate..]. cbn [obind] in E. symmetry in E.
  apply (ck_run pr wy w stdin jobs a c f out1 out2 (Ok tt) O E); [|exact (proj1 (check_files_cases _ _ _ _ _ _ _ Hw C) eq_refl)]. destruct S as [[-> ->]|(-> & l & S & Q)]; [reflexivity|]. destruct (check_seen wy f a stdin l Panic Hs) as (o & r & E1 & _ & E2); [discriminate|exact S|]. rewrite Q in E1. injection E1 as <- <-. now rewrite E2.
Qed.
Print Assumptions C87_ok.
(** Failure: every line printed is right. *)
Theorem C87_sound pr wy w stdin jobs a out r x : fs_short w -> len stdin < two64 -> cmd_check_io pr wy w stdin jobs a out r -> In x out ->
  exists c f d, w (ka_file a) = Some c /\ bf_from_reader pr c = Ok f /\ (In (Some d) (lines stdin) \/ exists p ci, In p (ka_inputs a) /\ w p = Some ci /\ In (Some d) (lines ci)) /\ right wy f a [d] x.
Proof.
  intros Hw Hs H Hx. assert (LD : forall f, file_load pr w (ka_file a) (Ok f) -> exists c, w (ka_file a) = Some c /\ bf_from_reader pr c = Ok f).
  { intros f F. destruct (file_load_cases _ _ _ _ Hw F) as [E|E]; [|discriminate]. unfold open_load, fs_open in E. destruct (w (ka_file a)) as [c|]; [|discriminate]. exists c. auto. }
  assert (ST : forall f l o r, seen stdin l -> check_lines wy f a Panic l = (o, r) -> In x o -> exists d, In (Some d) (lines stdin) /\ right wy f a [d] x).
  { intros f l o r' S E Hx'. destruct (check_seen wy f a stdin l Panic Hs) as (o' & r2 & E1 & (t & P) & _); [discriminate|exact S|]. rewrite E in E1. injection E1 as <- <-. apply (check_lines_right wy f a Panic (lines stdin) x). rewrite P. apply in_or_app. now left. }
  destruct H as [e F|F|f l o F S Q E|f out1 out2 r F S C]; [contradiction..| |].
  - destruct (LD f F) as (c & Hc & Hf). destruct (ST f l o Panic Q E Hx) as (d & Hd & R). exists c, f, d. auto 6.
  - destruct (LD f F) as (c & Hc & Hf). apply in_app_or in Hx as [Hx|Hx].
    + destruct S as [[_ ->]|(_ & l & S & Q)]; [contradiction|]. destruct (ST f l out1 (Ok tt) S Q Hx) as (d & Hd & R). exists c, f, d. auto 6.
    + destruct (check_files_cases _ _ _ _ _ _ _ Hw C) as (_ & outs & I & P). destruct (interleave_In _ _ _ I Hx) as (o & Ho & Hx'). destruct P as [->|P]; [contradiction|]. assert (G : exists b, In b (batches (ka_inputs a) jobs) /\ prefix o (fst (check_worker wy w f a b))).
      { clear - P Ho. revert P. generalize (batches (ka_inputs a) jobs). induction outs as [|o1 outs IH]; intros bs P; [contradiction|]. destruct bs as [|b bs]; inversion P; subst. destruct Ho as [->|Ho]; [exists b; split; [now left|assumption]|]. destruct (IH Ho bs) as (b' & Hb & Pb); [assumption|]. exists b'. split; [now right|exact Pb]. }
      destruct G as (b & Hb & (t & Pb)). destruct (check_worker_right wy w f a b x) as (p & ci & d & Hp & E & Hd & R); [rewrite Pb; apply in_or_app; now left|]. exists c, f, d. split; [exact Hc|]. split; [exact Hf|]. split; [|exact R]. right. exists p, ci. split; [exact (batches_In _ _ _ _ Hb Hp)|auto].
Qed.
Print Assumptions C87_sound.
(** What check does with files that can be read are some of the possible runs. *)
Theorem C87_possible pr wy w stdin jobs a out r : fs_short w -> len stdin < two64 -> cmd_check pr wy w stdin jobs a out r -> cmd_check_io pr wy w stdin jobs a out r.
Proof.
  intros Hw Hs H. assert (LD : forall c r', fs_open w (ka_file a) = Ok c -> bf_from_reader pr c = r' -> file_load pr w (ka_file a) r') by (intros c r' O E; rewrite <- E; replace (bf_from_reader pr c) with (open_load pr w (ka_file a)) by (unfold open_load; now rewrite O); now apply file_load_reliable).
  destruct (seen_reliable stdin Hs) as (l & S & C). destruct H as [e O|c e O E|c O E|c f o O E B Q|c f out1 out2 r O E B Q].
  - unfold fs_open in O. destruct (w (ka_file a)); [discriminate|]. injection O as <-. apply cki_load_err. constructor.
  - apply cki_load_err. exact (LD c _ O E).
  - apply cki_load_panic. exact (LD c _ O E).
  - apply (cki_stdin_panic pr wy w stdin jobs a f l); [exact (LD c _ O E)|exact B|exact S|]. now rewrite <- check_cut, C, check_cut.
  - apply (cki_run pr wy w stdin jobs a f); [exact (LD c _ O E)| |].
    + destruct (ka_stdin a || is_nil (ka_inputs a)); [right|left; now injection B as <-]. split; [reflexivity|]. exists l. split; [exact S|]. now rewrite <- check_cut, C, check_cut.
    + destruct Q as [E1|E1 E2|outs o N J ws res Q I]; [now constructor|now apply cfi_zero|]. apply (cfi_run wy w f a jobs ws outs o N J); [|exact Q|exact I]. unfold ws. generalize (batches (ka_inputs a) jobs). intro bs. induction bs as [|b bs IH]; constructor; [now apply check_worker_reliable|exact IH].
Qed.
Print Assumptions C87_possible.
(** "hello" is in the first file and in the filter; reading the second file fails: one line is printed, then the error. *)
Example C87_example : cmd_check_io Release (fun _ => 0) shelf [] 1 {| ka_stdin := false; ka_silent := false; ka_verify := false; ka_file := [1]; ka_inputs := [pa; pb] |} [Plain da] (Err IoError).
Proof.
  set (a := {| ka_stdin := false; ka_silent := false; ka_verify := false; ka_file := [1]; ka_inputs := [pa; pb] |}).
  assert (LD : file_load Release shelf [1] (Ok be2)) by (replace (Ok be2) with (open_load Release shelf [1]) by (vm_compute; reflexivity); apply file_load_reliable; exact shelf_short).
  apply (cki_run Release (fun _ => 0) shelf [] 1 a be2 [] [Plain da]); [exact LD|left; split; reflexivity|]. apply (cfi_run (fun _ => 0) shelf be2 a 1 [([Plain da], Err IoError)] [[Plain da]] [Plain da]); [discriminate|discriminate| | |].
  - constructor; [|constructor]. apply (cw_next (fun _ => 0) shelf be2 a pa [pb] [Some da] [Plain da] [] (Err IoError)); [|vm_compute; reflexivity|].
    + apply (fseen_ok shelf pa (da ++ [10])); [reflexivity|]. apply (seen_run (da ++ [10]) {| md_all := da ++ [10]; md_pos := 0; md_plan := []; md_broken := false |} 10 20 [da] true); [split; reflexivity|vm_compute; reflexivity].
    + apply cw_open. constructor.
  - cbn. constructor; [now exists []|constructor].
  - apply (il_pick [] (Plain da) [] []). apply il_done. repeat constructor.
Qed.
