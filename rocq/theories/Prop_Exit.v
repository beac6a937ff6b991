(** Runs of the program and their exit status (C104). *)
From Coq Require Import Lia String Permutation.
From Verif Require Import M_Exit M_RefLibm Spec_Bits Spec_Lines Spec_Cli Spec_Bloom P_Base P_Bloom P_Lines P_Batch P_Par P_Check P_Create P_Stdout Prop_Bloom Prop_Create Prop_Save Prop_Build Prop_Check Prop_Codec Prop_Args Prop_Bench Ex_Base Ex_V1 Ex_Cli.
Open Scope N_scope.

(** ** Every command line has a run *)
Lemma stdin_never_err wy f a l : (exists out, check_lines wy f a Panic l = (out, Ok tt)) \/ exists out, check_lines wy f a Panic l = (out, Panic).
Proof.
  induction l as [|[d|] l IH]; cbn [check_lines]; [eauto| |eauto]. unfold check_line. pose proof (contains_no_err wy f d) as N.
  destruct (bf_contains_bytes wy f d) as [b|e|]; [|now contradiction (N e)|cbn; eauto]. cbn [obind].
  destruct (ka_verify a); destruct IH as [(out & ->)|(out & ->)]; eauto.
Qed.
Lemma check_runs pr wy w stdin jobs a : exists out r, cmd_check pr wy w stdin jobs a out r.
Proof.
  destruct (fs_open w (ka_file a)) as [c|e|] eqn:O; [|eexists; eexists; exact (ck_open _ _ _ _ _ _ e O)|unfold fs_open in O; now destruct (w (ka_file a))].
  destruct (bf_from_reader pr c) as [f|e|] eqn:L; [|eexists; eexists; eapply ck_load_err; eauto|eexists; eexists; eapply ck_load_panic; eauto].
  assert (S : exists out r, (if ka_stdin a || is_nil (ka_inputs a) then check_lines wy f a Panic (lines stdin) else ([], Ok tt)) = (out, r) /\ (r = Ok tt \/ ka_stdin a || is_nil (ka_inputs a) = true /\ r = Panic)).
  { destruct (ka_stdin a || is_nil (ka_inputs a)); [|eauto 6]. destruct (stdin_never_err wy f a (lines stdin)) as [(out & ->)|(out & ->)]; eauto 6. }
  destruct S as (out1 & r1 & S & [->|[Q ->]]).
  - destruct (check_files_exists wy w f a jobs) as (out2 & r & H). eexists. eexists. eapply ck_run; eauto.
  - rewrite Q in S. eexists. eexists. eapply ck_stdin_panic; eauto.
Qed.
(** Whatever the outside, the files and the words, there is a run; it ends with status 0, 1, 2 or 101, and with 2 only for a usage error. *)
Theorem C104_ends o w argv : (exists w' e n, main o w argv w' e /\ status e n) /\
  forall w' e n, main o w argv w' e -> status e n -> In n [0; 1; 2; 101] /\ (n = 2 -> read_args argv = None /\ w' = w).
Proof.
  split.
  - destruct (read_args argv) as [a|] eqn:R; [|exists w, Usage, 2; split; [now constructor|now right]]. destruct (ar_command a) as [c|c|c|c|p] eqn:C.
    + destruct (cmd_create (os_build o) (os_libm o) (os_hasher o) (os_par o) w (os_room o) (ar_jobs a) c) as [w' r] eqn:E. exists w', (Wrote r), (code r). split; [eapply main_create; eauto|reflexivity].
    + destruct (cmd_insert (os_build o) (os_libm o) (os_hasher o) (os_par o) w (os_stdin o) (os_room o) (ar_jobs a) c) as [w' r] eqn:E. exists w', (Wrote r), (code r). split; [eapply main_insert; eauto|reflexivity].
    + destruct (check_runs (os_build o) (os_hasher o) w (os_stdin o) (ar_jobs a) c) as (out & r & H). exists w, (Checked out r), (code r). split; [eapply main_check; eauto|reflexivity].
    + eexists. eexists. eexists. split; [eapply main_bench; eauto|reflexivity].
    + eexists. eexists. eexists. split; [eapply main_show; eauto|reflexivity].
  - assert (K : forall A (r : outcome A), In (code r) [0; 1; 2; 101] /\ code r <> 2) by (intros A [x|e|]; cbn; (split; [auto|discriminate])).
    intros w' e n M S. destruct M as [R|a c w' r R C E|a c w' r R C E|a c out r R C E|a c R C|a p R C]; cbn [status] in S.
    + split; [cbn; destruct S; auto|auto].
    + subst n. destruct (K _ r) as [P Q]. now split.
    + subst n. destruct (K _ r) as [P Q]. now split.
    + subst n. destruct (K _ r) as [P Q]. now split.
    + subst n. set (r := cmd_bench _ _ _ _ _ _ _ _ _). destruct r as [[| |]|x|]; cbn; (split; [auto|discriminate]).
    + subst n. destruct (K _ (show_output (os_float o) (os_build o) w p p)) as [P Q]. now split.
Qed.
Print Assumptions C104_ends.

(** ** The scheduling of the threads does not matter *)
Lemma check_files_det wy w f a jobs out r out' r' : check_files wy w f a jobs out r -> check_files wy w f a jobs out' r' -> r = r' /\ (r = Ok tt -> Permutation out out').
Proof.
  intros H K. destruct H as [N|N Z|outs out N Z ws res C I]; destruct K as [N'|N' Z'|outs' out' N' Z' ws' res' C' I']; try contradiction; [split; auto|split; [reflexivity|discriminate]|].
  change ws' with ws in *. change res' with res in *. split; [reflexivity|]. intro Q. rewrite Q in C, C'. subst outs outs'.
  eapply Permutation_trans; [apply Permutation_sym, interleave_perm; exact I|apply interleave_perm; exact I'].
Qed.
Lemma check_det pr wy w stdin jobs a out r out' r' : cmd_check pr wy w stdin jobs a out r -> cmd_check pr wy w stdin jobs a out' r' -> r = r' /\ (r = Ok tt -> Permutation out out').
Proof.
  intros H K. destruct H as [e O|c e O L|c O L|c f out O L S T|c f o1 o2 r O L S T]; destruct K as [e' O'|c' e' O' L'|c' O' L'|c' f' out' O' L' S' T'|c' f' o1' o2' r' O' L' S' T']; try congruence;
    rewrite O in O'; try discriminate O'; injection O' as <-; try congruence; try (rewrite L in L'; try discriminate L'; try (injection L' as <-)); try (split; [reflexivity|discriminate]).
  - rewrite S, T in S'. discriminate.
  - rewrite S', T' in S. discriminate.
  - rewrite S in S'. apply pair_inj in S' as [<- _]. destruct (check_files_det _ _ _ _ _ _ _ _ _ T T') as [-> P]. split; [reflexivity|]. intro Q. apply Permutation_app_head, P, Q.
Qed.
(** Two runs of the same command line in the same circumstances leave the same files and end with the same status; if it is 0 they print
    the same lines, in some order for check and in the same order for the others. *)
Theorem C104_schedule o w argv w1 e1 w2 e2 : main o w argv w1 e1 -> main o w argv w2 e2 ->
  w1 = w2 /\ (forall n, status e1 n <-> status e2 n) /\ (e1 = e2 \/ exists out1 out2 r, e1 = Checked out1 r /\ e2 = Checked out2 r /\ (r = Ok tt -> Permutation out1 out2)).
Proof.
  intros M1 M2. assert (G : forall e, w1 = w2 -> e1 = e -> e2 = e -> w1 = w2 /\ (forall n, status e1 n <-> status e2 n) /\ (e1 = e2 \/ exists out1 out2 r, e1 = Checked out1 r /\ e2 = Checked out2 r /\ (r = Ok tt -> Permutation out1 out2))).
  { intros e -> -> ->. split; [reflexivity|]. split; [reflexivity|now left]. }
  destruct M1 as [R|a c w1 r R C E|a c w1 r R C E|a c out r R C E|a c R C|a p R C]; destruct M2 as [R'|a' c' w2 r' R' C' E'|a' c' w2 r' R' C' E'|a' c' out' r' R' C' E'|a' c' R' C'|a' p' R' C'];
    rewrite R in R'; try discriminate R'; try (injection R' as <-; rewrite C in C'; try discriminate C'; injection C' as <-).
  - now apply (G Usage).
  - rewrite E in E'. apply pair_inj in E' as [<- <-]. now apply (G (Wrote r)).
  - rewrite E in E'. apply pair_inj in E' as [<- <-]. now apply (G (Wrote r)).
  - destruct (check_det _ _ _ _ _ _ _ _ _ _ E E') as [<- P]. split; [reflexivity|]. split; [reflexivity|]. right. eauto 8.
  - eapply G; reflexivity.
  - eapply G; reflexivity.
Qed.
Print Assumptions C104_schedule.

(** ** Failure leaves the files alone *)
(** The file the command line asks to write and the filter to be written there. *)
Inductive asked (o : outside) (w : fs) (argv : list token) : path -> bloom -> Prop :=
| as_create : forall a c g, read_args argv = Some a -> ar_command a = Create c ->
    create_filter (os_build o) (os_libm o) (os_hasher o) (os_par o) w (ar_jobs a) c = Ok g -> asked o w argv (ca_file c) g
| as_insert : forall a c g, read_args argv = Some a -> ar_command a = Insert c ->
    insert_filter (os_build o) (os_libm o) (os_hasher o) (os_par o) w (os_stdin o) (ar_jobs a) c = Ok g -> asked o w argv (ia_file c) g.
(** Any status but 0: no file changed, unless the disk was too small for the filter; then the status is 1 and the other files are kept. *)
Theorem C104_failed o w argv w' e n : main o w argv w' e -> status e n -> n <> 0 ->
  w' = w \/ exists p g, asked o w argv p g /\ n = 1 /\ os_room o < len (bf_write g) /\ forall q, q <> p -> w' q = w q.
Proof.
  intros M S N. destruct M as [R|a c w' r R C E|a c w' r R C E|a c out r R C E|a c R C|a p R C]; [now left| | |now left..]; cbn [status] in S; subst n.
  - destruct (C47_create _ _ _ _ _ _ _ _ _ _ E) as [Q P]. assert (r <> Ok tt) by (intros ->; now apply N). destruct (P H) as [->|(g & G & -> & L)]; [now left|]. right. exists (ca_file c), g. split; [eapply as_create; eauto|]. auto.
  - destruct (C47_insert _ _ _ _ _ _ _ _ _ _ _ E) as [Q P]. assert (r <> Ok tt) by (intros ->; now apply N). destruct (P H) as [->|(g & G & -> & L)]; [now left|]. right. exists (ia_file c), g. split; [eapply as_insert; eauto|]. auto.
Qed.
Print Assumptions C104_failed.
(** Only create and insert change files, and only the one they are given, which then starts as the new filter does. *)
Theorem C104_files o w argv w' e : main o w argv w' e -> w' = w \/ exists p g n, asked o w argv p g /\ w' = fs_set w p (firstn n (bf_write g)).
Proof.
  assert (K : forall p g room w' r, save w p g room = (w', r) -> exists n, w' = fs_set w p (firstn n (bf_write g))).
  { intros p g room w1 r E. unfold save in E. destruct (write_to_sink (bf_write_calls g) {| sk_got := []; sk_room := room |}) as [s x] eqn:S. apply C49_prefix in S as [S _]. cbn [sk_got sk_room app] in S. rewrite S in E. apply pair_inj in E as [<- _]. eauto. }
  intro M. destruct M as [R|a c w' r R C E|a c w' r R C E|a c out r R C E|a c R C|a p R C]; [now left| | |now left..].
  - unfold cmd_create in E. destruct (create_filter (os_build o) (os_libm o) (os_hasher o) (os_par o) w (ar_jobs a) c) as [g|x|] eqn:G; [|apply pair_inj in E as [<- _]; now left..].
    right. destruct (K _ _ _ _ _ E) as (n & ->). exists (ca_file c), g, n. split; [eapply as_create; eauto|reflexivity].
  - unfold cmd_insert in E. destruct (insert_filter (os_build o) (os_libm o) (os_hasher o) (os_par o) w (os_stdin o) (ar_jobs a) c) as [g|x|] eqn:G; [|apply pair_inj in E as [<- _]; now left..].
    right. destruct (K _ _ _ _ _ E) as (n & ->). exists (ia_file c), g, n. split; [eapply as_insert; eauto|reflexivity].
Qed.
Print Assumptions C104_files.
(** Full statement: status 0 of create and insert means that the filter is in the file. Proved: if there is room for it. Missing: a disk
    without room, see C104_saved_refuted. *)
Theorem C104_saved_partial o w argv w' r : main o w argv w' (Wrote r) -> status (Wrote r) 0 -> exists p g, asked o w argv p g /\
  (len (bf_write g) <= os_room o -> w' p = Some (bf_write g)) /\ forall q, q <> p -> w' q = w q.
Proof.
  intros M S. assert (r = Ok tt) as -> by (destruct r as [[]|e|]; [reflexivity|discriminate..]).
  inversion M as [|a c w0 r0 R C E|a c w0 r0 R C E| | |]; subst.
  - destruct (create_filter (os_build o) (os_libm o) (os_hasher o) (os_par o) w (ar_jobs a) c) as [g|x|] eqn:G; [|unfold cmd_create in E; rewrite G in E; discriminate..].
    exists (ca_file c), g. split; [eapply as_create; eauto|]. split; [|exact (proj1 (C47_create _ _ _ _ _ _ _ _ _ _ E))]. intro L. unfold cmd_create in E. rewrite G, save_ok in E by exact L. apply pair_inj in E as [<- _]. apply fs_set_same.
  - destruct (insert_filter (os_build o) (os_libm o) (os_hasher o) (os_par o) w (os_stdin o) (ar_jobs a) c) as [g|x|] eqn:G; [|unfold cmd_insert in E; rewrite G in E; discriminate..].
    exists (ia_file c), g. split; [eapply as_insert; eauto|]. split; [|exact (proj1 (C47_insert _ _ _ _ _ _ _ _ _ _ _ E))]. intro L. unfold cmd_insert in E. rewrite G, save_ok in E by exact L. apply pair_inj in E as [<- _]. apply fs_set_same.
Qed.
Print Assumptions C104_saved_partial.
(** insert of one file on a full disk: status 0, and the filter with its two entries is gone. *)
Definition full_disk : outside := {| os_build := Release; os_libm := ref_libm; os_hasher := fun _ => 0; os_par := None; os_wyhash := fun _ => 0; os_draws := os_draws here;
  os_shuffle := fun l => l; os_stdin := []; os_room := 0; os_float := os_float here |}.
Definition insert_c : list (list N) := [bytes_of "insert"; [1]; pc].
Lemma insert_c_read : read_args insert_c = Some {| ar_verbose := false; ar_jobs := 2; ar_command := Insert {| ia_stdin := false; ia_file := [1]; ia_inputs := [pc] |} |}.
Proof. vm_compute. reflexivity. Qed.
Theorem C104_saved_refuted : exists o w argv w' p old f, main o w argv w' (Wrote (Ok tt)) /\ status (Wrote (Ok tt)) 0 /\
  w p = Some old /\ bf_from_reader (os_build o) old = Ok f /\ bf_contains_bytes (os_hasher o) f da = Ok true /\ w' p = Some [] /\ bf_from_reader (os_build o) [] = Err IoError.
Proof.
  exists full_disk, shelf, insert_c. eexists. exists [1], (bf_write be2), be2. split; [eapply main_insert; [exact insert_c_read|reflexivity|vm_compute; reflexivity]|]. split; [reflexivity|].
  split; [reflexivity|]. split; [vm_compute; reflexivity|]. split; [vm_compute; reflexivity|]. split; [reflexivity|vm_compute; reflexivity].
Qed.
Print Assumptions C104_saved_refuted.

(** ** The status of check *)
(** The file holds a filter that can be used. *)
Definition holds (pr : profile) (w : fs) (p : path) (f : bloom) : Prop := (exists c, w p = Some c /\ file_size_ok c /\ bf_from_reader pr c = Ok f) /\ bf_usable f.
Lemma line_total wy f a d : bf_wf f -> bf_usable f -> bytes_ok d -> exists out, check_line wy f a d = Ok out.
Proof. intros W U B. rewrite (check_line_answer wy f a d W U B). eauto. Qed.
Definition lines_bytes (l : list (option (list byte))) : Prop := forall d, In (Some d) l -> bytes_ok d.
Lemma lines_blind wy1 f1 a1 wy2 f2 a2 bad l : bf_wf f1 -> bf_usable f1 -> bf_wf f2 -> bf_usable f2 -> lines_bytes l -> snd (check_lines wy1 f1 a1 bad l) = snd (check_lines wy2 f2 a2 bad l).
Proof.
  intros W1 U1 W2 U2. induction l as [|[d|] l IH]; intro B; [reflexivity| |reflexivity]. cbn [check_lines].
  destruct (line_total wy1 f1 a1 d W1 U1 (B d (or_introl eq_refl))) as (o1 & ->). destruct (line_total wy2 f2 a2 d W2 U2 (B d (or_introl eq_refl))) as (o2 & ->).
  specialize (IH (fun d Hd => B d (or_intror Hd))). destruct (check_lines wy1 f1 a1 bad l), (check_lines wy2 f2 a2 bad l). exact IH.
Qed.
Lemma lines_of_bytes c : bytes_ok c -> lines_bytes (lines c).
Proof. intros B d Hd. apply Forall_forall. intros x Hx. unfold bytes_ok in B. rewrite Forall_forall in B. apply B. exact (lines_In _ _ _ Hd Hx). Qed.
Lemma worker_blind wy1 f1 a1 w1 wy2 f2 a2 w2 batch : bf_wf f1 -> bf_usable f1 -> bf_wf f2 -> bf_usable f2 -> fs_bytes w1 -> (forall p, In p batch -> w1 p = w2 p) ->
  snd (check_worker wy1 w1 f1 a1 batch) = snd (check_worker wy2 w2 f2 a2 batch).
Proof.
  intros W1 U1 W2 U2 B. induction batch as [|p batch IH]; intro Q; [reflexivity|]. cbn [check_worker]. unfold fs_open. rewrite <- (Q p (or_introl eq_refl)). destruct (w1 p) as [c|] eqn:E; [|reflexivity].
  pose proof (lines_blind wy1 f1 a1 wy2 f2 a2 (Err IoError) (lines c) W1 U1 W2 U2 (lines_of_bytes c (B _ _ E))) as L.
  destruct (check_lines wy1 f1 a1 (Err IoError) (lines c)) as [o1 r1], (check_lines wy2 f2 a2 (Err IoError) (lines c)) as [o2 r2]. cbn [snd] in L. subst r2. destruct r1 as [u|e|]; [|reflexivity..].
  specialize (IH (fun p Hp => Q p (or_intror Hp))). destruct (check_worker wy1 w1 f1 a1 batch), (check_worker wy2 w2 f2 a2 batch). exact IH.
Qed.
(** The status of check depends on the inputs being readable, not on the filter, the entries in it, or the options --silent and --verify. *)
Theorem C104_blind pr1 wy1 w1 k1 f1 out1 r1 pr2 wy2 w2 k2 f2 out2 r2 stdin jobs : fs_bytes w1 -> fs_bytes w2 -> bytes_ok stdin -> holds pr1 w1 (ka_file k1) f1 -> holds pr2 w2 (ka_file k2) f2 ->
  ka_inputs k1 = ka_inputs k2 -> ka_stdin k1 = ka_stdin k2 -> (forall p, In p (ka_inputs k1) -> w1 p = w2 p) ->
  cmd_check pr1 wy1 w1 stdin jobs k1 out1 r1 -> cmd_check pr2 wy2 w2 stdin jobs k2 out2 r2 -> r1 = r2.
Proof.
  intros B1 B2 Bs ((c1 & E1 & S1 & L1) & U1) ((c2 & E2 & S2 & L2) & U2) I J Q H1 H2.
  pose proof (bf_load_wf pr1 c1 f1 (B1 _ _ E1) S1 L1) as W1. pose proof (bf_load_wf pr2 c2 f2 (B2 _ _ E2) S2 L2) as W2.
  assert (O1 : fs_open w1 (ka_file k1) = Ok c1) by (unfold fs_open; now rewrite E1). assert (O2 : fs_open w2 (ka_file k2) = Ok c2) by (unfold fs_open; now rewrite E2).
  pose proof (lines_blind wy1 f1 k1 wy2 f2 k2 Panic (lines stdin) W1 U1 W2 U2 (lines_of_bytes _ Bs)) as SB.
  destruct H1 as [e O|c e O L|c O L|c f out O L S T|c f o1 o2 r O L S T]; try congruence; rewrite O1 in O; injection O as <-; try congruence; rewrite L1 in L; try discriminate L; injection L as <-;
  destruct H2 as [e' O'|c' e' O' L'|c' O' L'|c' f' out' O' L' S' T'|c' f' o1' o2' r' O' L' S' T']; try congruence; rewrite O2 in O'; injection O' as <-; try congruence; rewrite L2 in L'; try discriminate L'; injection L' as <-.
  - rewrite <- I, <- J, S in S'. rewrite T, S' in SB. discriminate.
  - rewrite <- I, <- J in S'. rewrite S' in S. rewrite T', S in SB. discriminate.
  - destruct T as [N|N Z|outs out N Z ws res C Il]; destruct T' as [N'|N' Z'|outs' out' N' Z' ws' res' C' Il']; try congruence; try (rewrite I in N; congruence).
    unfold res, res', ws, ws'. f_equal. rewrite <- I, !map_map. apply map_ext_in. intros b Hb. apply worker_blind; auto. intros p Hp. apply Q. rewrite <- (batches_concat (ka_inputs k1) jobs). apply in_concat. eauto.
Qed.
Print Assumptions C104_blind.
Lemma silent_lines wy f a bad l : ka_silent a = true -> ka_verify a = false -> fst (check_lines wy f a bad l) = [].
Proof.
  intros S V. induction l as [|[d|] l IH]; cbn [check_lines]; [reflexivity| |reflexivity]. unfold check_line. rewrite S, V. destruct (bf_contains_bytes wy f d) as [b|e|]; cbn [obind]; [|reflexivity..].
  rewrite Bool.andb_false_r. destruct (check_lines wy f a bad l). exact IH.
Qed.
Lemma silent_worker wy w f a batch : ka_silent a = true -> ka_verify a = false -> fst (check_worker wy w f a batch) = [].
Proof.
  intros S V. induction batch as [|p batch IH]; cbn [check_worker]; [reflexivity|]. destruct (fs_open w p) as [c|e|]; [|reflexivity..].
  pose proof (silent_lines wy f a (Err IoError) (lines c) S V) as L. destruct (check_lines wy f a (Err IoError) (lines c)) as [o r]. cbn [fst] in L. subst o. destruct r as [u|e|]; [|reflexivity..].
  destruct (check_worker wy w f a batch). exact IH.
Qed.
(** With --silent and without --verify nothing is printed, so such a run tells nothing about the entries. *)
Theorem C104_silent pr wy w stdin jobs a out r : ka_silent a = true -> ka_verify a = false -> cmd_check pr wy w stdin jobs a out r -> out = [].
Proof.
  intros Si V H. destruct H as [e O|c e O L|c O L|c f out O L S T|c f o1 o2 r O L S T]; try reflexivity.
  - pose proof (silent_lines wy f a Panic (lines stdin) Si V) as Q. now rewrite T in Q.
  - assert (o1 = []) as ->. { destruct (ka_stdin a || is_nil (ka_inputs a)); [|now injection S]. pose proof (silent_lines wy f a Panic (lines stdin) Si V) as Q. now rewrite S in Q. }
    destruct T as [N|N Z|outs out N Z ws res C I]; try reflexivity. cbn [app]. assert (P : Forall (fun l => l = []) outs).
    { assert (P : Forall (fun l : list printed => l = []) (map fst ws)) by (apply Forall_forall; intros l Hl; unfold ws in Hl; rewrite map_map in Hl; apply in_map_iff in Hl as (b & <- & _); now apply silent_worker).
      destruct (match res with Ok _ => true | _ => false end); [now subst outs|]. clear -C P. induction C as [|x y l l' X C IH]; [constructor|]. inversion P; subst. destruct X as (t & X). constructor; [now destruct x|auto]. }
    pose proof (interleave_perm _ _ I) as Q. assert (Z' : concat outs = []) by (clear -P; induction P as [|x l -> P IH]; [reflexivity|exact IH]). rewrite Z' in Q. now apply Permutation_nil.
Qed.
Print Assumptions C104_silent.
(** Three lines checked against a filter with two of them and against one with none: the outputs differ, the status is 0 both times. *)
Definition shelf0 : fs := fs_set txt [1] (bf_write be0).
Example C104_example : fs_bytes shelf /\ fs_bytes shelf0 /\ holds Release shelf [1] be2 /\ holds Release shelf0 [1] be0 /\ (forall p, In p (ka_inputs plain_check) -> shelf p = shelf0 p) /\
  cmd_check Release (fun _ => 0) shelf [] 2 plain_check [Plain da; Plain db] (Ok tt) /\ cmd_check Release (fun _ => 0) shelf0 [] 2 plain_check [] (Ok tt).
Proof.
  split; [exact shelf_bytes|]. split.
  { intros p c. unfold shelf0, fs_set. destruct (list_eqb [1] p); [|apply txt_bytes]. intro E. injection E as <-. change (bytes_ok (bf_write be0)). vm_compute (bf_write be0). repeat (constructor; [reflexivity|]). constructor. }
  split. { split; [|split; [discriminate|]; intros _; discriminate]. exists (bf_write be2). split; [reflexivity|]. split; [vm_compute; reflexivity|]. vm_compute. reflexivity. }
  split. { split; [|split; [discriminate|]; intros _; discriminate]. exists (bf_write be0). split; [reflexivity|]. split; [vm_compute; reflexivity|]. vm_compute. reflexivity. }
  split. { intros p [<-|[<-|[<-|[]]]]; reflexivity. } split.
  - apply (ck_run _ _ _ _ _ _ (bf_write be2) be2 [] [Plain da; Plain db] (Ok tt)); [vm_compute; reflexivity|vm_compute; reflexivity|reflexivity|].
    pose proof (cf_run (fun _ => 0) shelf be2 plain_check 2 (map fst (map (check_worker (fun _ => 0) shelf be2 plain_check) (batches [pa; pb; pc] 2))) [Plain da; Plain db]) as H. vm_compute in H. vm_compute. apply H; [discriminate|discriminate|reflexivity|]. exact (interleave_concat [[Plain da]; [Plain db]; []]).
  - apply (ck_run _ _ _ _ _ _ (bf_write be0) be0 [] [] (Ok tt)); [vm_compute; reflexivity|vm_compute; reflexivity|reflexivity|].
    pose proof (cf_run (fun _ => 0) shelf0 be0 plain_check 2 (map fst (map (check_worker (fun _ => 0) shelf0 be0 plain_check) (batches [pa; pb; pc] 2))) []) as H. vm_compute in H. vm_compute. apply H; [discriminate|discriminate|reflexivity|]. exact (interleave_concat [[]; []; []]).
Qed.
(** ** What goes wrong and the status *)
(** The filter a command other than create works on. *)
Definition works_on (c : command) (p : path) : Prop :=
  match c with Insert a => ia_file a = p | Check a => ka_file a = p | Show q => q = p | _ => False end.
Lemma open_missing w p : w p = None -> fs_open w p = Err IoError.
Proof. intro H. unfold fs_open. now rewrite H. Qed.
(** insert, check and show of a filter that does not exist end with status 1, print nothing and leave the files alone. *)
Theorem C104_missing o w argv a p w' e n : read_args argv = Some a -> works_on (ar_command a) p -> w p = None -> main o w argv w' e -> status e n ->
  n = 1 /\ w' = w /\ (forall out r, e = Checked out r -> out = []).
Proof.
  intros R Wk Np M S. pose proof (open_missing _ _ Np) as O.
  destruct M as [R'|a' c w' r R' C E|a' c w' r R' C E|a' c out r R' C E|a' c R' C|a' q R' C]; rewrite R in R'; try discriminate R'; injection R' as <-; rewrite C in Wk; cbn [works_on] in Wk; try contradiction; subst p; cbn [status] in S.
  - unfold cmd_insert, insert_filter in E. rewrite O in E. cbn [obind] in E. apply pair_inj in E as [<- <-]. repeat (split; [assumption || reflexivity|]). discriminate.
  - assert (out = [] /\ r = Err IoError) as [-> ->]. { destruct E as [e O'|c' e O' L|c' O' L|c' f out O' L S' T|c' f o1 o2 r O' L S' T]; rewrite O in O'; try discriminate O'. now injection O' as <-. }
    split; [exact S|]. split; [reflexivity|]. intros out' r' E'. now injection E' as <- _.
  - unfold show_output, cmd_show in S. rewrite O in S. split; [exact S|]. split; [reflexivity|discriminate].
Qed.
Print Assumptions C104_missing.
Lemma bad_line_panics wy f a l : In None l -> exists out, check_lines wy f a Panic l = (out, Panic).
Proof.
  induction l as [|[d|] l IH]; cbn [check_lines]; intro H; [contradiction| |eauto]. destruct H as [H|H]; [discriminate H|]. destruct (IH H) as (out & E). unfold check_line. pose proof (contains_no_err wy f d) as N.
  destruct (bf_contains_bytes wy f d) as [b|e|]; [|now contradiction (N e)|cbn; eauto]. cbn [obind]. destruct (ka_verify a); rewrite E; eauto.
Qed.
(** A line of standard input that is not text makes check panic, whatever the filter and the other lines: status 101. *)
Theorem C104_garbled o w argv a k f w' e n : read_args argv = Some a -> ar_command a = Check k -> ka_stdin k = true \/ ka_inputs k = [] ->
  (exists c, w (ka_file k) = Some c /\ bf_from_reader (os_build o) c = Ok f) -> ~ utf8 (os_stdin o) -> main o w argv w' e -> status e n -> n = 101 /\ w' = w.
Proof.
  intros R Ck St (c & Hc & Ld) Bad M S. apply lines_invalid in Bad. assert (Q : ka_stdin k || is_nil (ka_inputs k) = true) by (destruct St as [-> | ->]; [reflexivity|apply Bool.orb_true_r]).
  assert (O : fs_open w (ka_file k) = Ok c) by (unfold fs_open; now rewrite Hc).
  destruct M as [R'|a' c' w' r R' C E|a' c' w' r R' C E|a' c' out r R' C E|a' c' R' C|a' q R' C]; rewrite R in R'; try discriminate R'; injection R' as <-; rewrite Ck in C; try discriminate C. injection C as <-. cbn [status] in S.
  split; [|reflexivity]. destruct (bad_line_panics (os_hasher o) f k (lines (os_stdin o)) Bad) as (out0 & P).
  destruct E as [e O'|c' e O' L|c' O' L|c' f' out O' L S' T|c' f' o1 o2 r O' L S' T]; rewrite O in O'; try discriminate O'; injection O' as <-; rewrite Ld in L; try discriminate L; [exact S|].
  injection L as <-. rewrite Q, P in S'. discriminate S'.
Qed.
Print Assumptions C104_garbled.
(** The same line in a file, or a file that is not there, is an error: status 1. *)
Lemma lines_no_panic wy f a l : bf_wf f -> bf_usable f -> lines_bytes l -> snd (check_lines wy f a (Err IoError) l) <> Panic.
Proof.
  intros W U. induction l as [|[d|] l IH]; intro B; [discriminate| |discriminate]. cbn [check_lines]. destruct (line_total wy f a d W U (B d (or_introl eq_refl))) as (out & ->).
  assert (Q : snd (check_lines wy f a (Err IoError) l) <> Panic) by (apply IH; intros x Hx; apply B; now right). now destruct (check_lines wy f a (Err IoError) l).
Qed.
Lemma worker_no_panic wy w f a b : bf_wf f -> bf_usable f -> fs_bytes w -> snd (check_worker wy w f a b) <> Panic.
Proof.
  intros W U B. induction b as [|p b IH]; [discriminate|]. cbn [check_worker]. unfold fs_open. destruct (w p) as [c|] eqn:Q; [|discriminate].
  pose proof (lines_no_panic wy f a (lines c) W U (lines_of_bytes c (B _ _ Q))) as P. destruct (check_lines wy f a (Err IoError) (lines c)) as [out [u|e|]]; [|discriminate|now contradiction P]. now destruct (check_worker wy w f a b).
Qed.
Lemma units_no_panic l : (forall r, In r l -> r <> Panic) -> join_units l <> Panic.
Proof.
  induction l as [|r l IH]; intro H; [discriminate|]. cbn. fold (join_units l). destruct r as [u|e|]; [|discriminate|now contradiction (H Panic (or_introl eq_refl))]. apply IH. intros r Hr. apply H. now right.
Qed.
Theorem C104_garbled_file o w argv a k f p w' e n : read_args argv = Some a -> ar_command a = Check k -> ka_stdin k = false -> fs_bytes w -> holds (os_build o) w (ka_file k) f -> ar_jobs a <> 0 ->
  In p (ka_inputs k) -> bad_file w p -> main o w argv w' e -> status e n -> n = 1 /\ w' = w.
Proof.
  intros R Ck St B ((c & Hc & Sz & Ld) & U) J Hp Bad M S. assert (O : fs_open w (ka_file k) = Ok c) by (unfold fs_open; now rewrite Hc). pose proof (bf_load_wf _ _ _ (B _ _ Hc) Sz Ld) as W.
  destruct M as [R'|a' c' w' r R' C E|a' c' w' r R' C E|a' c' out r R' C E|a' c' R' C|a' q R' C]; rewrite R in R'; try discriminate R'; injection R' as <-; rewrite Ck in C; try discriminate C. injection C as <-. cbn [status] in S.
  split; [|reflexivity]. assert (Q : ka_stdin k || is_nil (ka_inputs k) = false) by (rewrite St; destruct (ka_inputs k); [contradiction|reflexivity]).
  destruct E as [e O'|c' e O' L|c' O' L|c' f' out O' L S' T|c' f' o1 o2 r O' L S' T]; rewrite O in O'; try discriminate O'; injection O' as <-; rewrite Ld in L; try discriminate L; [congruence|]. injection L as <-.
  pose proof (check_files_bad _ _ _ _ _ _ _ _ T Hp Bad) as N0. assert (N1 : r <> Panic).
  { destruct T as [N|N Z|outs out N Z ws res C I]; [discriminate|contradiction|]. apply units_no_panic. intros x Hx. unfold ws in Hx. rewrite map_map in Hx. apply in_map_iff in Hx as (b & <- & _). now apply worker_no_panic. }
  destruct r as [[]|x|]; [now contradiction N0|exact S|now contradiction N1].
Qed.
Print Assumptions C104_garbled_file.
(** insert does the opposite: a panic where it joins the worker that met the bad file, an error for a bad line of standard input. *)
Lemma insert_lines_no_panic wy l : forall f, bf_wf f -> bf_usable f -> lines_bytes l -> snd (insert_lines Release wy f l) <> Panic.
Proof.
  induction l as [|[d|] l IH]; intros f W U B; [discriminate| |discriminate]. cbn [insert_lines]. assert (Bd : bytes_ok d) by (apply B; now left).
  destruct (bf_insert_bytes Release wy f d) as [g r] eqn:E. pose proof (bf_insert_no_panic Release wy f d W U Bd (or_introl eq_refl)) as P. rewrite E in P. pose proof (bf_insert_sem _ _ _ _ _ _ W Bd E) as Q.
  destruct r as [b|e|]; [|discriminate|now contradiction P]. apply IH; [exact (ib_wf _ _ _ _ _ _ Q)|exact (bf_frame_usable _ _ (ib_frame _ _ _ _ _ _ Q) U)|intros x Hx; apply B; now right].
Qed.
Theorem C104_garbled_insert o w argv a i f w' e n : read_args argv = Some a -> ar_command a = Insert i -> fs_bytes w -> bytes_ok (os_stdin o) -> holds (os_build o) w (ia_file i) f -> main o w argv w' e -> status e n ->
  (ia_stdin i = false -> (exists p, In p (ia_inputs i) /\ bad_file w p) -> n = 101 /\ w' = w) /\
  (ia_stdin i = true \/ ia_inputs i = [] -> os_build o = Release -> ~ utf8 (os_stdin o) -> n = 1 /\ w' = w).
Proof.
  intros R Ci B Bi ((c & Hc & Sz & Ld) & U) M S. assert (O : fs_open w (ia_file i) = Ok c) by (unfold fs_open; now rewrite Hc). pose proof (bf_load_wf _ _ _ (B _ _ Hc) Sz Ld) as W.
  destruct M as [R'|a' c' w' r R' C E|a' c' w' r R' C E|a' c' out r R' C E|a' c' R' C|a' q R' C]; rewrite R in R'; try discriminate R'; injection R' as <-; rewrite Ci in C; try discriminate C. injection C as <-. cbn [status] in S.
  unfold cmd_insert, insert_filter in E. rewrite O in E. cbn [obind] in E. rewrite Ld in E. cbn [obind] in E. split.
  - intros St (p & Hp & Bad). assert (Q : ia_stdin i || is_nil (ia_inputs i) = false) by (rewrite St; destruct (ia_inputs i); [contradiction|reflexivity]). rewrite Q in E. cbn [obind] in E.
    rewrite (parallel_bad _ _ _ _ _ _ _ _ p Hp Bad) in E. apply pair_inj in E as [<- <-]. split; [exact S|reflexivity].
  - intros St Rl Bad. assert (Q : ia_stdin i || is_nil (ia_inputs i) = true) by (destruct St as [-> | ->]; [reflexivity|apply Bool.orb_true_r]). rewrite Q in E. apply lines_invalid in Bad.
    destruct (insert_lines (os_build o) (os_hasher o) f (lines (os_stdin o))) as [g x] eqn:I. pose proof (insert_lines_none _ _ _ _ _ _ I Bad) as N0. rewrite Rl in I.
    pose proof (insert_lines_no_panic (os_hasher o) (lines (os_stdin o)) f W U (lines_of_bytes _ Bi)) as N1. rewrite I in N1. cbn [snd] in N1.
    destruct x as [[]|x|]; [now contradiction N0| |now contradiction N1]. cbn [obind] in E. apply pair_inj in E as [<- <-]. split; [exact S|reflexivity].
Qed.
Print Assumptions C104_garbled_insert.
(** The four statuses. *)
Example C104_statuses : (exists w' r, main here shelf insert_c w' (Wrote r) /\ status (Wrote r) 0 /\ w' [1] <> shelf [1]) /\
  (exists r, main here shelf [bytes_of "insert"; [9]; pa] shelf (Wrote r) /\ status (Wrote r) 1) /\
  (main here shelf [bytes_of "insert"] shelf Usage /\ status Usage 2) /\
  exists r, main here shelf [bytes_of "-j0"; bytes_of "check"; [1]; pa] shelf (Checked [] r) /\ status (Checked [] r) 101.
Proof.
  split. { eexists. eexists. split; [eapply main_insert; [exact insert_c_read|reflexivity|vm_compute; reflexivity]|]. split; [reflexivity|vm_compute; discriminate]. }
  split. { exists (Err IoError). split; [|reflexivity]. eapply main_insert; [vm_compute; reflexivity|reflexivity|]. vm_compute. reflexivity. }
  split. { split; [apply main_usage; vm_compute; reflexivity|now right]. }
  exists Panic. split; [|reflexivity]. eapply main_check; [vm_compute; reflexivity|reflexivity|]. apply (ck_run _ _ _ _ _ _ (bf_write be2) be2 [] [] Panic); [vm_compute; reflexivity|vm_compute; reflexivity|reflexivity|]. apply cf_zero; [discriminate|reflexivity].
Qed.
(** A byte that is not text, on standard input and in a file, to check and to insert: the four statuses differ. *)
Definition with_stdin (s : list N) : outside := {| os_build := os_build here; os_libm := os_libm here; os_hasher := os_hasher here; os_par := os_par here; os_wyhash := os_wyhash here; os_draws := os_draws here;
  os_shuffle := os_shuffle here; os_stdin := s; os_room := os_room here; os_float := os_float here |}.
Definition garbage : fs := fs_set shelf [8] [255].
Example C104_garbled_example : forall w' e n,
  (main (with_stdin [255]) garbage [bytes_of "check"; [1]] w' e -> status e n -> n = 101) /\ (main here garbage [bytes_of "check"; [1]; [8]] w' e -> status e n -> n = 1) /\
  (main (with_stdin [255]) garbage [bytes_of "insert"; [1]] w' e -> status e n -> n = 1) /\ (main here garbage [bytes_of "insert"; [1]; [8]] w' e -> status e n -> n = 101).
Proof.
  assert (Bg : fs_bytes garbage). { intros p c. unfold garbage, fs_set. destruct (list_eqb [8] p); [intro E; injection E as <-; repeat constructor|apply shelf_bytes]. }
  assert (Nu : ~ utf8 [255]) by (apply lines_invalid; vm_compute; now left). assert (Hb : bad_file garbage [8]) by (right; exists [255]; split; [reflexivity|exact Nu]).
  assert (Hd : holds Release garbage [1] be2). { split; [|split; [discriminate|]; intros _; discriminate]. exists (bf_write be2). split; [reflexivity|]. split; [vm_compute; reflexivity|]. vm_compute. reflexivity. }
  assert (B255 : bytes_ok [255]) by (repeat constructor). intros w' e n. split; [|split; [|split]]; intros M S.
  - destruct Hd as ((c & Hc & _ & Ld) & _). refine (proj1 (C104_garbled (with_stdin [255]) _ _ {| ar_verbose := false; ar_jobs := 2; ar_command := _ |} {| ka_stdin := false; ka_silent := false; ka_verify := false; ka_file := [1]; ka_inputs := [] |} be2 _ _ _ _ eq_refl (or_intror eq_refl) _ Nu M S)); [vm_compute; reflexivity|]. exists c. auto.
  - refine (proj1 (C104_garbled_file here _ _ {| ar_verbose := false; ar_jobs := 2; ar_command := _ |} {| ka_stdin := false; ka_silent := false; ka_verify := false; ka_file := [1]; ka_inputs := [[8]] |} be2 [8] _ _ _ _ eq_refl eq_refl Bg Hd _ (or_introl eq_refl) Hb M S)); [vm_compute; reflexivity|discriminate].
  - refine (proj1 (proj2 (C104_garbled_insert (with_stdin [255]) _ _ {| ar_verbose := false; ar_jobs := 2; ar_command := _ |} {| ia_stdin := false; ia_file := [1]; ia_inputs := [] |} be2 _ _ _ _ eq_refl Bg B255 Hd M S) (or_intror eq_refl) eq_refl Nu)). vm_compute. reflexivity.
  - refine (proj1 (proj1 (C104_garbled_insert here _ _ {| ar_verbose := false; ar_jobs := 2; ar_command := _ |} {| ia_stdin := false; ia_file := [1]; ia_inputs := [[8]] |} be2 _ _ _ _ eq_refl Bg (Forall_nil _) Hd M S) eq_refl _)); [vm_compute; reflexivity|]. exists [8]. split; [now left|exact Hb].
Qed.

(** Status 0 of bench says that every line it kept is in the filter of the file, and that the average of the rates printed was not
    above the limit; no file is changed. *)
Theorem C104_bench o w argv a k w' e n : read_args argv = Some a -> ar_command a = Bench k -> main o w argv w' e -> status e n ->
  w' = w /\ (n = 0 \/ n = 1 \/ n = 101) /\
  (n = 0 -> exists limit es b rates, bench_limit (os_build o) (ba_size_mb k) = Ok limit /\ bench_entries (os_build o) (os_wyhash o) limit 0 [] (lines (os_stdin o)) = Ok es /\
     e = Benched (Ok (BDone rates)) /\ bench_rejects (stat_mean rates) (bf_fpp b) (ba_fp_tol k) = false /\
     (forall p c, ba_file k = Some p -> w p = Some c -> bf_from_reader (os_build o) c = Ok b) /\
     (forall p x, ba_file k = Some p -> In x es -> bf_contains_bytes (os_hasher o) b x = Ok true)).
Proof.
  intros R Ck M S.
  destruct M as [R'|a' c w' r R' C E|a' c w' r R' C E|a' c out r R' C E|a' c R' C|a' q R' C]; rewrite R in R'; try discriminate R'; injection R' as <-; rewrite Ck in C; try discriminate C. injection C as <-.
  cbn [status] in S. subst n. split; [reflexivity|]. destruct (cmd_bench _ _ _ _ _ _ _ _ _) as [r|x|] eqn:E; [|split; [now auto|discriminate]..].
  split; [destruct r; cbn; auto|]. intro Z. destruct (bench_inv _ _ _ _ _ _ _ _ _ _ E) as (limit & es & El & Ee & [[-> _]|(b & rates & Sb & Rt & Er)]); [discriminate Z|].
  exists limit, es, b, rates. split; [exact El|]. split; [exact Ee|]. destruct (bench_rejects _ _ _); subst r; [discriminate Z|]. split; [reflexivity|]. split; [reflexivity|].
  destruct Sb as [p c b F Wp Ld H|b F Bf]; (split; [intros q d F'|intros q x F']); rewrite F in F'; try discriminate F'; injection F' as <-; [|now apply H]. intro W'. rewrite Wp in W'. now injection W' as <-.
Qed.
Print Assumptions C104_bench.
(** A filter without the line it is given, and one with it. *)
Example C104_bench_example : read_args [bytes_of "bench"; [1]] <> None /\
  (forall w' e n, main (with_stdin (dc ++ [10])) shelf [bytes_of "bench"; [1]] w' e -> status e n -> n = 1).
Proof.
  split; [vm_compute; discriminate|]. intros w' e n M S.
  destruct M as [R|a c w' r R C E|a c w' r R C E|a c out r R C E|a c R C|a q R C]; vm_compute in R; try discriminate R; injection R as <-; cbn [ar_command] in C; try discriminate C. injection C as <-. cbn [status] in S. subst n. vm_compute. reflexivity.
Qed.
