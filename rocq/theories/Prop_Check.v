(** The check command (C44, C45). *)
From Coq Require Import Lia Permutation.
From Verif Require Import M_Cli M_RefLibm Spec_Bits Spec_Hash Spec_V2 Spec_V2File Spec_V1 Spec_Bloom Spec_Lines Spec_Cli P_Base P_Codec P_Bloom P_Lines P_Batch P_Par P_Check Prop_Bloom Ex_Base Ex_V1 Ex_Cli.
Open Scope N_scope.

Lemma answer_nil wy f a : answer wy f a [] = [].
Proof. unfold answer. now destruct (ka_verify a), (ka_silent a). Qed.
Lemma stdin_part pr wy w stdin a f sls ls : checkable pr w stdin a f sls ls ->
  bf_wf f /\ (if ka_stdin a || is_nil (ka_inputs a) then check_lines wy f a Panic (lines stdin) else ([], Ok tt)) = (answer wy f a sls, Ok tt).
Proof.
  intros [B (c & E & S & Ld) U F T]. assert (W : bf_wf f) by exact (bf_load_wf pr c f (B _ _ E) S Ld). split; [exact W|]. destruct (ka_stdin a || is_nil (ka_inputs a)).
  - destruct T as (Bs & V & T). rewrite (text_lines _ _ T V). apply check_lines_answer; [exact W|exact U|]. apply Forall_forall. intros e He. apply Forall_forall. intros x Hx.
    unfold bytes_ok in Bs. rewrite Forall_forall in Bs. apply Bs. exact (text_In _ _ _ _ T He Hx).
  - now rewrite T, answer_nil.
Qed.
Lemma check_run pr wy w stdin jobs a f sls ls out r : checkable pr w stdin a f sls ls -> cmd_check pr wy w stdin jobs a out r -> exists out2, out = answer wy f a sls ++ out2 /\ check_files wy w f a jobs out2 r.
Proof.
  intros C H. destruct (stdin_part pr wy w stdin a f sls ls C) as [W P]. destruct (cb_filter _ _ _ _ _ _ _ C) as (c & E & S & Ld).
  assert (O : fs_open w (ka_file a) = Ok c) by (unfold fs_open; now rewrite E).
  destruct H as [e Q|c' e Q Q'|c' Q Q'|c' f' out Q Q' Q1 Q2|c' f' out1 out2 r Q Q' Q1 Q2]; try congruence.
  - rewrite O in Q. injection Q as <-. rewrite Ld in Q'. injection Q' as <-. rewrite Q1, Q2 in P. discriminate.
  - rewrite O in Q. injection Q as <-. rewrite Ld in Q'. injection Q' as <-. rewrite P in Q1. apply pair_inj in Q1 as [<- _]. eauto.
Qed.
Lemma check_exists pr wy w stdin jobs a f sls ls : checkable pr w stdin a f sls ls -> exists out r, cmd_check pr wy w stdin jobs a out r.
Proof.
  intro C. destruct (stdin_part pr wy w stdin a f sls ls C) as [W P]. destruct (cb_filter _ _ _ _ _ _ _ C) as (c & E & S & Ld). destruct (check_files_exists wy w f a jobs) as (out & r & H).
  exists (answer wy f a sls ++ out), r. apply (ck_run _ _ _ _ _ _ c f); auto. unfold fs_open. now rewrite E.
Qed.

(** * C44 *)
(** Full statement: check works for every value of --jobs. Proved: for every value but 0. Missing: 0, which is documented as
    "optimal number", see C44_refuted. *)
Theorem C44_jobs_partial pr wy w stdin jobs a f sls ls : checkable pr w stdin a f sls ls -> jobs <> 0 ->
  (exists out, cmd_check pr wy w stdin jobs a out (Ok tt)) /\ forall out r, cmd_check pr wy w stdin jobs a out r -> r = Ok tt.
Proof.
  intros C J. assert (G : forall out r, cmd_check pr wy w stdin jobs a out r -> r = Ok tt).
  { intros out r H. destruct (check_run _ _ _ _ _ _ _ _ _ _ _ C H) as (out2 & _ & H2). destruct (stdin_part pr wy w stdin a f sls ls C) as [W _]. destruct C as [B _ U F _].
    exact (proj1 (check_files_run wy w f a jobs ls out2 r W U B F J H2)). }
  split; [|exact G]. destruct (check_exists pr wy w stdin jobs a f sls ls C) as (out & r & H). exists out. now rewrite <- (G out r H).
Qed.
Print Assumptions C44_jobs_partial.
(** With 0 jobs every check of files panics. *)
Theorem C44_zero pr wy w stdin a f sls ls out r : checkable pr w stdin a f sls ls -> ka_inputs a <> [] -> cmd_check pr wy w stdin 0 a out r -> r = Panic.
Proof.
  intros C Ne H. destruct (check_run _ _ _ _ _ _ _ _ _ _ _ C H) as (out2 & _ & H2). destruct H2 as [E|E E'|outs out2 Ne' Nz ws res C' I]; [contradiction|reflexivity|contradiction Nz; reflexivity].
Qed.
Print Assumptions C44_zero.
(** A filter holding "hello" and "poppy" in file [1], next to the text files of Ex_Cli. *)
Definition shelf : fs := fs_set txt [1] (bf_write be2).
Definition plain_check : check_args := {| ka_stdin := false; ka_silent := false; ka_verify := false; ka_file := [1]; ka_inputs := [pa; pb; pc] |}.
Lemma shelf_bytes : fs_bytes shelf.
Proof.
  intros p c. unfold shelf, fs_set. destruct (list_eqb [1] p); [|apply txt_bytes]. intro E. injection E as <-. change (bytes_ok (bf_write be2)). vm_compute (bf_write be2). repeat (constructor; [reflexivity|]). constructor.
Qed.
Lemma file_lines_other w w' files ls : (forall p, In p files -> w' p = w p) -> file_lines w files ls -> file_lines w' files ls.
Proof. intros H F. induction F as [|p c es r ls E U T F IH]; [constructor|]. apply (fl_cons w' p c); auto; [rewrite H; [exact E|now left]|]. apply IH. intros q Hq. apply H. now right. Qed.
Lemma shelf_lines : file_lines shelf [pa; pb; pc] [da; db; dc].
Proof. apply (file_lines_other txt); [|exact txt_abc]. intros p [<-|[<-|[<-|[]]]]; reflexivity. Qed.
Lemma plain_checkable : checkable Release shelf [] plain_check be2 [] [da; db; dc].
Proof.
  constructor; [exact shelf_bytes| | |exact shelf_lines|reflexivity].
  - exists (bf_write be2). split; [reflexivity|]. split; [vm_compute; reflexivity|]. vm_compute. reflexivity.
  - split; [discriminate|]. intros _. discriminate.
Qed.
Theorem C44_refuted : exists wy w a f ls, checkable Release w [] a f [] ls /\ ka_inputs a <> [] /\ (exists out r, cmd_check Release wy w [] 0 a out r) /\ forall out r, cmd_check Release wy w [] 0 a out r -> r = Panic.
Proof.
  exists (fun _ => 0), shelf, plain_check, be2, [da; db; dc]. pose proof plain_checkable as C. assert (Ne : ka_inputs plain_check <> []) by discriminate. split; [exact C|]. split; [exact Ne|].
  split; [exact (check_exists _ _ _ _ _ _ _ _ _ C)|]. intros out r. exact (C44_zero _ _ _ _ _ _ _ _ _ _ C Ne).
Qed.
Print Assumptions C44_refuted.

(** * C45 *)
(** Any run of a check that can work prints first the answer for stdin, then an interleaving of the answers for the batches:
    every line as often as it occurs, in file order per batch. *)
Theorem C45_prints pr wy w stdin jobs a f sls ls out r : checkable pr w stdin a f sls ls -> jobs <> 0 -> cmd_check pr wy w stdin jobs a out r ->
  exists out2 lss, out = answer wy f a sls ++ out2 /\ Forall2 (file_lines w) (batches (ka_inputs a) jobs) lss /\ ls = concat lss /\
    Permutation (answer wy f a ls) out2 /\ (forall l, In l lss -> subseq (answer wy f a l) out2).
Proof.
  intros C J H. destruct (check_run _ _ _ _ _ _ _ _ _ _ _ C H) as (out2 & -> & H2). destruct (stdin_part pr wy w stdin a f sls ls C) as [W _]. destruct C as [B _ U F _].
  destruct (check_files_run wy w f a jobs ls out2 r W U B F J H2) as (_ & lss & F2 & -> & I). exists out2, lss. split; [reflexivity|]. split; [exact F2|]. split; [reflexivity|]. split.
  - rewrite answer_concat. exact (interleave_perm _ _ I).
  - intros l Hl. apply (interleave_subseq _ _ I). now apply in_map.
Qed.
Print Assumptions C45_prints.
(** What the answer is: exactly the lines contained, or not contained. *)
Theorem C45_answer wy f a ls : bf_wf f -> bf_usable f -> Forall bytes_ok ls ->
  (ka_verify a = false -> ka_silent a = false -> exists l, answer wy f a ls = map Plain l /\ forall d, In d l <-> In d ls /\ bf_contains_bytes wy f d = Ok true) /\
  (ka_verify a = true -> exists l, answer wy f a ls = map Nok l /\ forall d, In d l <-> In d ls /\ bf_contains_bytes wy f d = Ok false) /\
  (ka_verify a = false -> ka_silent a = true -> answer wy f a ls = []).
Proof.
  intros W U B. unfold answer. rewrite Forall_forall in B. split; [|split].
  - intros -> ->. eexists. split; [reflexivity|]. intro d. rewrite filter_In. split; intros [H1 H2]; split; auto; rewrite (bf_contains_total wy f d W U (B d H1)) in *; congruence.
  - intros ->. eexists. split; [reflexivity|]. intro d. rewrite filter_In. split; intros [H1 H2]; split; auto; rewrite (bf_contains_total wy f d W U (B d H1)) in *; [apply Bool.negb_true_iff in H2; congruence|].
    injection H2 as ->. reflexivity.
  - intros -> ->. reflexivity.
Qed.
Print Assumptions C45_answer.
(** Even when the command fails midway, whatever was printed is right. *)
Theorem C45_sound pr wy w stdin jobs a out r x : cmd_check pr wy w stdin jobs a out r -> In x out ->
  exists c f d, w (ka_file a) = Some c /\ bf_from_reader pr c = Ok f /\ (In (Some d) (lines stdin) \/ exists p ci, In p (ka_inputs a) /\ w p = Some ci /\ In (Some d) (lines ci)) /\ right wy f a [d] x.
Proof.
  assert (O : forall c, fs_open w (ka_file a) = Ok c -> w (ka_file a) = Some c) by (intro c; unfold fs_open; destruct (w (ka_file a)); intro E; [now injection E as ->|discriminate]).
  intros H Hx. destruct H as [e Q|c' e Q Q'|c' Q Q'|c f out Q Q' Q1 Q2|c f out1 out2 r Q Q' Q1 Q2]; try contradiction.
  - destruct (check_lines_right wy f a Panic (lines stdin) x) as (d & Hd & R); [now rewrite Q2|]. exists c, f, d. auto 6.
  - apply in_app_or in Hx as [Hx|Hx].
    + destruct (ka_stdin a || is_nil (ka_inputs a)); [|injection Q1 as <-; contradiction]. destruct (check_lines_right wy f a Panic (lines stdin) x) as (d & Hd & R); [now rewrite Q1|]. exists c, f, d. auto 6.
    + destruct (check_files_right _ _ _ _ _ _ _ _ Q2 Hx) as (p & ci & d & Hp & E & Hd & R). exists c, f, d. split; [auto|]. split; [exact Q'|]. split; [right; eauto|exact R].
Qed.
Print Assumptions C45_sound.
(** An unreadable input makes the command fail. *)
Theorem C45_bad_input pr wy w stdin jobs a out r p : cmd_check pr wy w stdin jobs a out r -> In p (ka_inputs a) -> bad_file w p -> r <> Ok tt.
Proof.
  intros H Hp Q. destruct H as [e X|c' e X X'|c' X X'|c f out X X' Q1 Q2|c f out1 out2 r X X' Q1 Q2]; try discriminate. exact (check_files_bad _ _ _ _ _ _ _ _ Q2 Hp Q).
Qed.
Print Assumptions C45_bad_input.
(** Full statement: with --silent nothing is printed. Proved: without --verify. *)
Theorem C45_silent_partial pr wy w stdin jobs a out r : ka_silent a = true -> ka_verify a = false -> cmd_check pr wy w stdin jobs a out r -> out = [].
Proof.
  intros S V H. destruct out as [|x out]; [reflexivity|]. exfalso. destruct (C45_sound _ _ _ _ _ _ _ _ x H (or_introl eq_refl)) as (c & f & d & _ & _ & _ & R). destruct x; cbn in R; destruct R as (_ & _ & R); [destruct R|]; congruence.
Qed.
Print Assumptions C45_silent_partial.
(** "bar" is not in the filter: check --silent --verify prints it. *)
Theorem C45_refuted : exists wy w a f ls, checkable Release w [] a f [] ls /\ ka_silent a = true /\ forall out r, cmd_check Release wy w [] 1 a out r -> out <> [].
Proof.
  set (a := {| ka_stdin := false; ka_silent := true; ka_verify := true; ka_file := [1]; ka_inputs := [pa; pb; pc] |}). exists (fun _ => 0), shelf, a, be2, [da; db; dc].
  assert (C : checkable Release shelf [] a be2 [] [da; db; dc]) by (destruct plain_checkable; constructor; assumption). split; [exact C|]. split; [reflexivity|].
  intros out r H E. assert (J : 1 <> 0) by discriminate. destruct (C45_prints _ _ _ _ _ _ _ _ _ _ _ C J H) as (out2 & lss & -> & _ & _ & P & _). apply app_eq_nil in E as [_ ->].
  apply Permutation_sym, Permutation_nil in P. vm_compute in P. discriminate.
Qed.
Print Assumptions C45_refuted.
Example C45_example : answer (fun _ => 0) be2 plain_check [da; db; dc] = [Plain da; Plain db] /\ checkable Release shelf [] plain_check be2 [] [da; db; dc].
Proof. split; [vm_compute; reflexivity|exact plain_checkable]. Qed.
