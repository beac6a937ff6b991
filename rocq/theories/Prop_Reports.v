(** C115: which errors the program can end with. *)
From Coq Require Import Lia String.
From Verif Require Import M_Exit M_RefLibm Spec_Bits Spec_Lines Spec_Cli Spec_Bloom Spec_V1 P_Base P_Codec P_Bloom P_Lines P_Batch P_Par P_Check P_Create P_Stdout Prop_Bloom Prop_Create Prop_Save Prop_Build Prop_Check Prop_Args Prop_Exit Prop_V1 Ex_Base Ex_V1 Ex_Cli Prop_Python Prop_Bench Prop_Utf8 Prop_Messages.
Open Scope N_scope.

(** The error a run ends with. *)
Definition error_of (e : ending) : option error :=
  match e with
  | Wrote (Err x) | Checked _ (Err x) | Showed (Err x) | Benched (Err x) => Some x
  | _ => None
  end.
(** What the commands may report (bench has [bench_reports] below). [w] are the files at the start. *)
Definition reports (pr : profile) (w : fs) (c : command) (e : error) : Prop :=
  match c with
  | Create a => (e = NotPoppy /\ exists c x, w (ca_file a) = Some c /\ bf_from_reader pr c = Err x) \/ e = IoError \/ (e = OptLevelError (ca_optimize a) /\ 4 <= ca_optimize a) \/
      (e = InvalidVersion (ca_version a) /\ ca_version a <> 1 /\ ca_version a <> 2) \/ (e = WrongFpp (ca_probability a) /\ fpp_in_range (ca_probability a) = false)
  | Insert a => bad_file e \/ (e = TooManyEntries /\ (ia_stdin a = true \/ ia_inputs a = [])) \/
      (e = Merge /\ ia_inputs a <> [] /\ exists c f, w (ia_file a) = Some c /\ bf_from_reader pr c = Ok (V1 f) /\ fpp_eqb (v1_fpp f) (v1_fpp f) = false)
  | Check _ | Show _ => bad_file e
  | Bench _ => True
  end.

Lemma insert_lines_err pr wy l : forall f g e, bf_wf f -> lines_bytes l -> insert_lines pr wy f l = (g, Err e) -> e = IoError \/ e = TooManyEntries.
Proof.
  induction l as [|[d|] l IH]; intros f g e W B H; cbn [insert_lines] in H; [discriminate| |left; congruence]. assert (Bd : bytes_ok d) by (apply B; now left).
  destruct (bf_insert_bytes pr wy f d) as [f' r] eqn:J. pose proof (bf_insert_sem _ _ _ _ _ _ W Bd J) as I. destruct r as [b|x|]; [|injection H as _ <-; right; exact (proj1 (ib_cases _ _ _ _ _ _ I))|discriminate].
  apply (IH f' g e (ib_wf _ _ _ _ _ _ I)); [intros y Hy; apply B; now right|exact H].
Qed.
Lemma insert_lines_frame pr wy l : forall f g, bf_wf f -> lines_bytes l -> insert_lines pr wy f l = (g, Ok tt) -> bf_wf g /\ bf_same_frame f g.
Proof.
  induction l as [|[d|] l IH]; intros f g W B H; cbn [insert_lines] in H; [injection H as <-; split; [exact W|apply bf_frame_refl]| |discriminate]. assert (Bd : bytes_ok d) by (apply B; now left).
  destruct (bf_insert_bytes pr wy f d) as [f' r] eqn:J. pose proof (bf_insert_sem _ _ _ _ _ _ W Bd J) as I. destruct r as [b|x|]; [|discriminate..].
  destruct (IH f' g (ib_wf _ _ _ _ _ _ I)) as [W' F']; [intros y Hy; apply B; now right|exact H|]. split; [exact W'|]. exact (bf_frame_trans _ _ _ (ib_frame _ _ _ _ _ _ I) F').
Qed.
Lemma reduce_err pr L l : forall out e, bf_wf out -> Forall bf_wf l -> reduce pr L out l = Err e -> e = Merge.
Proof.
  induction l as [|h l IH]; intros out e W F H; cbn [reduce] in H; [discriminate|]. apply Forall_cons_iff in F as [Wh F]. destruct (bf_union_merge pr L out h) as [out' r] eqn:U. pose proof (bf_union_sem _ _ _ _ _ _ W Wh U) as S.
  destruct r as [u|x|]; [|injection H as <-; exact (proj1 S)|discriminate]. exact (IH out' e (proj1 (proj2 S)) F H).
Qed.
Lemma parallel_err pr L wy par w f files jobs e : bf_wf f -> fs_bytes w -> parallel_insert pr L wy par w f files jobs = Err e -> e = Merge /\ files <> [] /\ exists g, f = V1 g /\ fpp_eqb (v1_fpp g) (v1_fpp g) = false.
Proof.
  intros W B H. assert (N : ~ bf_fpp_real f). { intro R. destruct (parallel_cases pr L wy par w f files jobs W B R) as [(g & Q)|[Q _]]; rewrite Q in H; discriminate. }
  split; [|split; [intros ->; discriminate|]].
  - unfold parallel_insert in H. destruct files as [|p ps]; [discriminate|]. destruct (join_all_cases (map (worker pr wy w f) (batches (p :: ps) (optimal_jobs par jobs)))) as [[gs J]|J]; rewrite J in H; [|discriminate]. cbn [obind] in H.
    apply workers_ok in J. destruct (workers_wf _ _ _ _ _ _ W B J) as (_ & _ & _ & F & _). unfold reduce_all in H. destruct (rev gs) as [|out r] eqn:E; [discriminate|].
    assert (F' : Forall bf_wf (rev gs)). { apply Forall_rev. eapply Forall_impl; [|exact F]. cbv beta. tauto. } rewrite E in F'. apply Forall_cons_iff in F' as [Wo F']. exact (reduce_err _ _ _ _ _ Wo F' H).
  - destruct f as [g|g]; cbn [bf_fpp_real] in N; [|now destruct (N I)]. exists g. split; [reflexivity|]. destruct (fpp_eqb _ _); [now destruct N|reflexivity].
Qed.
Lemma check_line_err wy f a d e : check_line wy f a d <> Err e.
Proof. unfold check_line. destruct (bf_contains_bytes wy f d) as [b|x|] eqn:C; cbn [obind]; [destruct (ka_verify a); discriminate|now apply contains_no_err in C|discriminate]. Qed.
Lemma check_lines_err wy f a bad l : forall out e, check_lines wy f a bad l = (out, Err e) -> bad = Err e.
Proof.
  induction l as [|[d|] l IH]; intros out e H; cbn [check_lines] in H; [discriminate| |congruence]. destruct (check_line wy f a d) as [o|x|] eqn:C; [|now apply check_line_err in C|discriminate].
  destruct (check_lines wy f a bad l) as [o' r]. injection H as _ ->. exact (IH _ _ eq_refl).
Qed.
Lemma check_worker_err wy w f a b : forall out e, check_worker wy w f a b = (out, Err e) -> e = IoError.
Proof.
  induction b as [|p b IH]; intros out e H; cbn [check_worker] in H; [discriminate|]. unfold fs_open in H. destruct (w p) as [c|]; [|congruence].
  destruct (check_lines wy f a (Err IoError) (lines c)) as [o r] eqn:C. destruct r as [u|x|]; [destruct (check_worker wy w f a b) as [o' r']; injection H as _ ->; exact (IH _ _ eq_refl)| |discriminate].
  injection H as _ <-. apply check_lines_err in C. congruence.
Qed.
Lemma units_err l e : join_units l = Err e -> In (Err e) l.
Proof. induction l as [|[u|x|] l IH]; cbn; intro H; [discriminate|right; exact (IH H)|left; congruence|discriminate]. Qed.
Lemma check_err pr wy w stdin jobs a out e : cmd_check pr wy w stdin jobs a out (Err e) -> bad_file e.
Proof.
  intro H. remember (Err e) as r0 eqn:E0. destruct H as [x O|c x O L|c O L|c f o O L S T|c f o1 o2 r O L S T]; try discriminate E0.
  - injection E0 as ->. unfold fs_open in O. destruct (w (ka_file a)); [discriminate|]. left. congruence.
  - injection E0 as ->. exact (load_err _ _ _ _ L).
  - subst r. remember (Err e) as r0 eqn:E0. destruct T as [N|N Z|outs out N Z ws res C I]; try discriminate E0. left. apply units_err in E0. unfold ws in E0. rewrite map_map in E0. apply in_map_iff in E0 as (b & E & _).
    destruct (check_worker wy w f a b) as [o r] eqn:K. cbn [snd] in E. subst r. exact (check_worker_err _ _ _ _ _ _ _ K).
Qed.
Lemma show_err df pr w name p e : show_output df pr w name p = Err e -> bad_file e.
Proof.
  unfold show_output, cmd_show, fs_open. intro H. apply ob_err in H as [H|(s & _ & H)]; [|discriminate]. apply ob_err in H as [H|(c & _ & H)]; [left; destruct (w p); congruence|].
  apply ob_err in H as [H|(f & _ & H)]; [exact (load_err _ _ _ _ H)|]. unfold show_bf in H. apply ob_err in H as [H|(n & _ & H)]; [|discriminate]. exfalso. destruct f as [f|f]; cbn [bf_size_in_bytes] in H; [exact (mul_err _ _ _ _ H)|].
  unfold v2_size_in_bytes in H. apply ob_err in H as [H|(n & _ & H)]; [exact (mul_err _ _ _ _ H)|]. unfold checked_add in H. destruct (_ <? _); [discriminate|]. destruct pr; discriminate.
Qed.

Lemma read_f64_small l b : read_f64 l = Some b -> b < two64.
Proof.
  intro H. destruct (C101_float_only _ _ H) as [(s & r & N)|(sg & s & name & S & -> & N)]; [destruct (C101_float _ _ _ N) as (b' & R & B & _); rewrite R in H; injection H as <-; exact B|].
  destruct (C101_names sg s name S) as [A B]. destruct N as [N|[N|N]]; [rewrite (A (or_introl N)) in H|rewrite (A (or_intror N)) in H|rewrite (B N) in H]; injection H as <-; destruct s; reflexivity.
Qed.
Lemma given_probability argv a c : read_args argv = Some a -> ar_command a = Create c -> ca_probability c < two64.
Proof.
  intros R C. destruct a as [v j k]. cbn [ar_command] in C. subst k. apply C101_create in R as (args & its & _ & _ & _ & _ & [_ P|t _ P] & _); exact (read_f64_small _ _ P).
Qed.

(** Every error a run of create, insert, check or show ends with is among these. In particular create never reports a full filter, no
    command says that filters differ in parameters but insert into a filter of version 1 whose rate is NaN, and only lines from standard
    input are reported not to fit. *)
Theorem C115_reports o w argv a w' e x : files_ok w -> bytes_ok (os_stdin o) -> read_args argv = Some a -> main o w argv w' e -> error_of e = Some x -> reports (os_build o) w (ar_command a) x.
Proof.
  intros Fk Bs R M X. assert (B : fs_bytes w) by (intros p c E; exact (proj1 (Fk p c E))).
  destruct M as [R'|a' c w' r R' C E|a' c w' r R' C E|a' c out r R' C E|a' c R' C|a' q R' C]; rewrite R in R'; try discriminate R'; injection R' as <-; rewrite C; cbn [reports]; cbn [error_of] in X.
  - destruct r as [u|y|]; try discriminate X. injection X as ->. unfold cmd_create in E. destruct (create_filter _ _ _ _ _ _ _) as [g|y|] eqn:G; [destruct (save_err _ _ _ _ _ _ E) as [Q|[Q _]]; [discriminate Q|right; left; congruence]| |discriminate].
    injection E as _ ->. unfold create_filter in G. apply ob_err in G as [G|(u & _ & G)].
    { left. unfold check_output in G. destruct (w (ca_file c)) as [d|] eqn:Wc; [|discriminate]. destruct (bf_from_reader (os_build o) d) as [f|y|] eqn:Ld; [discriminate| |discriminate]. split; [congruence|eauto]. }
    apply ob_err in G as [G|(n & Cn & G)].
    { right. left. destruct (ca_dataset c); [discriminate|]. destruct (count_cases (os_build o) (os_par o) w (l :: l0) (ar_jobs a)) as [(n & Q & _)|[Q|Q]]; rewrite Q in G; congruence. }
    apply ob_err in G as [G|(l & Q & G)]; [right; right; left; exact (opt_err _ _ G)|]. apply ob_err in G as [G|(f & Mk & G)].
    { right. right. right. apply make_err in G. cbn in G. tauto. }
    exfalso. unfold bf_of_params in Mk. cbn [p_version p_capacity p_fpp p_opt params_opt params_version params_new] in Mk.
    destruct (ca_dataset c) as [|p ps] eqn:Ds; [discriminate G|]. destruct (count_cases (os_build o) (os_par o) w (p :: ps) (ar_jobs a)) as [(n' & Q' & Hn)|[Q'|Q']]; rewrite Q' in Cn; try discriminate Cn. injection Cn as ->.
    destruct (fresh_facts (os_hasher o) _ _ _ _ _ _ _ Hn (given_probability _ _ _ R C) Mk) as (Wf & Rf & _). apply parallel_err in G as (_ & _ & h & -> & N); [|exact Wf|exact B]. cbn [bf_fpp_real] in Rf. congruence.
  - destruct r as [u|y|]; try discriminate X. injection X as ->. unfold cmd_insert in E. destruct (insert_filter _ _ _ _ _ _ _ _) as [g|y|] eqn:G; [destruct (save_err _ _ _ _ _ _ E) as [Q|[Q _]]; [discriminate Q|left; left; congruence]| |discriminate].
    injection E as _ ->. unfold insert_filter, fs_open in G. destruct (w (ia_file c)) as [d|] eqn:Wc; [|left; left; cbn in G; congruence]. cbn [obind] in G. apply ob_err in G as [G|(f & Ld & G)]; [left; exact (load_err _ _ _ _ G)|].
    destruct (Fk _ _ Wc) as [Bd Sd]. pose proof (bf_load_wf _ _ _ Bd Sd Ld) as Wf. pose proof (lines_of_bytes _ Bs) as Bl. apply ob_err in G as [G|(f1 & E1 & G)].
    + destruct (ia_stdin c || is_nil (ia_inputs c))%bool eqn:St; [|discriminate]. destruct (insert_lines (os_build o) (os_hasher o) f (lines (os_stdin o))) as [f1 r1] eqn:J. destruct r1 as [u|z|]; cbn [obind] in G; try discriminate G. injection G as ->.
      destruct (insert_lines_err _ _ _ _ _ _ Wf Bl J) as [->| ->]; [left; now left|right; left]. split; [reflexivity|]. exact (proj2 (reads_stdin_b c) St).
    + assert (F1 : bf_wf f1 /\ bf_same_frame f f1).
      { destruct (ia_stdin c || is_nil (ia_inputs c))%bool; [|injection E1 as <-; split; [exact Wf|apply bf_frame_refl]]. destruct (insert_lines (os_build o) (os_hasher o) f (lines (os_stdin o))) as [f2 r1] eqn:J. destruct r1 as [[]|z|]; cbn [obind] in E1; try discriminate E1. injection E1 as <-. exact (insert_lines_frame _ _ _ _ _ Wf Bl J). }
      destruct F1 as [W1 F1]. apply parallel_err in G as (-> & Ne & h & -> & N); [|exact W1|exact B]. right. right. split; [reflexivity|]. split; [exact Ne|]. destruct f as [f|f]; [|contradiction F1]. exists d, f. split; [exact eq_refl|]. split; [exact Ld|].
      pose proof (frame_fpp _ _ F1) as Q. cbn [bf_fpp] in Q. rewrite <- Q. exact N.
  - destruct r as [u|y|]; try discriminate X. injection X as ->. exact (check_err _ _ _ _ _ _ _ _ E).
  - exact I.
  - destruct (show_output _ _ _ _ _) as [t|y|] eqn:S; try discriminate X. injection X as ->. exact (show_err _ _ _ _ _ _ S).
Qed.
Print Assumptions C115_reports.
(** What create refuses, and in which order: the file it would write over, then the level, then the version, then the rate. The other
    arguments do not matter, and no file changes. *)
Theorem C115_create o w argv a c w' e : read_args argv = Some a -> ar_command a = Create c -> main o w argv w' e ->
  (forall d x, w (ca_file c) = Some d -> bf_from_reader (os_build o) d = Err x -> e = Wrote (Err NotPoppy) /\ w' = w) /\
  forall ls, (w (ca_file c) = None \/ exists d f, w (ca_file c) = Some d /\ bf_from_reader (os_build o) d = Ok f) -> file_lines w (ca_dataset c) ls -> len ls < two64 ->
    (4 <= ca_optimize c -> e = Wrote (Err (OptLevelError (ca_optimize c))) /\ w' = w) /\
    (ca_optimize c < 4 -> ca_version c <> 1 -> ca_version c <> 2 -> e = Wrote (Err (InvalidVersion (ca_version c))) /\ w' = w) /\
    (ca_optimize c < 4 -> ca_version c = 1 \/ ca_version c = 2 -> fpp_in_range (ca_probability c) = false -> e = Wrote (Err (WrongFpp (ca_probability c))) /\ w' = w).
Proof.
  intros R C M. destruct M as [R'|a' c' w' r R' C' E|a' c' w' r R' C' E|a' c' out r R' C' E|a' c' R' C'|a' q R' C']; rewrite R in R'; try discriminate R'; injection R' as <-; rewrite C in C'; try discriminate C'. injection C' as <-.
  assert (Z : forall x, create_filter (os_build o) (os_libm o) (os_hasher o) (os_par o) w (ar_jobs a) c = Err x -> Wrote r = Wrote (Err x) /\ w' = w).
  { intros x Q. unfold cmd_create in E. rewrite Q in E. now injection E as <- <-. }
  split; [intros d x Wc Ld; apply Z; unfold create_filter, check_output; rewrite Wc, Ld; reflexivity|]. intros ls Wc Fl Ll.
  assert (Ch : check_output (os_build o) w (ca_file c) = Ok tt) by (unfold check_output; destruct Wc as [->|(d & f & -> & ->)]; reflexivity).
  assert (Cn : exists n, match ca_dataset c with [] => Ok (ca_capacity c) | _ => count_lines_parallel (os_build o) (os_par o) w (ca_dataset c) (ar_jobs a) end = Ok n).
  { rewrite (count_ok (os_build o) (os_par o) w (ca_dataset c) (ar_jobs a) ls Fl Ll). destruct (ca_dataset c); eauto. }
  destruct Cn as [n Cn].
  assert (Op : ca_optimize c < 4 -> exists l, opt_of_u8 (ca_optimize c) = Ok l).
  { intro H. destruct (opt_of_u8 (ca_optimize c)) as [l|x|] eqn:Q; [eauto|apply opt_err in Q; lia|]. unfold opt_of_u8 in Q. repeat (destruct (_ =? _); [discriminate|]). discriminate. }
  split; [|split].
  - intro H. apply Z. unfold create_filter. rewrite Ch. cbn [obind]. rewrite Cn. cbn [obind]. unfold opt_of_u8, opt_to_u8. repeat (match goal with |- context [?x =? ?y] => destruct (N.eqb_spec x y); [lia|] end). reflexivity.
  - intros H V1' V2'. destruct (Op H) as [l Ol]. apply Z. unfold create_filter. rewrite Ch. cbn [obind]. rewrite Cn. cbn [obind]. rewrite Ol. cbn [obind]. unfold bf_of_params, bf_with_version_capacity_opt. cbn [p_version p_capacity p_fpp p_opt params_opt params_version params_new].
    apply N.eqb_neq in V1', V2'. rewrite V1', V2'. reflexivity.
  - intros H V F. destruct (Op H) as [l Ol]. apply Z. unfold create_filter. rewrite Ch. cbn [obind]. rewrite Cn. cbn [obind]. rewrite Ol. cbn [obind]. unfold bf_of_params, bf_with_version_capacity_opt, v1_with_capacity, v2_make. cbn [p_version p_capacity p_fpp p_opt params_opt params_version params_new].
    rewrite F. destruct V as [-> | ->]; reflexivity.
Qed.
Print Assumptions C115_create.
(** insert and check of a file that is not there or does not load end with that error, and change nothing; so does show, which reads the
    beginning of the file only. *)
Theorem C115_named o w argv a w' e p x : read_args argv = Some a -> main o w argv w' e ->
  ((exists c, ar_command a = Insert c /\ ia_file c = p) \/ (exists c, ar_command a = Check c /\ ka_file c = p) \/ ar_command a = Show p) ->
  (w p = None /\ x = IoError \/ exists d, w p = Some d /\ (if match ar_command a with Show _ => true | _ => false end then bf_partial_from_reader (os_build o) d else bf_from_reader (os_build o) d) = Err x) ->
  error_of e = Some x /\ w' = w.
Proof.
  intros R M H F.
  destruct M as [R'|a' c w' r R' C E|a' c w' r R' C E|a' c out r R' C E|a' c R' C|a' q R' C]; rewrite R in R'; try discriminate R'; injection R' as <-; rewrite C in H, F; decompose [or ex and] H; clear H; try discriminate;
    match goal with Q : _ = _ |- _ => injection Q as <- end.
  - subst p. unfold cmd_insert, insert_filter, fs_open in E. destruct F as [[Wp ->]|(d & Wp & Q)]; rewrite Wp in E; cbn [obind] in E; [|rewrite Q in E; cbn [obind] in E]; injection E as <- <-; split; reflexivity.
  - subst p. split; [|reflexivity]. assert (O : (let? d := fs_open w (ka_file c) in bf_from_reader (os_build o) d) = Err x). { unfold fs_open. destruct F as [[-> ->]|(d & -> & Q)]; [reflexivity|exact Q]. }
    destruct E as [y O'|d y O' L|d O' L|d f o1 O' L S T|d f o1 o2 r O' L S T]; rewrite O' in O; cbn [obind error_of] in *; congruence.
  - split; [|reflexivity]. unfold show_output, cmd_show, fs_open. cbn [error_of]. destruct F as [[-> ->]|(d & -> & Q)]; cbn [obind]; [reflexivity|]. rewrite Q. reflexivity.
Qed.
Print Assumptions C115_named.
(** ** bench *)
(** [bench_reports] leaves no room for "too many entries": the filter made is as large as the lines it gets. *)
Definition bench_reports (k : bench_args) (e : error) : Prop :=
  match ba_file k with
  | Some _ => bad_file e
  | None => e = IoError \/ (e = OptLevelError (ba_opt k) /\ 4 <= ba_opt k) \/ (e = InvalidVersion (ba_version k) /\ ba_version k <> 1 /\ ba_version k <> 2) \/
      (e = WrongFpp (ba_fpp k) /\ fpp_in_range (ba_fpp k) = false)
  end.
Lemma fill_fits pr wy ds : forall f g e, bf_wf f -> Forall bytes_ok ds -> bf_capacity f < two64 -> bf_count_estimate f + len ds <= bf_capacity f -> bf_fill pr wy f ds <> (g, Err e).
Proof.
  induction ds as [|d ds IH]; intros f g e W B C L H; cbn [bf_fill] in H; [discriminate|]. apply Forall_cons_iff in B as [Bd B]. rewrite len_cons in L.
  destruct (bf_insert_bytes pr wy f d) as [f' r] eqn:J. pose proof (bf_insert_sem _ _ _ _ _ _ W Bd J) as [F W' _ _ K]. destruct r as [b|x|]; [| |discriminate].
  - destruct K as (_ & _ & K & _). pose proof (bf_frame_capacity _ _ F) as Q. apply (IH f' g e W' B); [rewrite Q; exact C| |exact H]. rewrite Q, K. destruct b; [|lia]. rewrite w64_id; lia.
  - destruct K as (_ & _ & [K|K]); lia.
Qed.
Lemma entries_err pr wyh limit l : forall size marked e, bench_entries pr wyh limit size marked l = Err e -> e = IoError.
Proof.
  induction l as [|[d|] l IH]; intros size marked e H; cbn [bench_entries] in H; [discriminate| |congruence]. destruct (bz_cmp _ _); try discriminate;
    (destruct (existsb _ _); [exact (IH _ _ _ H)|]; apply ob_err in H as [H|(s & _ & H)]; [unfold checked_add in H; destruct (_ <? _); [discriminate|]; destruct pr; discriminate|]; apply ob_err in H as [H|(es & _ & H)]; [exact (IH _ _ _ H)|discriminate]).
Qed.
Lemma entries_short pr wyh limit l : forall size marked es, bench_entries pr wyh limit size marked l = Ok es -> len es <= len l.
Proof.
  induction l as [|[d|] l IH]; intros size marked es H; cbn [bench_entries] in H; [injection H as <-; reflexivity| |discriminate]. rewrite (len_cons (Some d)).
  assert (X : forall s m, bench_entries pr wyh limit s m l = Ok es -> len es <= 1 + len l) by (intros s m Q; specialize (IH s m es Q); lia).
  destruct (bz_cmp _ _); [| |injection H as <-; cbn; lia];
    (destruct (existsb _ _); [specialize (X _ _ H); lia|]; destruct (checked_add pr size (len d)) as [s| |]; try discriminate H; cbn [obind] in H; destruct (bench_entries pr wyh limit s _ l) as [es'| |] eqn:E; try discriminate H; injection H as <-; rewrite len_cons; specialize (IH _ _ _ E); lia).
Qed.
Lemma contained_err wy b l e : all_contained wy b l <> Err e.
Proof. induction l as [|d l IH]; cbn [all_contained]; [discriminate|]. intro H. apply ob_err in H as [H|(ok & _ & H)]; [now apply contains_no_err in H|]. destruct ok; [exact (IH H)|discriminate]. Qed.
Lemma show_bf_err pr b e : show_bf pr b <> Err e.
Proof.
  unfold show_bf. intro H. apply ob_err in H as [H|(n & _ & H)]; [|discriminate]. destruct b as [f|f]; cbn [bf_size_in_bytes] in H; [exact (mul_err _ _ _ _ H)|].
  unfold v2_size_in_bytes in H. apply ob_err in H as [H|(n & _ & H)]; [exact (mul_err _ _ _ _ H)|]. unfold checked_add in H. destruct (_ <? _); [discriminate|]. destruct pr; discriminate.
Qed.
Lemma measure_err pr wy b l : forall s e, bench_measure pr wy b s l <> Err e.
Proof.
  induction l as [|[m d] l IH]; intros s e H; cbn [bench_measure] in H; [discriminate|]. apply ob_err in H as [H|(i & _ & H)]; [now apply contains_no_err in H|]. apply ob_err in H as [H|(s' & _ & H)]; [|exact (IH _ _ H)].
  destruct m; [|discriminate]. unfold stats_inc in H. apply ob_err in H as [H|(t & _ & H)]; [|discriminate]. unfold checked_add in H. destruct (_ <? _); [discriminate|]. destruct pr; discriminate.
Qed.
Lemma rates_err pr wy d b runs test cs e : bench_rates pr wy d b runs test cs <> Err e.
Proof.
  induction cs as [|c cs IH]; cbn [bench_rates]; [discriminate|]. intro H. apply ob_err in H as [H|(x & _ & H)]; [|apply ob_err in H as [H|(xs & _ & H)]; [exact (IH H)|discriminate]].
  unfold bench_condition in H. apply ob_err in H as [H|(s & _ & H)]; [exact (measure_err _ _ _ _ _ _ H)|]. destruct (runs =? 0); discriminate.
Qed.
Lemma bench_rate argv a k : read_args argv = Some a -> ar_command a = Bench k -> ba_fpp k < two64.
Proof.
  intros R C. destruct a as [v j c]. cbn [ar_command] in C. subst c. apply C101_bench in R as (args & its & l & _ & _ & _ & _ & _ & _ & _ & [_ P|t _ P] & _); exact (read_f64_small _ _ P).
Qed.
Theorem C115_bench o w argv a k w' x : bytes_ok (os_stdin o) -> len (lines (os_stdin o)) < two64 -> read_args argv = Some a -> ar_command a = Bench k -> main o w argv w' (Benched (Err x)) -> bench_reports k x.
Proof.
  intros Bs Ls R Ck M. remember (Benched (Err x)) as e eqn:X.
  destruct M as [R'|a' c w' r R' C E|a' c w' r R' C E|a' c out r R' C E|a' c R' C|a' q R' C]; try discriminate X. rewrite R in R'. injection R' as <-. rewrite Ck in C. injection C as <-. injection X as X. unfold cmd_bench in X. unfold bench_reports.
  apply ob_err in X as [X|(limit & _ & X)]; [unfold bench_limit, bz_from_mb in X; apply ob_err in X as [X|(n & _ & X)]; [now apply mul_err in X|discriminate]|].
  apply ob_err in X as [X|(es & Ee & X)]; [apply entries_err in X as ->; destruct (ba_file k); now left|]. apply ob_err in X as [X|(b & _ & X)].
  - destruct (ba_file k) as [p|].
    + apply ob_err in X as [X|(c & _ & X)]; [left; unfold fs_open in X; destruct (w p); congruence|]. apply ob_err in X as [X|(b & _ & X)]; [exact (load_err _ _ _ _ X)|]. apply ob_err in X as [X|(ok & _ & X)]; [now apply contained_err in X|discriminate].
    + right. apply ob_err in X as [X|(b & _ & X)]; [|discriminate]. unfold bench_filter in X. apply ob_err in X as [X|(l & _ & X)]; [left; exact (opt_err _ _ X)|right]. apply ob_err in X as [X|(b & Mk & X)]; [apply make_err in X; cbn in X; tauto|]. exfalso.
      unfold bf_of_params in Mk. cbn [p_version p_capacity p_fpp p_opt params_opt params_version params_new] in Mk. pose proof (entries_short _ _ _ _ _ _ _ Ee) as Le. assert (Hn : len es < two64) by lia.
      destruct (fresh_facts (os_hasher o) _ _ _ _ _ _ _ Hn (bench_rate _ _ _ R Ck) Mk) as (Wf & _ & Cp & Ct & _). destruct (bf_fill (os_build o) (os_hasher o) b es) as [b' r] eqn:Fl. destruct r as [u|z|]; cbn [obind] in X; try discriminate X.
      apply (fill_fits _ _ _ _ _ _ Wf) in Fl; [exact Fl| |lia|lia]. apply Forall_forall. intros d Hd. apply (lines_of_bytes _ Bs). exact (entries_from _ _ _ _ _ _ _ Ee d Hd).
  - exfalso. destruct b as [b|]; [|discriminate]. apply ob_err in X as [X|(u & _ & X)]; [exact (show_bf_err _ _ _ X)|]. apply ob_err in X as [X|(rs & _ & X)]; [exact (rates_err _ _ _ _ _ _ _ _ X)|discriminate].
Qed.
Print Assumptions C115_bench.
(** The filter was made by nobody: a rate that is not a number. Inserting two files into it is refused with a message about merging
    filters of different parameters, though there is one filter; inserting one file is not. *)
Definition odd_disk : fs := fs_set txt [1] (tiny_file ONone p_nan 3 50 [5]).
Theorem C115_merge_refuted : exists o w argv, files_ok w /\ bytes_ok (os_stdin o) /\ main o w argv w (Wrote (Err Merge)) /\ (exists p q r, argv = [bytes_of "insert"; p; q; r]) /\
  forall p q r, argv = [bytes_of "insert"; p; q; r] -> exists w', main o w [bytes_of "insert"; p; q] w' (Wrote (Ok tt)).
Proof.
  exists here, odd_disk, [bytes_of "insert"; [1]; pa; pb]. split.
  { intros p c. unfold odd_disk, fs_set. destruct (list_eqb [1] p); [intro E; injection E as <-; split; [vm_compute; repeat (constructor; [reflexivity|]); constructor|reflexivity]|]. unfold txt.
    repeat (destruct (list_eqb _ p); [intro E; injection E as <-; split; [vm_compute; repeat (constructor; [reflexivity|]); constructor|reflexivity]|]). discriminate. }
  split; [constructor|]. split; [eapply main_insert; [vm_compute; reflexivity|reflexivity|vm_compute; reflexivity]|]. split; [eauto|]. intros p q r E. injection E as <- <- <-.
  eexists. eapply main_insert; [vm_compute; reflexivity|reflexivity|vm_compute; reflexivity].
Qed.
Print Assumptions C115_merge_refuted.
(** A file whose lines do not fit ends insert with a panic, and the same lines on standard input with the error. *)
Theorem C115_full_refuted : exists w p argv, files_ok w /\ w p = Some (os_stdin (with_stdin (da ++ [10] ++ db ++ [10] ++ dc ++ [10]))) /\
  main here w (argv ++ [p]) w (Wrote Panic) /\ main (with_stdin (da ++ [10] ++ db ++ [10] ++ dc ++ [10])) w argv w (Wrote (Err TooManyEntries)).
Proof.
  exists (fs_set (fs_set txt [1] (bf_write (V1 q0))) [2] (da ++ [10] ++ db ++ [10] ++ dc ++ [10])), [2], [bytes_of "insert"; [1]]. split.
  { intros p c. unfold fs_set. destruct (list_eqb [2] p); [intro E; injection E as <-; split; [vm_compute; repeat (constructor; [reflexivity|]); constructor|reflexivity]|]. destruct (list_eqb [1] p); [intro E; injection E as <-; split; [vm_compute; repeat (constructor; [reflexivity|]); constructor|reflexivity]|].
    unfold txt. repeat (destruct (list_eqb _ p); [intro E; injection E as <-; split; [vm_compute; repeat (constructor; [reflexivity|]); constructor|reflexivity]|]). discriminate. }
  split; [reflexivity|]. split; (eapply main_insert; [vm_compute; reflexivity|reflexivity|vm_compute; reflexivity]).
Qed.
Print Assumptions C115_full_refuted.
(** Five of the reports. *)
Example C115_example : main here txt [bytes_of "create"; bytes_of "--version=3"; [1]; pa] txt (Wrote (Err (InvalidVersion 3))) /\ main here txt [bytes_of "create"; bytes_of "-O9"; [1]; pa] txt (Wrote (Err (OptLevelError 9))) /\
  main here txt [bytes_of "create"; bytes_of "-p0"; [1]; pa] txt (Wrote (Err (WrongFpp 0))) /\ main here txt [bytes_of "create"; pa; pb] txt (Wrote (Err NotPoppy)) /\ main here txt [bytes_of "insert"; [1]; pa] txt (Wrote (Err IoError)).
Proof. repeat match goal with |- _ /\ _ => split end; try (eapply main_create; [vm_compute; reflexivity|reflexivity|vm_compute; reflexivity]). eapply main_insert; [vm_compute; reflexivity|reflexivity|vm_compute; reflexivity]. Qed.
Example C115_bench_example : (exists a k, read_args [bytes_of "bench"; bytes_of "--version=3"] = Some a /\ ar_command a = Bench k /\ bench_reports k (InvalidVersion 3)) /\ len (lines (os_stdin (with_stdin (da ++ [10])))) < two64 /\
  main (with_stdin (da ++ [10])) txt [bytes_of "bench"; bytes_of "--version=3"] txt (Benched (Err (InvalidVersion 3))).
Proof.
  split; [eexists; eexists; split; [vm_compute; reflexivity|]; split; [reflexivity|]; right; right; left; cbn; repeat split; discriminate|]. split; [reflexivity|].
  assert (E : forall r, r = Err (InvalidVersion 3) -> main (with_stdin (da ++ [10])) txt [bytes_of "bench"; bytes_of "--version=3"] txt (Benched r) -> main (with_stdin (da ++ [10])) txt [bytes_of "bench"; bytes_of "--version=3"] txt (Benched (Err (InvalidVersion 3)))) by (intros r -> H; exact H).
  eapply E; [|eapply main_bench; [vm_compute; reflexivity|reflexivity]]. vm_compute. reflexivity.
Qed.
(** Everything wrong at once, then less and less; a short file is shown as missing data, like one that is not there. *)
Example C115_order_example : main here txt [bytes_of "create"; bytes_of "-O9"; bytes_of "--version=3"; bytes_of "-p0"; pa; pb] txt (Wrote (Err NotPoppy)) /\
  main here txt [bytes_of "create"; bytes_of "-O9"; bytes_of "--version=3"; bytes_of "-p0"; [1]; pb] txt (Wrote (Err (OptLevelError 9))) /\
  main here txt [bytes_of "create"; bytes_of "--version=3"; bytes_of "-p0"; [1]; pb] txt (Wrote (Err (InvalidVersion 3))) /\ file_lines txt [pb] [db] /\
  (forall w' e, main here txt [bytes_of "show"; pa] w' e -> error_of e = Some IoError) /\ (forall w' e, main here txt [bytes_of "check"; pa] w' e -> error_of e = Some IoError).
Proof.
  repeat match goal with |- _ /\ _ => split end; try (eapply main_create; [vm_compute; reflexivity|reflexivity|vm_compute; reflexivity]).
  - exact txt_b.
  - intros w' e M. refine (proj1 (C115_named _ _ _ _ _ _ pa IoError _ M _ _)); [vm_compute; reflexivity|right; right; reflexivity|right; eexists; split; [reflexivity|vm_compute; reflexivity]].
  - intros w' e M. refine (proj1 (C115_named _ _ _ _ _ _ pa IoError _ M _ _)); [vm_compute; reflexivity|right; left; eexists; split; reflexivity|right; eexists; split; [reflexivity|vm_compute; reflexivity]].
Qed.
