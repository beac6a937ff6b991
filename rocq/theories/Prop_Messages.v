(** C114: what the messages of the errors say. *)
From Coq Require Import Lia String.
From Verif Require Import M_Messages M_RefLibm Spec_Bits Spec_Hash Spec_V2 Spec_V2Hist Spec_V1 Spec_Bloom P_Base P_Codec P_Bloom P_Create P_Text P_Stdout Ex_Base Ex_V1 Prop_Bloom Prop_Create Prop_Build Prop_Bits Prop_Python.
Open Scope N_scope.

(** ** Which errors each call can give *)
(** The errors a loaded file can be refused with: it is short, or one of three bytes or numbers in it is wrong. *)
Definition bad_file (e : error) : Prop := e = IoError \/ (exists v, e = InvalidVersion v /\ v <> 1 /\ v <> 2) \/ (exists o, e = OptLevelError o /\ 4 <= o) \/ (exists x, e = WrongFpp x /\ fpp_in_range x = false).
(** The errors of a call, naming the argument that is to blame. *)
Definition blames (c : py_call) (e : error) : Prop :=
  match c with
  | PNew _ x => e = WrongFpp x /\ fpp_in_range x = false
  | PWithVersion v _ x => (e = InvalidVersion v /\ v <> 1 /\ v <> 2) \/ (e = WrongFpp x /\ fpp_in_range x = false /\ (v = 1 \/ v = 2))
  | PWithParams v _ x o => (e = OptLevelError o /\ 4 <= o) \/ (o < 4 /\ e = InvalidVersion v /\ v <> 1 /\ v <> 2) \/ (o < 4 /\ e = WrongFpp x /\ fpp_in_range x = false /\ (v = 1 \/ v = 2))
  | PLoads _ | PLoad _ => bad_file e
  | PInsert _ _ => e = TooManyEntries
  | PUnion _ _ | PCommon _ _ => e = Merge
  | _ => False
  end.

Lemma ob_err {A B} (x : outcome A) (k : A -> outcome B) e : obind x k = Err e -> x = Err e \/ exists a, x = Ok a /\ k a = Err e.
Proof. destruct x; cbn; intro H; [right; eauto|left; congruence|discriminate]. Qed.
Lemma vec_err {A} n (x : A) m e : vec_of n x m <> Err e.
Proof. unfold vec_of. destruct (_ <=? _); discriminate. Qed.
Lemma bs_err n e : bs_with_bit_capacity n <> Err e.
Proof. unfold bs_with_bit_capacity. apply vec_err. Qed.
Lemma mul_err pr a b e : checked_mul pr a b <> Err e.
Proof. unfold checked_mul. destruct (_ <? _); [discriminate|]. destruct pr; discriminate. Qed.
Lemma npot_err pr a e : next_power_of_two pr a <> Err e.
Proof. unfold next_power_of_two. cbv zeta. destruct (_ <? two64); [discriminate|]. destruct pr; discriminate. Qed.
Lemma v1_make_err L cap x e : v1_with_capacity L cap x = Err e -> e = WrongFpp x /\ fpp_in_range x = false.
Proof.
  unfold v1_with_capacity. destruct (fpp_in_range x); cbn [negb]; intro H; [|split; [congruence|reflexivity]].
  apply ob_err in H as [H|(b & _ & H)]; [now apply vec_err in H|discriminate].
Qed.
Lemma v2_make_err pr L cap x o e : v2_make pr L cap x o = Err e -> e = WrongFpp x /\ fpp_in_range x = false.
Proof.
  unfold v2_make. destruct (fpp_in_range x); cbn [negb]; intro H; [|split; [congruence|reflexivity]].
  apply ob_err in H as [H|([[cb nb] nh] & _ & H)].
  - destruct o; try discriminate; apply ob_err in H as [H|(c & _ & H)]; try (now apply npot_err in H); try discriminate. apply ob_err in H as [H|(n & _ & H)]; [now apply npot_err in H|discriminate].
  - apply ob_err in H as [H|(c & _ & H)]; [now apply bs_err in H|]. apply ob_err in H as [H|(b & _ & H)]; [now apply vec_err in H|discriminate].
Qed.
Lemma make_err pr L v cap x o e : bf_with_version_capacity_opt pr L v cap x o = Err e -> (e = InvalidVersion v /\ v <> 1 /\ v <> 2) \/ (e = WrongFpp x /\ fpp_in_range x = false /\ (v = 1 \/ v = 2)).
Proof.
  unfold bf_with_version_capacity_opt. destruct (N.eqb_spec v 1) as [V|V]; [|destruct (N.eqb_spec v 2) as [W|W]]; intro H.
  - apply ob_err in H as [H|(f & _ & H)]; [|discriminate]. apply v1_make_err in H. tauto.
  - apply ob_err in H as [H|(f & _ & H)]; [|discriminate]. apply v2_make_err in H. tauto.
  - left. split; [congruence|]. now split.
Qed.
Lemma opt_err o e : opt_of_u8 o = Err e -> e = OptLevelError o /\ 4 <= o.
Proof.
  unfold opt_of_u8, opt_to_u8. destruct (N.eqb_spec o 0); [discriminate|]. destruct (N.eqb_spec o 1); [discriminate|]. destruct (N.eqb_spec o 2); [discriminate|]. destruct (N.eqb_spec o 3); [discriminate|].
  intro H. split; [congruence|lia].
Qed.
Lemma opt_ok o l : opt_of_u8 o = Ok l -> o < 4.
Proof.
  unfold opt_of_u8, opt_to_u8. destruct (N.eqb_spec o 0); [lia|]. destruct (N.eqb_spec o 1); [lia|]. destruct (N.eqb_spec o 2); [lia|]. destruct (N.eqb_spec o 3); [lia|discriminate].
Qed.
Lemma exact_err n r e : read_exact n r = Err e -> e = IoError.
Proof. unfold read_exact. destruct (_ <=? _); [discriminate|congruence]. Qed.
Lemma le_err r e : read_le_u64 r = Err e -> e = IoError.
Proof. unfold read_le_u64. intro H. apply ob_err in H as [H|([b r'] & _ & H)]; [exact (exact_err _ _ _ H)|discriminate]. Qed.
Lemma seek_err z r e : seek_relative z r = Err e -> e = IoError.
Proof. unfold seek_relative. destruct (_ || _)%bool; [congruence|discriminate]. Qed.
Lemma many_err n size r e : read_many n size r = Err e -> e = IoError.
Proof.
  revert r. induction n as [|n IH]; intros r H; cbn [read_many] in H; [discriminate|]. apply ob_err in H as [H|([b r'] & _ & H)]; [exact (exact_err _ _ _ H)|].
  apply ob_err in H as [H|([bs r''] & _ & H)]; [exact (IH _ H)|discriminate].
Qed.
Local Ltac le H := apply ob_err in H as [H|([? ?] & _ & H)]; [apply le_err in H; now left|].
Lemma load_err pr c p e : bf_from_reader_partial pr c p = Err e -> bad_file e.
Proof.
  unfold bf_from_reader_partial. intro H. apply ob_err in H as [H|([fl r] & _ & H)].
  - unfold read_flags in H. apply ob_err in H as [H|([b r'] & _ & H)]; [left; exact (exact_err _ _ _ H)|]. apply ob_err in H as [H|(fl & _ & H)]; [|discriminate].
    unfold flags_from_bytes in H. destruct b as [|v [|o0 t]]; try discriminate. apply ob_err in H as [H|(o & _ & H)]; [|discriminate]. apply opt_err in H as [-> H]. right. right. left. eauto.
  - destruct (N.eqb_spec (fl_version fl) 1) as [V|V]; [|destruct (N.eqb_spec (fl_version fl) 2) as [W|W]].
    + apply ob_err in H as [H|(f & _ & H)]; [|discriminate]. unfold v1_from_reader_with_flags, read_le_f64 in H. le H. le H. le H. le H. le H. apply ob_err in H as [H|([bits r'] & _ & H)]; [|discriminate]. destruct p.
      * apply ob_err in H as [H|(off & _ & H)]; [now apply mul_err in H|]. apply ob_err in H as [H|(rs & _ & H)]; [left; exact (seek_err _ _ _ H)|discriminate].
      * apply ob_err in H as [H|(off & _ & H)]; [now apply vec_err in H|]. apply ob_err in H as [H|([ws r'] & _ & H)]; [left; exact (many_err _ _ _ _ H)|discriminate].
    + apply ob_err in H as [H|(f & _ & H)]; [|discriminate]. unfold v2_from_reader_with_flags, read_le_f64 in H. le H. apply ob_err in H as [H|([x r'] & _ & H)]; [apply le_err in H; now left|].
      destruct (fpp_in_range x) eqn:X; cbn [negb] in H; [|right; right; right; exists x; split; [congruence|exact X]]. le H. le H. le H. apply ob_err in H as [H|([ic rr] & _ & H)].
      * destruct p; [apply ob_err in H as [H|(r9 & _ & H)]; [left; exact (seek_err _ _ _ H)|]; apply ob_err in H as [H|(q & _ & H)]; [now apply bs_err in H|discriminate]|].
        apply ob_err in H as [H|(q & _ & H)]; [now apply bs_err in H|]. apply ob_err in H as [H|([b r9] & _ & H)]; [left; exact (exact_err _ _ _ H)|discriminate].
      * le H. apply ob_err in H as [H|([bk rb] & _ & H)]; [|discriminate]. destruct p.
        -- apply ob_err in H as [H|(off & _ & H)]; [now apply mul_err in H|]. apply ob_err in H as [H|(rs & _ & H)]; [left; exact (seek_err _ _ _ H)|discriminate].
        -- apply ob_err in H as [H|(off & _ & H)]; [now apply vec_err in H|]. left. exact (many_err _ _ _ _ H).
    + right. left. exists (fl_version fl). split; [congruence|]. now split.
Qed.

(** In every program, a ValueError blames the argument, the file, the capacity or the pair of filters that is at fault. *)
Theorem C114_blames pr L wy w l s c s' e : files_ok w -> Forall (fun e => call_ok (fst e)) l -> py_run pr L wy {| pw_objs := []; pw_files := w |} l s ->
  call_ok c -> py_do pr L wy s c = (s', PyRaise (ValueError e)) -> blames c e.
Proof.
  intros W F R K H. pose proof (run_agree _ _ _ _ _ _ R _ (agree_start wy L w W) F) as [A1 _ _ _].
  assert (MK : forall o, py_make s o = (s', PyRaise (ValueError e)) -> o = Err e) by (intros o E; unfold py_make in E; destruct o; congruence).
  destruct c as [cap x|v cap x|v cap x o|b|p|h d|h d|h|h o|h o|h|h p|h|h|h|h|h]; cbn [py_do blames] in *;
    try (unfold on in H; destruct (nth_error (pw_objs s) h) as [f|] eqn:E; [|discriminate]); try discriminate.
  - apply MK in H. unfold py_new, bf_with_capacity in H. apply ob_err in H as [H|(f & _ & H)]; [|discriminate]. exact (v2_make_err _ _ _ _ _ _ H).
  - apply MK in H. exact (make_err _ _ _ _ _ _ _ H).
  - apply MK in H. unfold py_with_params in H. apply ob_err in H as [H|(q & Q & H)]; [left; exact (opt_err _ _ H)|]. apply opt_ok in Q. apply make_err in H. cbn in H. tauto.
  - apply MK in H. exact (load_err _ _ _ _ H).
  - destruct (fs_open (pw_files s) p) as [c|e'|]; [|discriminate..]. apply MK in H. exact (load_err _ _ _ _ H).
  - unfold py_insert_bytes in H. destruct (bf_insert_bytes pr wy f d) as [f' r'] eqn:J. injection H as _ Hr. destruct (nth_Forall2 _ _ _ _ _ [] A1 E) as (K0 & Hh & _).
    pose proof (ib_cases _ _ _ _ _ _ (bf_insert_sem _ _ _ _ _ _ (bf_hist_wf _ _ _ _ Hh) K J)) as Cs. destruct r' as [b|e'|]; cbn [raised] in Hr; [discriminate| |discriminate]. injection Hr as ->. exact (proj1 Cs).
  - injection H as _ H. unfold py_contains_bytes in H. destruct (bf_contains_bytes wy f d) as [b|e'|] eqn:Q; [discriminate| |discriminate]. now apply contains_no_err in Q.
  - destruct (nth_error (pw_objs s) o) as [f2|] eqn:E2; [|discriminate]. destruct (Nat.eqb h o); [discriminate|]. destruct (bf_union_merge pr L f f2) as [f' r'] eqn:J. injection H as _ Hr.
    destruct (nth_Forall2 _ _ _ _ _ [] A1 E) as (K0 & Hh & _). destruct (nth_Forall2 _ _ _ _ _ [] A1 E2) as (K2 & Hh2 & _).
    pose proof (bf_union_sem _ _ _ _ _ _ (bf_hist_wf _ _ _ _ Hh) (bf_hist_wf _ _ _ _ Hh2) J) as Cs. destruct r' as [b|e'|]; cbn [raised] in Hr; [discriminate| |discriminate]. injection Hr as ->. exact (proj1 Cs).
  - destruct (nth_error (pw_objs s) o) as [f2|] eqn:E2; [|discriminate]. injection H as _ Hr. destruct (bf_count_common_entries pr L f f2) as [n|e'|] eqn:J; cbn [raised] in Hr; [discriminate| |discriminate]. injection Hr as ->.
    destruct (nth_Forall2 _ _ _ _ _ [] A1 E) as (K0 & Hh & _). destruct (nth_Forall2 _ _ _ _ _ [] A1 E2) as (K2 & Hh2 & _). pose proof (bf_hist_wf _ _ _ _ Hh) as Wa. pose proof (bf_hist_wf _ _ _ _ Hh2) as Wb.
    unfold bf_count_common_entries in J. destruct (bf_has_same_params f f2) as [q|q|] eqn:Q; cbn [obind] in J; [|unfold bf_has_same_params in Q; destruct (negb _); [discriminate|]; destruct f, f2; discriminate|discriminate].
    destruct q; cbn [negb] in J; [|congruence]. unfold bf_has_same_params in Q. destruct (negb _); [discriminate|]. destruct f as [a|a], f2 as [b|b]; try discriminate; injection Q as Q.
    + rewrite P_V1More.v1_common_eq, Q in J. discriminate.
    + rewrite (P_V2More.common_eq pr L a b Wa Wb), Q, P_V2Merge.checked_sum_spec in J. destruct (_ <? _); [discriminate|]. destruct pr; discriminate.
  - unfold py_save in H. rewrite save_ok in H by lia. discriminate.
Qed.
Print Assumptions C114_blames.

(** ** Telling errors apart by their text *)
(** Errors whose text is the library's own. *)
Definition own (e : error) : Prop := match e with IoError | NotPoppy => False | _ => True end.
(** However floats are printed, two errors of the library with one text are of one kind, name one version or level, print their
    rates alike and give one reason. *)
Theorem C114_tell df io io' why why' e e' : own e -> own e' -> err_text df io why e = err_text df io' why' e' ->
  (e = e' \/ exists x x', e = WrongFpp x /\ e' = WrongFpp x' /\ df x = df x') /\ (e = Merge -> why = why').
Proof.
  destruct e as [x| |v| |v| | |], e' as [x'| |v'| |v'| | |]; cbn [own]; intros O O'; try contradiction; cbn -[dec]; intro H; try discriminate H.
  - injection H as H. split; [right; eauto|discriminate].
  - injection H as H. split; [left; f_equal; now apply dec_inj|discriminate].
  - injection H as H. now split; [left|].
  - injection H as H. split; [left; f_equal; now apply dec_inj|discriminate].
  - split; [now left|discriminate].
  - split; [now left|discriminate].
Qed.
Print Assumptions C114_tell.
(** So a program that reads the text "too many entries, ..." off an exception, and no file gave an operating system error of that text,
    was inserting into a filter with no room, and the text "union error: cannot merge ..." comes from a union only. A version or level
    in a text is the one that was given. *)
Theorem C114_read pr L wy w l s c s' r df io t : files_ok w -> Forall (fun e => call_ok (fst e)) l -> py_run pr L wy {| pw_objs := []; pw_files := w |} l s ->
  call_ok c -> py_do pr L wy s c = (s', r) -> py_text df io c r = Some t -> t <> io ->
  (t = bytes_of "too many entries, false positive rate cannot be met" -> exists h d, c = PInsert h d) /\
  (t = bytes_of "union error: cannot merge filters with different parameters" -> exists h o, c = PUnion h o) /\
  (t = bytes_of "union error: cannot compare filters with different parameters" -> exists h o, c = PCommon h o) /\
  (forall v, t = bytes_of "invalid version " ++ dec v -> v <> 1 /\ v <> 2 /\ (forall v' cap x, c = PWithVersion v' cap x -> v' = v) /\ (forall v' cap x o, c = PWithParams v' cap x o -> v' = v)) /\
  (forall o, t = bytes_of "invalid opt-level=" ++ dec o -> 4 <= o /\ (forall v cap x o', c = PWithParams v cap x o' -> o' = o)).
Proof.
  intros W F R K H T Nio. destruct r as [| | | | | |[e| | | |]]; try discriminate. cbn [py_text] in T. injection T as <-. pose proof (C114_blames _ _ _ _ _ _ _ _ _ W F R K H) as B. clear W F R K H.
  assert (O : own e) by (destruct e; try exact I; [now apply Nio|]; destruct c; cbn [blames] in B; try contradiction B; unfold bad_file in B; decompose [and or ex] B; discriminate).
  assert (Mg : e = Merge -> (exists h o, c = PUnion h o) \/ (exists h o, c = PCommon h o)).
  { intros ->. destruct c; cbn [blames] in B; try contradiction B; eauto; exfalso; unfold bad_file in B; decompose [and or ex] B; discriminate. }
  assert (X : forall why' e', own e' -> err_text df io (why_of c) e = err_text df io why' e' -> (forall x, e' <> WrongFpp x) -> e = e' /\ (e = Merge -> why_of c = why')).
  { intros why' e' O' Q Nw. destruct (C114_tell _ _ _ _ _ _ _ O O' Q) as [[Z|(x & x' & _ & Z & _)] Y]; [auto|now destruct (Nw x')]. }
  split; [|split; [|split; [|split]]].
  - intro Q. destruct (X [] TooManyEntries I Q ltac:(discriminate)) as [-> _]. destruct c; cbn [blames] in B; try contradiction B; eauto; exfalso; unfold bad_file in B; decompose [and or ex] B; discriminate.
  - intro Q. destruct (X why_union Merge I Q ltac:(discriminate)) as [Z Y]. specialize (Y Z). destruct (Mg Z) as [M|(h & o & ->)]; [exact M|discriminate].
  - intro Q. destruct (X why_common Merge I Q ltac:(discriminate)) as [Z Y]. specialize (Y Z). destruct (Mg Z) as [(h & o & ->)|M]; [discriminate|exact M].
  - intros v Q. destruct (X [] (InvalidVersion v) I Q ltac:(discriminate)) as [-> _]. destruct c; cbn [blames] in B; try contradiction B; unfold bad_file in B; decompose [and or ex] B; try discriminate;
      match goal with Z : InvalidVersion _ = InvalidVersion _ |- _ => injection Z as Z; subst end; (split; [assumption|]); (split; [assumption|]); split; congruence.
  - intros o Q. destruct (X [] (OptLevelError o) I Q ltac:(discriminate)) as [-> _]. destruct c; cbn [blames] in B; try contradiction B; unfold bad_file in B; decompose [and or ex] B; try discriminate;
      match goal with Z : OptLevelError _ = OptLevelError _ |- _ => injection Z as Z; subst end; (split; [assumption|]); congruence.
Qed.
Print Assumptions C114_read.

(** ** What the texts get wrong *)
(** "union error" is also said where nothing is united: counting what two filters have in common. *)
Theorem C114_union_refuted : exists pr L w l s h o, files_ok w /\ Forall (fun e => call_ok (fst e)) l /\ forall wy df io,
  py_run pr L wy {| pw_objs := []; pw_files := w |} l s /\
  py_text df io (PCommon h o) (snd (py_do pr L wy s (PCommon h o))) = Some (bytes_of "union error: cannot compare filters with different parameters").
Proof.
  exists Release, ref_libm, (fun _ => None), [(PWithVersion 1 4 p001, PyObj 0); (PWithVersion 1 5 p001, PyObj 1)]. eexists. exists 0%nat, 1%nat. split; [discriminate|].
  split; [repeat (apply Forall_cons; [cbn [fst call_ok]; try exact I; split; reflexivity|]); apply Forall_nil|]. intros wy df io.
  split; [do 2 (eapply run_call; [vm_compute; reflexivity|]); apply run_nil|]. vm_compute. reflexivity.
Qed.
Print Assumptions C114_union_refuted.
(** "fpp value must be in ]0;1]" is said of a value that is. *)
Theorem C114_fpp_refuted : exists x, x < two64 /\ fpp_documented x = true /\ forall pr L wy s cap df io,
  py_text df io (PNew cap x) (snd (py_do pr L wy s (PNew cap x))) = Some (bytes_of "fpp value must be in ]0;1] fpp=" ++ df x).
Proof. exists 1. split; [reflexivity|]. split; [reflexivity|]. intros. reflexivity. Qed.
Print Assumptions C114_fpp_refuted.
(** A program that gets five of the texts: a bad rate, a bad version, a bad level, a full filter and filters of two capacities. *)
Definition ex_bad : list (py_call * py_result) :=
  [(PWithVersion 1 1 p001, PyObj 0); (PInsert 0 da, PyBool true); (PWithVersion 1 4 p001, PyObj 1)].
Example C114_example wy df io : exists s, py_run Release ref_libm wy {| pw_objs := []; pw_files := fun _ => None |} ex_bad s /\ Forall (fun e => call_ok (fst e)) ex_bad /\
  map (fun c => py_text df io c (snd (py_do Release ref_libm wy s c))) [PNew 4 0; PWithVersion 3 4 p001; PWithParams 2 4 p001 12; PInsert 0 db; PUnion 0 1; PLoads [1]; PContains 0 da] =
  [Some (bytes_of "fpp value must be in ]0;1] fpp=" ++ df 0); Some (bytes_of "invalid version 3"); Some (bytes_of "invalid opt-level=12"); Some (bytes_of "too many entries, false positive rate cannot be met");
   Some (bytes_of "union error: cannot merge filters with different parameters"); Some io; None].
Proof.
  eexists. split; [unfold ex_bad; do 3 (eapply run_call; [vm_compute; reflexivity|]); apply run_nil|].
  split; [repeat (apply Forall_cons; [cbn [fst call_ok]; try exact I; try (split; reflexivity); try (repeat constructor; reflexivity)|]); apply Forall_nil|]. vm_compute. reflexivity.
Qed.
