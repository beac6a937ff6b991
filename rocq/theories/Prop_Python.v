(** C99: Python programs. *)
From Coq Require Import Lia.
From Verif Require Import M_Python M_RefLibm Spec_Bits Spec_Hash Spec_V2 Spec_V2Hist Spec_V1 Spec_Bloom P_Base P_Codec P_Bloom P_Create Ex_Base Ex_V1 Prop_Bloom Prop_Create Prop_Build.
Open Scope N_scope.

(** What a program has put where, from its calls and their results only: entries of the objects, of the files it saved and of the
    dumps it took. *)
Record ledger := { lg_objs : list (list (list byte)); lg_files : path -> list (list byte); lg_dumps : list (list byte * list (list byte)) }.
Definition entries_of (g : ledger) (h : nat) : list (list byte) := nth h (lg_objs g) [].
Definition dump_entries (g : ledger) (b : list byte) : list (list byte) :=
  match find (fun x => list_eqb (fst x) b) (lg_dumps g) with Some x => snd x | None => [] end.
Definition add_obj (g : ledger) (l : list (list byte)) : ledger := {| lg_objs := lg_objs g ++ [l]; lg_files := lg_files g; lg_dumps := lg_dumps g |}.
Definition put (g : ledger) (h : nat) (l : list (list byte)) : ledger := {| lg_objs := set_at (lg_objs g) h (l ++ entries_of g h); lg_files := lg_files g; lg_dumps := lg_dumps g |}.
Definition note (g : ledger) (e : py_call * py_result) : ledger :=
  match e with
  | (PNew _ _, PyObj _) | (PWithVersion _ _ _, PyObj _) | (PWithParams _ _ _ _, PyObj _) => add_obj g []
  | (PLoads b, PyObj _) => add_obj g (dump_entries g b)
  | (PLoad p, PyObj _) => add_obj g (lg_files g p)
  | (PInsert h d, PyBool _) => put g h [d]
  | (PUnion h o, PyNone) => put g h (entries_of g o)
  | (PDumps h, PyBytes b) => {| lg_objs := lg_objs g; lg_files := lg_files g; lg_dumps := (b, entries_of g h) :: lg_dumps g |}
  | (PSave h p, PyNone) => {| lg_objs := lg_objs g; lg_files := fun q => if list_eqb p q then entries_of g h else lg_files g q; lg_dumps := lg_dumps g |}
  | _ => g
  end.
Definition blank : ledger := {| lg_objs := []; lg_files := fun _ => []; lg_dumps := [] |}.
(** Arguments as Python passes them: 64-bit integers and floats, byte strings; what is loaded fits into memory. *)
Definition call_ok (c : py_call) : Prop :=
  match c with
  | PNew cap fpp | PWithVersion _ cap fpp | PWithParams _ cap fpp _ => cap < two64 /\ fpp < two64
  | PLoads b => bytes_ok b /\ file_size_ok b
  | PInsert _ d | PContains _ d => bytes_ok d
  | _ => True
  end.
Definition files_ok (w : fs) : Prop := forall p c, w p = Some c -> bytes_ok c /\ file_size_ok c.

(** The invariant. *)
Definition holds_all (wy : hasher) (L : libm) (f : bloom) (l : list (list byte)) : Prop := exists K, bf_hist wy L f K /\ forall d, In d l -> K d.
Record agree (wy : hasher) (L : libm) (s : py_world) (g : ledger) : Prop := {
  ag_objs : Forall2 (holds_all wy L) (pw_objs s) (lg_objs g);
  ag_files : forall p c, pw_files s p = Some c -> (lg_files g p = [] /\ bytes_ok c /\ file_size_ok c) \/ exists f, c = bf_write f /\ holds_all wy L f (lg_files g p);
  ag_none : forall p, pw_files s p = None -> lg_files g p = [];
  ag_dumps : Forall (fun x => exists f, fst x = bf_write f /\ holds_all wy L f (snd x)) (lg_dumps g)
}.
Lemma set_at_Forall2 {A B} (P : A -> B -> Prop) l m h x y : Forall2 P l m -> P x y -> Forall2 P (set_at l h x) (set_at m h y).
Proof. intros F Q. revert h. induction F as [|a b l m H F IH]; intros [|h]; cbn; constructor; auto. Qed.
Lemma nth_Forall2 {A B} (P : A -> B -> Prop) l m h x d : Forall2 P l m -> nth_error l h = Some x -> P x (nth h m d).
Proof. intros F. revert h. induction F as [|a b l m H F IH]; intros [|h] E; cbn in *; try discriminate; [injection E as <-; exact H|now apply IH]. Qed.
Lemma set_at_same {A} (l : list A) h x : nth_error l h = Some x -> set_at l h x = l.
Proof. revert h. induction l as [|y l IH]; intros [|h] E; cbn in *; try discriminate; [now injection E as ->|f_equal; auto]. Qed.
Lemma set_at_nth {A} (l : list A) h k x : nth_error (set_at l h x) k = if Nat.eqb h k then match nth_error l k with Some _ => Some x | None => None end else nth_error l k.
Proof. revert h k. induction l as [|y l IH]; intros [|h] [|k]; cbn; auto. destruct (Nat.eqb h k); reflexivity. Qed.
Lemma nth_set_default {A} (l : list A) h d : set_at l h (nth h l d) = l.
Proof. revert h. induction l as [|y l IH]; intros [|h]; cbn; auto. now rewrite IH. Qed.
Lemma list_eqb_eq a : forall b, list_eqb a b = true <-> a = b.
Proof.
  induction a as [|x a IH]; intros [|y b]; cbn; split; intro H; try discriminate; auto.
  - apply Bool.andb_true_iff in H as [H1 H2]. apply N.eqb_eq in H1. apply IH in H2. congruence.
  - injection H as -> ->. rewrite N.eqb_refl. now apply IH.
Qed.
Lemma agree_add wy L s g f l : agree wy L s g -> holds_all wy L f l -> agree wy L {| pw_objs := pw_objs s ++ [f]; pw_files := pw_files s |} (add_obj g l).
Proof. intros [A1 A2 A3 A4] H. constructor; cbn; auto. apply Forall2_app; auto. Qed.
Lemma made wy L f : bf_hist wy L f (fun _ => False) -> holds_all wy L f [].
Proof. intro H. exists (fun _ => False). split; [exact H|]. intros d []. Qed.
Lemma step_agree pr L wy s g c s' r : agree wy L s g -> call_ok c -> py_do pr L wy s c = (s', r) -> agree wy L s' (note g (c, r)).
Proof.
  intros A K H. pose proof A as [A1 A2 A3 A4].
  assert (MK : forall o l, note g (c, PyObj (length (pw_objs s))) = add_obj g l -> (forall e, note g (c, PyRaise e) = g) -> py_make s o = (s', r) -> (forall f, o = Ok f -> holds_all wy L f l) -> agree wy L s' (note g (c, r))).
  { intros o l N1 N2 E Ho. unfold py_make in E. destruct o as [f|e|]; injection E as <- <-; [rewrite N1; apply agree_add; auto|rewrite N2; exact A..]. }
  destruct c as [cap fpp|v cap fpp|v cap fpp opt|b|p|h d|h d|h|h o|h o|h|h p|h|h|h|h|h]; cbn [py_do] in H; cbn [call_ok] in K.
  - apply (MK _ [] eq_refl (fun _ => eq_refl) H). intros f E. apply made. destruct K as [K1 K2]. unfold py_new, bf_with_capacity in E.
    destruct (v2_with_capacity pr L cap fpp) as [b|e|] eqn:Q; try discriminate. injection E as <-. apply (bh_make wy L pr 2 cap fpp ONone); auto. unfold bf_with_version_capacity_opt. cbn. unfold v2_with_capacity in Q. now rewrite Q.
  - apply (MK _ [] eq_refl (fun _ => eq_refl) H). intros f E. apply made. destruct K as [K1 K2]. exact (bh_make wy L pr v cap fpp ONone f K1 K2 E).
  - apply (MK _ [] eq_refl (fun _ => eq_refl) H). intros f E. apply made. destruct K as [K1 K2]. unfold py_with_params in E. destruct (opt_of_u8 opt) as [o|e|]; try discriminate. exact (bh_make wy L pr v cap fpp o f K1 K2 E).
  - apply (MK _ (dump_entries g b) eq_refl (fun _ => eq_refl) H). intros f E. unfold dump_entries. destruct (find _ (lg_dumps g)) as [[b' l]|] eqn:F.
    + apply find_some in F as [Fi Fe]. apply list_eqb_eq in Fe. cbn [fst snd] in *. subst b'. rewrite Forall_forall in A4. destruct (A4 _ Fi) as (f0 & Eb & K0 & Hh & Hl). cbn [fst snd] in *. subst b. exists K0. split; [exact (bh_reload wy L pr f0 K0 f Hh E)|exact Hl].
    + apply made. destruct K as [K1 K2]. exact (bh_load wy L pr b f K1 K2 E).
  - unfold fs_open in H. destruct (pw_files s p) as [c|] eqn:P; [|injection H as <- <-; exact A].
    apply (MK _ (lg_files g p) eq_refl (fun _ => eq_refl) H). intros f E. destruct (A2 p c P) as [(-> & B1 & B2)|(f0 & -> & K0 & Hh & Hl)]; [apply made; exact (bh_load wy L pr c f B1 B2 E)|]. exists K0. split; [exact (bh_reload wy L pr f0 K0 f Hh E)|exact Hl].
  - unfold on in H. destruct (nth_error (pw_objs s) h) as [f|] eqn:E; [|injection H as <- <-; exact A]. unfold py_insert_bytes in H. destruct (bf_insert_bytes pr wy f d) as [f' r'] eqn:I. injection H as <- <-.
    destruct (nth_Forall2 _ _ _ _ _ [] A1 E) as (K0 & Hh & Hl). destruct r' as [b|e|]; cbn [raised note].
    + constructor; cbn; auto. apply set_at_Forall2; [exact A1|]. exists (fun x => x = d \/ K0 x). split; [exact (bh_insert wy L pr f K0 d f' b Hh K I)|]. intros x [<-|Hx]; [now left|right; exact (Hl x Hx)].
    + constructor; cbn; auto. rewrite <- (nth_set_default (lg_objs g) h []). apply set_at_Forall2; [exact A1|]. exists K0. split; [apply (bh_insert_fail wy L pr f K0 d f' (Err e) Hh K I); discriminate|exact Hl].
    + constructor; cbn; auto. rewrite <- (nth_set_default (lg_objs g) h []). apply set_at_Forall2; [exact A1|]. exists K0. split; [apply (bh_insert_fail wy L pr f K0 d f' Panic Hh K I); discriminate|exact Hl].
  - unfold on in H. destruct (nth_error (pw_objs s) h) as [f|]; injection H as <- <-; [|exact A]. destruct (py_contains_bytes wy f d); exact A.
  - unfold on in H. destruct (nth_error (pw_objs s) h) as [f|]; injection H as <- <-; exact A.
  - unfold on in H. destruct (nth_error (pw_objs s) h) as [f|] eqn:E; [|injection H as <- <-; exact A]. destruct (nth_error (pw_objs s) o) as [f2|] eqn:E2; [|injection H as <- <-; exact A]. destruct (Nat.eqb h o); [injection H as <- <-; exact A|].
    destruct (bf_union_merge pr L f f2) as [f' r'] eqn:U. injection H as <- <-. destruct (nth_Forall2 _ _ _ _ _ [] A1 E) as (K0 & Hh & Hl). destruct (nth_Forall2 _ _ _ _ _ [] A1 E2) as (K2 & Hh2 & Hl2). destruct r' as [[]|e|]; cbn [raised note].
    + constructor; cbn; auto. apply set_at_Forall2; [exact A1|]. exists (fun x => K0 x \/ K2 x). split; [exact (bh_union wy L pr f f2 K0 K2 f' Hh Hh2 U)|]. intros x Hx. apply in_app_or in Hx as [Hx|Hx]; [right; exact (Hl2 x Hx)|left; exact (Hl x Hx)].
    + constructor; cbn; auto. rewrite <- (nth_set_default (lg_objs g) h []). apply set_at_Forall2; [exact A1|]. exists K0. split; [apply (bh_union_fail wy L pr f f2 K0 K2 f' (Err e) Hh Hh2 U); discriminate|exact Hl].
    + constructor; cbn; auto. rewrite <- (nth_set_default (lg_objs g) h []). apply set_at_Forall2; [exact A1|]. exists K0. split; [apply (bh_union_fail wy L pr f f2 K0 K2 f' Panic Hh Hh2 U); discriminate|exact Hl].
  - unfold on in H. destruct (nth_error (pw_objs s) h) as [f|]; [|injection H as <- <-; exact A]. destruct (nth_error (pw_objs s) o) as [f2|]; injection H as <- <-; [|exact A]. destruct (bf_count_common_entries pr L f f2); exact A.
  - unfold on in H. destruct (nth_error (pw_objs s) h) as [f|] eqn:E; injection H as <- <-; [|exact A]. cbn [note]. constructor; cbn; auto. constructor; [|exact A4]. exists f. split; [reflexivity|]. exact (nth_Forall2 _ _ _ _ _ [] A1 E).
  - unfold on in H. destruct (nth_error (pw_objs s) h) as [f|] eqn:E; [|injection H as <- <-; exact A]. unfold py_save in H. rewrite save_ok in H by lia. injection H as <- <-. cbn [raised note]. constructor; cbn; auto.
    + intros q c Hq. unfold fs_set in Hq. destruct (list_eqb p q); [injection Hq as <-; right; exists f; split; [reflexivity|exact (nth_Forall2 _ _ _ _ _ [] A1 E)]|exact (A2 q c Hq)].
    + intros q Hq. unfold fs_set in Hq. destruct (list_eqb p q); [discriminate|exact (A3 q Hq)].
  - unfold on in H. destruct (nth_error (pw_objs s) h) as [f|]; injection H as <- <-; exact A.
  - unfold on in H. destruct (nth_error (pw_objs s) h) as [f|]; injection H as <- <-; exact A.
  - unfold on in H. destruct (nth_error (pw_objs s) h) as [f|]; injection H as <- <-; exact A.
  - unfold on in H. destruct (nth_error (pw_objs s) h) as [f|]; injection H as <- <-; exact A.
  - unfold on in H. destruct (nth_error (pw_objs s) h) as [f|]; injection H as <- <-; exact A.
Qed.
Lemma run_agree pr L wy s l s' : py_run pr L wy s l s' -> forall g, agree wy L s g -> Forall (fun e => call_ok (fst e)) l -> agree wy L s' (fold_left note l g).
Proof.
  induction 1 as [s|s c s1 r l s2 D R IH]; intros g A F; [exact A|]. inversion F; subst. cbn [fold_left]. apply IH; [|assumption]. exact (step_agree _ _ _ _ _ _ _ _ A H1 D).
Qed.
Lemma agree_start wy L w : files_ok w -> agree wy L {| pw_objs := []; pw_files := w |} blank.
Proof. intro H. constructor; cbn; auto. intros p c E. left. split; [reflexivity|exact (H p c E)]. Qed.

(** ** Nothing is lost *)
(** Full statement: after any program every entry its calls have put into an object is found. Missing: version 1 filters without
    bits (C02_refuted). *)
Theorem C99_found_partial pr L wy w l s h f d : files_ok w -> Forall (fun e => call_ok (fst e)) l -> py_run pr L wy {| pw_objs := []; pw_files := w |} l s ->
  nth_error (pw_objs s) h = Some f -> bf_has_bits f -> In d (entries_of (fold_left note l blank) h) -> py_do pr L wy s (PContains h d) = (s, PyBool true).
Proof.
  intros W F R E B Hd. pose proof (run_agree _ _ _ _ _ _ R _ (agree_start wy L w W) F) as [A1 _ _ _]. destruct (nth_Forall2 _ _ _ _ _ [] A1 E) as (K & Hh & Hl). cbn [py_do]. unfold on. rewrite E. unfold py_contains_bytes. rewrite (bf_hist_contains wy L f K d Hh (Hl d Hd) B). reflexivity.
Qed.
Print Assumptions C99_found_partial.
(** ** Calls touch only their object or file *)
Definition receiver (c : py_call) : option nat := match c with PInsert h _ | PUnion h _ => Some h | _ => None end.
Definition target (c : py_call) : option path := match c with PSave _ p => Some p | _ => None end.
Lemma make_local s o s' r h : py_make s o = (s', r) -> (h < length (pw_objs s))%nat -> nth_error (pw_objs s') h = nth_error (pw_objs s) h /\ pw_files s' = pw_files s.
Proof. unfold py_make. intros E Hh. destruct o as [f|e|]; injection E as <- <-; cbn [pw_objs pw_files]; split; auto. now apply nth_error_app1. Qed.
Theorem C99_local pr L wy s c s' r : py_do pr L wy s c = (s', r) ->
  (forall h, (h < length (pw_objs s))%nat -> receiver c <> Some h -> nth_error (pw_objs s') h = nth_error (pw_objs s) h) /\
  (forall h, (h < length (pw_objs s))%nat -> nth_error (pw_objs s') h <> None) /\
  (forall p, target c <> Some p -> pw_files s' p = pw_files s p).
Proof.
  intro H.
  assert (MK : forall o, py_make s o = (s', r) -> (forall h, (h < length (pw_objs s))%nat -> nth_error (pw_objs s') h = nth_error (pw_objs s) h) /\ (forall p, pw_files s' p = pw_files s p)).
  { intros o E. split; [intros h Hh; exact (proj1 (make_local _ _ _ _ h E Hh))|]. intro p. unfold py_make in E. destruct o; now injection E as <- <-. }
  assert (G : forall (X : (forall h, (h < length (pw_objs s))%nat -> nth_error (pw_objs s') h = nth_error (pw_objs s) h) /\ (forall p, pw_files s' p = pw_files s p)),
    (forall h, (h < length (pw_objs s))%nat -> receiver c <> Some h -> nth_error (pw_objs s') h = nth_error (pw_objs s) h) /\
    (forall h, (h < length (pw_objs s))%nat -> nth_error (pw_objs s') h <> None) /\ (forall p, target c <> Some p -> pw_files s' p = pw_files s p)).
  { intros [X Y]. split; [intros h Hh _; exact (X h Hh)|]. split; [|intros p _; exact (Y p)]. intros h Hh. rewrite (X h Hh). now apply nth_error_Some. }
  assert (Q : forall h f' f, nth_error (pw_objs s) h = Some f -> s' = with_obj s h f' -> receiver c = Some h ->
    (forall h, (h < length (pw_objs s))%nat -> receiver c <> Some h -> nth_error (pw_objs s') h = nth_error (pw_objs s) h) /\
    (forall h, (h < length (pw_objs s))%nat -> nth_error (pw_objs s') h <> None) /\ (forall p, target c <> Some p -> pw_files s' p = pw_files s p)).
  { intros h f' f E -> Rc. split; [|split; [|reflexivity]]; intros k Hk.
    - intro Nk. cbn [with_obj pw_objs]. rewrite set_at_nth. destruct (Nat.eqb_spec h k) as [->|]; [congruence|reflexivity].
    - cbn [with_obj pw_objs]. rewrite set_at_nth. apply nth_error_Some in Hk. destruct (nth_error (pw_objs s) k); [|contradiction]. destruct (Nat.eqb h k); discriminate. }
  assert (I : (s', r) = (s', r) -> s' = s -> (forall h, (h < length (pw_objs s))%nat -> nth_error (pw_objs s') h = nth_error (pw_objs s) h) /\ (forall p, pw_files s' p = pw_files s p)) by (intros _ ->; split; reflexivity).
  destruct c as [cap fpp|v cap fpp|v cap fpp opt|b|p|h d|h d|h|h o|h o|h|h p|h|h|h|h|h]; cbn [py_do] in H; try (apply G; exact (MK _ H)); unfold on in H; try (destruct (nth_error (pw_objs s) h) as [f|] eqn:E; [|injection H as <- <-; apply G; split; reflexivity]);
    try (injection H as <- <-; apply G; split; reflexivity).
  - destruct (fs_open (pw_files s) p) as [c|e|]; [apply G; exact (MK _ H)|injection H as <- <-; apply G; split; reflexivity..].
  - destruct (py_insert_bytes pr wy f d) as [f' r'] eqn:J. injection H as <- <-. exact (Q h f' f E eq_refl eq_refl).
  - destruct (nth_error (pw_objs s) o) as [f2|]; [|injection H as <- <-; apply G; split; reflexivity]. destruct (Nat.eqb h o); [injection H as <- <-; apply G; split; reflexivity|].
    destruct (bf_union_merge pr L f f2) as [f' r'] eqn:J. injection H as <- <-. exact (Q h f' f E eq_refl eq_refl).
  - destruct (nth_error (pw_objs s) o) as [f2|]; injection H as <- <-; apply G; split; reflexivity.
  - unfold py_save in H. rewrite save_ok in H by lia. injection H as <- <-. cbn [pw_objs pw_files]. split; [reflexivity|]. split; [intros k Hk; now apply nth_error_Some|]. intros q Nq. cbn [target] in Nq. apply fs_set_other. congruence.
Qed.
Print Assumptions C99_local.

(** ** Exceptions *)
(** A call that raises anything but a panic has changed nothing. *)
Theorem C99_errors pr L wy w l s c s' e : files_ok w -> Forall (fun e => call_ok (fst e)) l -> py_run pr L wy {| pw_objs := []; pw_files := w |} l s ->
  call_ok c -> py_do pr L wy s c = (s', PyRaise e) -> e <> PanicException -> s' = s.
Proof.
  intros W F R K H Ne. pose proof (run_agree _ _ _ _ _ _ R _ (agree_start wy L w W) F) as [A1 _ _ _].
  assert (MK : forall o, py_make s o = (s', PyRaise e) -> s' = s) by (intros o E; unfold py_make in E; destruct o; injection E; congruence).
  assert (Sm : forall h f, nth_error (pw_objs s) h = Some f -> with_obj s h f = s) by (intros h f E; unfold with_obj; rewrite (set_at_same _ _ _ E); now destruct s).
  destruct c as [cap fpp|v cap fpp|v cap fpp opt|b|p|h d|h d|h|h o|h o|h|h p|h|h|h|h|h]; cbn [py_do] in H; try exact (MK _ H); unfold on in H; try (destruct (nth_error (pw_objs s) h) as [f|] eqn:E; [|now injection H]);
    try (injection H; congruence).
  - destruct (fs_open (pw_files s) p) as [c|e'|]; [exact (MK _ H)|now injection H..].
  - unfold py_insert_bytes in H. destruct (bf_insert_bytes pr wy f d) as [f' r'] eqn:J. injection H as <- Hr. destruct (nth_Forall2 _ _ _ _ _ [] A1 E) as (K0 & Hh & _). pose proof (ib_cases _ _ _ _ _ _ (bf_insert_sem _ _ _ _ _ _ (bf_hist_wf _ _ _ _ Hh) K J)) as Cs. destruct r' as [b|e'|]; cbn [raised] in Hr; [discriminate| |injection Hr; congruence]. destruct Cs as (_ & -> & _). exact (Sm h f E).
  - destruct (nth_error (pw_objs s) o) as [f2|] eqn:E2; [|now injection H]. destruct (Nat.eqb h o); [now injection H|]. destruct (bf_union_merge pr L f f2) as [f' r'] eqn:J. injection H as <- Hr. destruct (nth_Forall2 _ _ _ _ _ [] A1 E) as (K0 & Hh & _). destruct (nth_Forall2 _ _ _ _ _ [] A1 E2) as (K2 & Hh2 & _).
    pose proof (bf_union_sem _ _ _ _ _ _ (bf_hist_wf _ _ _ _ Hh) (bf_hist_wf _ _ _ _ Hh2) J) as Cs. destruct r' as [b|e'|]; cbn [raised] in Hr; [discriminate| |injection Hr; congruence]. destruct Cs as (_ & -> & _). exact (Sm h f E).
  - destruct (nth_error (pw_objs s) o) as [f2|] eqn:E2; now injection H.
  - unfold py_save in H. rewrite save_ok in H by lia. now injection H.
Qed.
Print Assumptions C99_errors.
(** An object cannot be merged with itself, though counting what it has in common with itself is possible. *)
Theorem C99_self pr L wy s h f : nth_error (pw_objs s) h = Some f ->
  py_do pr L wy s (PUnion h h) = (s, PyRaise RuntimeError) /\ (forall e s', py_do pr L wy s (PCommon h h) = (s', PyRaise e) -> e <> RuntimeError /\ s' = s).
Proof.
  intro E. cbn [py_do]. unfold on. rewrite E, Nat.eqb_refl. split; [reflexivity|]. intros e s' H. injection H as <- Hr. split; [|reflexivity]. destruct (bf_count_common_entries pr L f f); cbn [raised] in Hr; congruence.
Qed.
Print Assumptions C99_self.

(** ** Positive answers stay *)
Lemma step_mono L wy s g c s' r h f d : agree wy L s g -> call_ok c -> py_do Release L wy s c = (s', r) -> bytes_ok d ->
  nth_error (pw_objs s) h = Some f -> bf_contains_bytes wy f d = Ok true -> exists f', nth_error (pw_objs s') h = Some f' /\ bf_contains_bytes wy f' d = Ok true.
Proof.
  intros A K H Bd E Hc. pose proof (step_agree _ _ _ _ _ _ _ _ A K H) as A'. pose proof (ag_objs _ _ _ _ A) as A1. pose proof (ag_objs _ _ _ _ A') as A1'. destruct (C99_local _ _ _ _ _ _ _ H) as (Lo & _ & _).
  assert (Hl : (h < length (pw_objs s))%nat) by (apply nth_error_Some; congruence).
  destruct (nth_Forall2 _ _ _ _ _ [] A1 E) as (K0 & Hh & _). pose proof (bf_hist_wf _ _ _ _ Hh) as Wf.
  destruct c as [cap fpp|v cap fpp|v cap fpp opt|b|p|h' d'|h' d'|h'|h' o|h' o|h'|h' p|h'|h'|h'|h'|h']; try (exists f; split; [rewrite Lo; [exact E|exact Hl|discriminate]|exact Hc]).
  - destruct (Nat.eq_dec h' h) as [->|Nh]; [|exists f; split; [rewrite Lo; [exact E|exact Hl|cbn; congruence]|exact Hc]]. cbn [py_do] in H. unfold on in H. rewrite E in H. unfold py_insert_bytes in H. destruct (bf_insert_bytes Release wy f d') as [f' r'] eqn:J. injection H as <- <-.
    exists f'. cbn [with_obj pw_objs]. rewrite set_at_nth, Nat.eqb_refl, E. split; [reflexivity|]. destruct (bf_insert_sem _ _ _ _ _ _ Wf K J) as [Fr Wg _ M _]. exact (bf_contains_mono wy f f' d Wf Wg Bd Fr M Hc).
  - destruct (Nat.eq_dec h' h) as [->|Nh]; [|exists f; split; [rewrite Lo; [exact E|exact Hl|cbn; congruence]|exact Hc]]. cbn [py_do] in H. unfold on in H. rewrite E in H. destruct (nth_error (pw_objs s) o) as [f2|] eqn:E2; [|injection H as <- <-; eauto]. destruct (Nat.eqb h o); [injection H as <- <-; eauto|].
    destruct (nth_Forall2 _ _ _ _ _ [] A1 E2) as (K2 & Hh2 & _). destruct (bf_union_merge Release L f f2) as [f' r'] eqn:J. injection H as <- <-. exists f'. cbn [with_obj pw_objs]. rewrite set_at_nth, Nat.eqb_refl, E. split; [reflexivity|].
    pose proof (bf_union_sem _ _ _ _ _ _ Wf (bf_hist_wf _ _ _ _ Hh2) J) as Cs. destruct r' as [u|e|]; [|destruct Cs as (_ & -> & _); exact Hc|destruct Cs as [Cs _]; discriminate]. destruct Cs as (Fr & Wg & _ & _ & Sp). apply (bf_contains_mono wy f f' d Wf Wg Bd Fr); [|exact Hc]. intros x Hx. now rewrite Sp, Hx.
Qed.
Theorem C99_monotone L wy w l1 s1 l2 s2 h d : files_ok w -> Forall (fun e => call_ok (fst e)) (l1 ++ l2) -> bytes_ok d ->
  py_run Release L wy {| pw_objs := []; pw_files := w |} l1 s1 -> py_run Release L wy s1 l2 s2 ->
  py_do Release L wy s1 (PContains h d) = (s1, PyBool true) -> py_do Release L wy s2 (PContains h d) = (s2, PyBool true).
Proof.
  intros W F Bd R1 R2. apply Forall_app in F as [F1 F2]. pose proof (run_agree _ _ _ _ _ _ R1 _ (agree_start wy L w W) F1) as A. clear R1 F1. revert A. generalize (fold_left note l1 blank). induction R2 as [s|s c s1 r l s2 D R IH]; intros g A H; [exact H|]. inversion F2; subst.
  apply (IH H3 (note g (c, r)) (step_agree _ _ _ _ _ _ _ _ A H2 D)). cbn [py_do] in *. unfold on in *. destruct (nth_error (pw_objs s) h) as [f|] eqn:E; [|discriminate]. assert (Hc : bf_contains_bytes wy f d = Ok true) by (unfold py_contains_bytes in H; destruct (bf_contains_bytes wy f d) as [b|e|]; cbn [raised] in H; congruence).
  destruct (step_mono _ _ _ _ _ _ _ _ _ _ A H2 D Bd E Hc) as (f' & -> & E'). unfold py_contains_bytes. now rewrite E'.
Qed.
Print Assumptions C99_monotone.
(** ** What the getters show *)
(** The number returned for a new object is its place, and it has the parameters asked for; an object loaded is what the bytes say. *)
Theorem C99_new pr L wy s c s' n : call_ok c -> py_do pr L wy s c = (s', PyObj n) ->
  n = length (pw_objs s) /\ length (pw_objs s') = S n /\ exists f, nth_error (pw_objs s') n = Some f /\
  match c with
  | PNew cap fpp => py_do pr L wy s' (PVersion n) = (s', PyInt 2) /\ py_do pr L wy s' (PCapacity n) = (s', PyInt cap) /\ py_do pr L wy s' (PCount n) = (s', PyInt 0)
  | PWithVersion v cap fpp | PWithParams v cap fpp _ => py_do pr L wy s' (PVersion n) = (s', PyInt v) /\ py_do pr L wy s' (PCapacity n) = (s', PyInt cap) /\ py_do pr L wy s' (PCount n) = (s', PyInt 0)
  | PLoads b => bf_from_reader pr b = Ok f
  | PLoad p => exists b, pw_files s p = Some b /\ bf_from_reader pr b = Ok f
  | _ => False
  end.
Proof.
  intros K H.
  assert (MK : forall o, py_make s o = (s', PyObj n) -> exists f, o = Ok f /\ n = length (pw_objs s) /\ length (pw_objs s') = S n /\ nth_error (pw_objs s') n = Some f).
  { intros o E. unfold py_make in E. destruct o as [f|e|]; [|discriminate..]. injection E as <- <-. exists f. cbn [pw_objs]. rewrite app_length, nth_error_app2, PeanoNat.Nat.sub_diag by apply le_n. cbn. split; [reflexivity|]. split; [reflexivity|]. split; [apply PeanoNat.Nat.add_1_r|reflexivity]. }
  assert (Mk : forall v cap fpp o f, cap < two64 -> fpp < two64 -> bf_with_version_capacity_opt pr L v cap fpp o = Ok f -> nth_error (pw_objs s') n = Some f ->
    py_do pr L wy s' (PVersion n) = (s', PyInt v) /\ py_do pr L wy s' (PCapacity n) = (s', PyInt cap) /\ py_do pr L wy s' (PCount n) = (s', PyInt 0)).
  { intros v cap fpp o f K1 K2 E N. cbn [py_do]. unfold on. rewrite N. destruct (fresh_facts wy pr L _ _ _ _ f K1 K2 E) as (W & _ & -> & -> & _). split; [|now split]. apply bf_make_inv in E. destruct f as [f|f]; destruct E as [-> _]; reflexivity. }
  destruct c as [cap fpp|v cap fpp|v cap fpp opt|b|p|h d|h d|h|h o|h o|h|h p|h|h|h|h|h]; cbn [call_ok] in K; cbn [py_do] in H.
  - destruct (MK _ H) as (f & E & A & B & C). split; [exact A|]. split; [exact B|]. exists f. split; [exact C|]. destruct K as [K1 K2]. apply (Mk 2 cap fpp ONone f K1 K2); [|exact C]. unfold py_new, bf_with_capacity in E.
    destruct (v2_with_capacity pr L cap fpp) as [b|e|] eqn:Q; try discriminate. injection E as <-. unfold bf_with_version_capacity_opt. cbn. unfold v2_with_capacity in Q. now rewrite Q.
  - destruct (MK _ H) as (f & E & A & B & C). split; [exact A|]. split; [exact B|]. exists f. split; [exact C|]. destruct K as [K1 K2]. exact (Mk v cap fpp ONone f K1 K2 E C).
  - destruct (MK _ H) as (f & E & A & B & C). split; [exact A|]. split; [exact B|]. exists f. split; [exact C|]. destruct K as [K1 K2]. unfold py_with_params in E. destruct (opt_of_u8 opt) as [o|e|]; try discriminate. exact (Mk v cap fpp o f K1 K2 E C).
  - destruct (MK _ H) as (f & E & A & B & C). split; [exact A|]. split; [exact B|]. exists f. split; [exact C|exact E].
  - unfold fs_open in H. destruct (pw_files s p) as [b|]; [|discriminate]. destruct (MK _ H) as (f & E & A & B & C). split; [exact A|]. split; [exact B|]. exists f. split; [exact C|]. exists b. now split.
  - unfold on in H. destruct (nth_error (pw_objs s) h) as [f|]; [|discriminate]. destruct (py_insert_bytes pr wy f d) as [f' [b|e|]]; discriminate.
  - unfold on in H. destruct (nth_error (pw_objs s) h) as [f|]; [|discriminate]. destruct (py_contains_bytes wy f d); discriminate.
  - unfold on in H. destruct (nth_error (pw_objs s) h) as [f|]; discriminate.
  - unfold on in H. destruct (nth_error (pw_objs s) h) as [f|]; [|discriminate]. destruct (nth_error (pw_objs s) o) as [f2|]; [|discriminate]. destruct (Nat.eqb h o); [discriminate|]. destruct (bf_union_merge pr L f f2) as [f' [b|e|]]; discriminate.
  - unfold on in H. destruct (nth_error (pw_objs s) h) as [f|]; [|discriminate]. destruct (nth_error (pw_objs s) o) as [f2|]; [|discriminate]. destruct (bf_count_common_entries pr L f f2) as [b|e|]; discriminate.
  - unfold on in H. destruct (nth_error (pw_objs s) h) as [f|]; discriminate.
  - unfold on in H. destruct (nth_error (pw_objs s) h) as [f|]; [|discriminate]. unfold py_save in H. rewrite save_ok in H by lia. discriminate.
  - unfold on in H. destruct (nth_error (pw_objs s) h) as [f|]; discriminate.
  - unfold on in H. destruct (nth_error (pw_objs s) h) as [f|]; discriminate.
  - unfold on in H. destruct (nth_error (pw_objs s) h) as [f|]; discriminate.
  - unfold on in H. destruct (nth_error (pw_objs s) h) as [f|]; discriminate.
  - unfold on in H. destruct (nth_error (pw_objs s) h) as [f|]; discriminate.
Qed.
Print Assumptions C99_new.
(** What an object was made with it keeps: version, capacity, probability and data (in a debug build a union may panic half way, but
    these stay as well). *)
Lemma step_frame L wy s g c s' r h f : agree wy L s g -> call_ok c -> py_do Release L wy s c = (s', r) -> nth_error (pw_objs s) h = Some f -> exists f', nth_error (pw_objs s') h = Some f' /\ bf_same_frame f f' /\ bf_data f' = bf_data f.
Proof.
  intros A K H E. pose proof (ag_objs _ _ _ _ A) as A1. destruct (C99_local _ _ _ _ _ _ _ H) as (Lo & _ & _). assert (Hl : (h < length (pw_objs s))%nat) by (apply nth_error_Some; congruence).
  destruct (nth_Forall2 _ _ _ _ _ [] A1 E) as (K0 & Hh & _). pose proof (bf_hist_wf _ _ _ _ Hh) as Wf. assert (Rf := bf_frame_refl f).
  destruct c as [cap fpp|v cap fpp|v cap fpp opt|b|p|h' d'|h' d'|h'|h' o|h' o|h'|h' p|h'|h'|h'|h'|h']; try (exists f; split; [rewrite Lo; [exact E|exact Hl|discriminate]|now split]).
  - destruct (Nat.eq_dec h' h) as [->|Nh]; [|exists f; split; [rewrite Lo; [exact E|exact Hl|cbn; congruence]|now split]]. cbn [py_do] in H. unfold on in H. rewrite E in H. unfold py_insert_bytes in H. destruct (bf_insert_bytes Release wy f d') as [f' r'] eqn:J. injection H as <- <-.
    exists f'. cbn [with_obj pw_objs]. rewrite set_at_nth, Nat.eqb_refl, E. split; [reflexivity|]. destruct (bf_insert_sem _ _ _ _ _ _ Wf K J) as [Fr Wg D M _]. now split.
  - destruct (Nat.eq_dec h' h) as [->|Nh]; [|exists f; split; [rewrite Lo; [exact E|exact Hl|cbn; congruence]|now split]]. cbn [py_do] in H. unfold on in H. rewrite E in H. destruct (nth_error (pw_objs s) o) as [f2|] eqn:E2; [|injection H as <- <-; eauto]. destruct (Nat.eqb h o); [injection H as <- <-; eauto|].
    destruct (nth_Forall2 _ _ _ _ _ [] A1 E2) as (K2 & Hh2 & _). destruct (bf_union_merge Release L f f2) as [f' r'] eqn:J. injection H as <- <-. exists f'. cbn [with_obj pw_objs]. rewrite set_at_nth, Nat.eqb_refl, E. split; [reflexivity|].
    pose proof (bf_union_sem _ _ _ _ _ _ Wf (bf_hist_wf _ _ _ _ Hh2) J) as Cs. destruct r' as [u|e|]; [|destruct Cs as (_ & -> & _); now split|destruct Cs as [Cs _]; discriminate]. destruct Cs as (Fr & Wg & D & _). now split.
Qed.
Theorem C99_parameters L wy w l1 s1 l2 s2 h c : files_ok w -> Forall (fun e => call_ok (fst e)) (l1 ++ l2) -> py_run Release L wy {| pw_objs := []; pw_files := w |} l1 s1 -> py_run Release L wy s1 l2 s2 ->
  (h < length (pw_objs s1))%nat -> In c [PVersion h; PCapacity h; PFpp h; PData h] -> snd (py_do Release L wy s2 c) = snd (py_do Release L wy s1 c).
Proof.
  intros W F R1 R2 Hh Hc. apply Forall_app in F as [F1 F2]. pose proof (run_agree _ _ _ _ _ _ R1 _ (agree_start wy L w W) F1) as A. clear R1 F1. destruct (nth_error (pw_objs s1) h) as [f|] eqn:E; [|apply nth_error_Some in Hh; contradiction].
  assert (X : exists f', nth_error (pw_objs s2) h = Some f' /\ bf_same_frame f f' /\ bf_data f' = bf_data f).
  { clear Hh Hc c. revert A f E. generalize (fold_left note l1 blank). induction R2 as [s|s c s1 r l s2 D R IH]; intros g A f E; [exists f; split; [exact E|]; split; [apply bf_frame_refl|reflexivity]|]. apply Forall_cons_iff in F2 as [Fc F2]. cbn [fst] in Fc.
    destruct (step_frame _ _ _ _ _ _ _ _ _ A Fc D E) as (f1 & E1 & Fr1 & D1). destruct (IH F2 _ (step_agree _ _ _ _ _ _ _ _ A Fc D) f1 E1) as (f2 & E2 & Fr2 & D2). exists f2. split; [exact E2|]. split; [exact (bf_frame_trans _ _ _ Fr1 Fr2)|congruence]. }
  destruct X as (f' & E' & Fr & D). destruct Hc as [<-|[<-|[<-|[<-|[]]]]]; cbn [py_do]; unfold on; rewrite E, E'; cbn [snd].
  - now rewrite (frame_version _ _ Fr).
  - now rewrite (bf_frame_capacity _ _ Fr).
  - now rewrite (frame_fpp _ _ Fr).
  - now rewrite D.
Qed.
Print Assumptions C99_parameters.
(** An insertion is refused only for lack of capacity, which the getters show. *)
Theorem C99_refused pr L wy w l s h d e s' : files_ok w -> Forall (fun e => call_ok (fst e)) l -> py_run pr L wy {| pw_objs := []; pw_files := w |} l s -> bytes_ok d ->
  py_do pr L wy s (PInsert h d) = (s', PyRaise (ValueError e)) ->
  e = TooManyEntries /\ exists cap n, py_do pr L wy s (PCapacity h) = (s, PyInt cap) /\ py_do pr L wy s (PCount h) = (s, PyInt n) /\ (cap = 0 \/ cap <= n) /\ (cap = n <-> py_do pr L wy s (PIsFull h) = (s, PyBool true)).
Proof.
  intros W F R Bd H. pose proof (run_agree _ _ _ _ _ _ R _ (agree_start wy L w W) F) as [A1 _ _ _]. cbn [py_do] in *. unfold on in *. destruct (nth_error (pw_objs s) h) as [f|] eqn:E; [|discriminate]. unfold py_insert_bytes in H. destruct (bf_insert_bytes pr wy f d) as [f' r'] eqn:J. injection H as _ Hr.
  destruct (nth_Forall2 _ _ _ _ _ [] A1 E) as (K0 & Hh & _). pose proof (ib_cases _ _ _ _ _ _ (bf_insert_sem _ _ _ _ _ _ (bf_hist_wf _ _ _ _ Hh) Bd J)) as Cs. destruct r' as [b|e'|]; cbn [raised] in Hr; [discriminate| |discriminate]. injection Hr as ->. destruct Cs as (-> & _ & Cs). split; [reflexivity|].
  exists (bf_capacity f), (bf_count_estimate f). split; [reflexivity|]. split; [reflexivity|]. split; [exact Cs|]. destruct f as [f|f]; cbn [bf_capacity bf_count_estimate bf_is_full]; [unfold v1_is_full|unfold v2_is_full]; (split; [intros ->; now rewrite N.eqb_refl|intro Q; injection Q as Q; apply N.eqb_eq in Q; congruence]).
Qed.
Print Assumptions C99_refused.
(** Counting common entries is refused exactly when the union is, with the same exception. *)
Theorem C99_common pr L wy w l s h o e : files_ok w -> Forall (fun e => call_ok (fst e)) l -> py_run pr L wy {| pw_objs := []; pw_files := w |} l s -> h <> o ->
  (snd (py_do pr L wy s (PCommon h o)) = PyRaise (ValueError e) <-> snd (py_do pr L wy s (PUnion h o)) = PyRaise (ValueError e)).
Proof.
  intros W F R Ne. pose proof (run_agree _ _ _ _ _ _ R _ (agree_start wy L w W) F) as [A1 _ _ _]. cbn [py_do]. unfold on. destruct (nth_error (pw_objs s) h) as [f|] eqn:E; [|reflexivity]. destruct (nth_error (pw_objs s) o) as [f2|] eqn:E2; [|reflexivity].
  destruct (Nat.eqb_spec h o) as [|_]; [contradiction|]. destruct (bf_union_merge pr L f f2) as [f' r'] eqn:U. cbn [snd]. destruct (nth_Forall2 _ _ _ _ _ [] A1 E) as (K0 & Hh & _). destruct (nth_Forall2 _ _ _ _ _ [] A1 E2) as (K2 & Hh2 & _).
  pose proof (bf_hist_wf _ _ _ _ Hh) as Wa. pose proof (bf_hist_wf _ _ _ _ Hh2) as Wb. pose proof (bf_union_sem _ _ _ _ _ _ Wa Wb U) as Cs.
  assert (T : bf_has_same_params f f2 = Ok true -> forall e, bf_count_common_entries pr L f f2 <> Err e).
  { intros Q x. unfold bf_count_common_entries. rewrite Q. cbn [obind negb]. unfold bf_has_same_params in Q. destruct (negb _); [discriminate|]. destruct f as [a|a], f2 as [b|b]; try discriminate; injection Q as Q.
    - rewrite P_V1More.v1_common_eq, Q. discriminate.
    - rewrite (P_V2More.common_eq pr L a b Wa Wb), Q, P_V2Merge.checked_sum_spec. destruct (_ <? _); [discriminate|]. destruct pr; discriminate. }
  destruct r' as [u|x|].
  - destruct Cs as (_ & _ & _ & Q & _). specialize (T Q). cbn [raised]. split; [|discriminate]. destruct (bf_count_common_entries pr L f f2) as [n|y|]; cbn [raised]; intro Z; [discriminate| |discriminate]. now destruct (T y).
  - destruct Cs as (-> & _ & Q). unfold bf_count_common_entries. rewrite Q. reflexivity.
  - destruct Cs as (_ & _ & Q). specialize (T Q). cbn [raised]. split; [|discriminate]. destruct (bf_count_common_entries pr L f f2) as [n|y|]; cbn [raised]; intro Z; [discriminate| |discriminate]. now destruct (T y).
Qed.
Print Assumptions C99_common.
Lemma list_eqb_refl a : list_eqb a a = true.
Proof. now apply list_eqb_eq. Qed.
(** Loading from a path raises OSError exactly when nothing was there at the start and the program has saved nothing there. *)
Theorem C99_load pr L wy w l s p : py_run pr L wy {| pw_objs := []; pw_files := w |} l s ->
  (snd (py_do pr L wy s (PLoad p)) = PyRaise OSError <-> w p = None /\ forall h, ~ In (PSave h p, PyNone) l).
Proof.
  assert (X : forall s0, py_run pr L wy s0 l s -> pw_files s p = None <-> pw_files s0 p = None /\ forall h, ~ In (PSave h p, PyNone) l).
  { intros s0 R. induction R as [s|s c s1 r l s2 D R IH]; [cbn; tauto|]. rewrite IH. clear IH R. assert (Q : (exists h, c = PSave h p /\ r = PyNone /\ pw_files s1 p <> None) \/ ((forall h, (c, r) <> (PSave h p, PyNone)) /\ pw_files s1 p = pw_files s p)).
    { destruct (target c) as [q|] eqn:T; [|right; split; [intros h Z; injection Z as -> ->; discriminate|apply (C99_local _ _ _ _ _ _ _ D); congruence]].
      destruct (list_eqb q p) eqn:Ep; [apply list_eqb_eq in Ep as ->|right; split; [intros h Z; injection Z as -> ->; injection T as <-; rewrite list_eqb_refl in Ep; discriminate|apply (C99_local _ _ _ _ _ _ _ D); rewrite T; intro Z; injection Z as ->; rewrite list_eqb_refl in Ep; discriminate]].
      destruct c; try discriminate T. injection T as ->. cbn [py_do] in D. unfold on in D. destruct (nth_error (pw_objs s) h) as [f|]; [|injection D as <- <-; right; split; [intros h' Z; discriminate|reflexivity]].
      unfold py_save in D. rewrite save_ok in D by lia. injection D as <- <-. left. exists h. split; [reflexivity|]. split; [reflexivity|]. cbn [pw_files]. unfold fs_set. rewrite list_eqb_refl. discriminate. }
    destruct Q as [(h & -> & -> & N)|[N Eq]].
    - split; [tauto|]. intros [_ Z]. destruct (Z h). now left.
    - rewrite Eq. split; intros [A B]; (split; [exact A|]); intros h Z; [destruct Z as [Z|Z]; [now apply (N h)|now apply (B h)]|apply (B h); now right]. }
  intro R. specialize (X _ R). cbn [pw_files] in X. rewrite <- X. cbn [py_do]. unfold fs_open. destruct (pw_files s p) as [c|]; cbn [snd]; [|tauto]. split; [|discriminate]. unfold py_make. destruct (bf_from_reader pr c); discriminate.
Qed.
Print Assumptions C99_load.
(** A program: two entries go through a dump, a file and a union. *)
Definition ex_calls : list py_call := [PWithVersion 1 4 p001; PInsert 0 da; PDumps 0; PLoads (bf_write (V1 e1)); PInsert 1 db; PSave 1 [112]; PLoad [112]; PWithVersion 1 4 p001; PUnion 3 2; PUnion 3 3; PWithVersion 2 4 0; PInsert 9 da; PLoad [113]].
Definition ex_results : list py_result := [PyObj 0; PyBool true; PyBytes (bf_write (V1 e1)); PyObj 1; PyBool true; PyNone; PyObj 2; PyObj 3; PyNone; PyRaise RuntimeError; PyRaise (ValueError (WrongFpp 0)); PyRaise NameError; PyRaise OSError].
Local Ltac run1 := eapply run_call; [vm_compute; reflexivity|].
Example C99_example wy : exists s, py_run Release ref_libm wy {| pw_objs := []; pw_files := fun _ => None |} (combine ex_calls ex_results) s /\
  Forall (fun e => call_ok (fst e)) (combine ex_calls ex_results) /\ entries_of (fold_left note (combine ex_calls ex_results) blank) 3 = [db; da] /\ entries_of (fold_left note (combine ex_calls ex_results) blank) 0 = [da] /\
  py_do Release ref_libm wy s (PContains 3 da) = (s, PyBool true) /\ py_do Release ref_libm wy s (PContains 0 db) = (s, PyBool false) /\ py_do Release ref_libm wy s (PCommon 3 1) = (s, PyInt 1).
Proof.
  assert (F : Forall (fun e => call_ok (fst e)) (combine ex_calls ex_results)).
  { repeat (apply Forall_cons; [cbn [combine ex_calls ex_results fst call_ok]; try exact I; try (split; reflexivity); try (repeat constructor; reflexivity)|]); apply Forall_nil. }
  eexists. split; [|split; [exact F|]].
  - unfold ex_calls, ex_results. cbn [combine]. do 13 run1. apply run_nil.
  - split; [vm_compute; reflexivity|]. split; [vm_compute; reflexivity|]. split; [vm_compute; reflexivity|]. split; vm_compute; reflexivity.
Qed.
