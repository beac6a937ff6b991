(** Lemmas on lists, machine integers and bit tests. *)
From Coq Require Import Lia.
From Verif Require Import M_Base.
From Verif Require Export Spec_Bits.
Open Scope N_scope.

(** ** lists *)
Lemma len_nil {A} : len (@nil A) = 0. Proof. reflexivity. Qed.
Lemma len_cons {A} (x : A) l : len (x :: l) = N.succ (len l).
Proof. unfold len. cbn [length]. lia. Qed.
Lemma len_app {A} (a b : list A) : len (a ++ b) = len a + len b.
Proof. unfold len. rewrite app_length. lia. Qed.
Lemma len_map {A B} (f : A -> B) l : len (map f l) = len l.
Proof. unfold len. now rewrite map_length. Qed.
Lemma len_repeat {A} (x : A) n : len (repeat x n) = N.of_nat n.
Proof. unfold len. now rewrite repeat_length. Qed.
Lemma len_rev {A} (l : list A) : len (rev l) = len l.
Proof. unfold len. now rewrite rev_length. Qed.

Lemma upd_length {A} (l : list A) n x : length (upd l n x) = length l.
Proof. revert n; induction l; intros [|n]; cbn; auto. Qed.
Lemma nth_error_upd_eq {A} (l : list A) n x : (n < length l)%nat -> nth_error (upd l n x) n = Some x.
Proof. revert n; induction l; intros [|n]; cbn; intros; try lia; auto. apply IHl; lia. Qed.
Lemma nth_error_upd_ne {A} (l : list A) n m x : n <> m -> nth_error (upd l n x) m = nth_error l m.
Proof. revert n m; induction l; intros [|n] [|m]; cbn; intros; try congruence; auto. Qed.
Lemma nth_error_repeat {A} (x : A) n m : (m < n)%nat -> nth_error (repeat x n) m = Some x.
Proof. revert m; induction n; intros [|m]; cbn; intros; try lia; auto. apply IHn; lia. Qed.

Lemma getN_Some {A} (l : list A) i : i < len l <-> exists x, getN l i = Some x.
Proof.
  unfold getN, len. split.
  - intro H. destruct (nth_error l (N.to_nat i)) eqn:E; eauto. apply nth_error_None in E. lia.
  - intros [x H]. assert (nth_error l (N.to_nat i) <> None) by congruence.
    apply nth_error_Some in H0. lia.
Qed.
Lemma getN_lt {A} (l : list A) i x : getN l i = Some x -> i < len l.
Proof. intro. apply getN_Some. eauto. Qed.
Lemma getN_None {A} (l : list A) i : getN l i = None <-> len l <= i.
Proof. unfold getN, len. rewrite nth_error_None. lia. Qed.
Lemma getN_In {A} (l : list A) i x : getN l i = Some x -> In x l.
Proof. apply nth_error_In. Qed.
Lemma setN_len {A} (l : list A) i x : len (setN l i x) = len l.
Proof. unfold len, setN. now rewrite upd_length. Qed.
Lemma setN_length {A} (l : list A) i x : length (setN l i x) = length l.
Proof. unfold setN. now rewrite upd_length. Qed.
Lemma getN_setN_eq {A} (l : list A) i x : i < len l -> getN (setN l i x) i = Some x.
Proof. unfold getN, setN, len. intro. apply nth_error_upd_eq. lia. Qed.
Lemma getN_setN_ne {A} (l : list A) i j x : i <> j -> getN (setN l i x) j = getN l j.
Proof. unfold getN, setN. intro. apply nth_error_upd_ne. lia. Qed.
Lemma getN_setN {A} (l : list A) i j x :
  getN (setN l i x) j = if (i =? j) && (i <? len l) then Some x else getN l j.
Proof.
  destruct (N.eqb_spec i j); cbn.
  - subst. destruct (N.ltb_spec j (len l)).
    + now apply getN_setN_eq.
    + assert (getN l j = None) by now apply getN_None. rewrite H0. apply getN_None. rewrite setN_len. auto.
  - now apply getN_setN_ne.
Qed.
Lemma upd_same {A} (l : list A) n x : nth_error l n = Some x -> upd l n x = l.
Proof. revert n; induction l; intros [|n]; cbn; intros; try congruence. f_equal; auto. Qed.
Lemma setN_same {A} (l : list A) i x : getN l i = Some x -> setN l i x = l.
Proof. apply upd_same. Qed.
Lemma list_ext {A} (a b : list A) : (forall i, getN a i = getN b i) -> a = b.
Proof.
  revert b; induction a; intros [|y b] H; auto.
  - specialize (H 0). discriminate.
  - specialize (H 0). discriminate.
  - f_equal.
    + specialize (H 0). now injection H.
    + apply IHa. intro i. specialize (H (N.succ i)). unfold getN in *. now rewrite N2Nat.inj_succ in H.
Qed.
Lemma Forall_upd {A} (P : A -> Prop) l n x : Forall P l -> P x -> Forall P (upd l n x).
Proof. intro H. revert n. induction H; intros [|n] Hx; cbn; auto. Qed.
Lemma Forall_setN {A} (P : A -> Prop) l i x : Forall P l -> P x -> Forall P (setN l i x).
Proof. apply Forall_upd. Qed.
Lemma Forall_getN {A} (P : A -> Prop) l i x : Forall P l -> getN l i = Some x -> P x.
Proof. intros H G. rewrite Forall_forall in H. apply H. eapply getN_In; eauto. Qed.
Lemma getN_map {A B} (f : A -> B) l i : getN (map f l) i = option_map f (getN l i).
Proof. unfold getN. apply nth_error_map. Qed.
Lemma getN_repeat {A} (x : A) n i : i < n -> getN (repeat x (N.to_nat n)) i = Some x.
Proof. intro. unfold getN. apply nth_error_repeat. lia. Qed.
Lemma Forall_repeat {A} (P : A -> Prop) x n : P x -> Forall P (repeat x n).
Proof. intro. induction n; cbn; auto. Qed.

Lemma zip_with_Ok {A B C} (f : A -> B -> C) a b :
  (length a <= length b)%nat -> zip_with f a b = Ok (map (fun p => f (fst p) (snd p)) (combine a b)).
Proof.
  revert b; induction a; intros [|y b] H; cbn in *; auto; try lia.
  rewrite IHa by lia. reflexivity.
Qed.
Lemma zip_with_inv {A B C} (f : A -> B -> C) a b r :
  zip_with f a b = Ok r -> (length a <= length b)%nat /\ r = map (fun p => f (fst p) (snd p)) (combine a b).
Proof.
  revert b r; induction a; intros [|y b] r H; cbn in *; try discriminate.
  - injection H as <-. split; auto.
  - injection H as <-. split; auto; lia.
  - destruct (zip_with f a0 b) eqn:E; cbn in H; try discriminate. injection H as <-.
    apply IHa in E as [? ->]. split; auto. lia.
Qed.
Lemma zip_with_not_Err {A B C} (f : A -> B -> C) a b e : zip_with f a b <> Err e.
Proof.
  revert b; induction a; intros [|y b]; cbn; try discriminate.
  specialize (IHa b). destruct (zip_with f a0 b); cbn; congruence.
Qed.
Lemma getN_combine {A B} (a : list A) (b : list B) i :
  getN (combine a b) i = match getN a i, getN b i with Some x, Some y => Some (x, y) | _, _ => None end.
Proof.
  unfold getN. generalize (N.to_nat i). revert b. induction a; intros b [|n]; cbn; auto.
  - destruct b; auto.
  - destruct b; cbn; auto. destruct (nth_error a0 n); auto.
Qed.
Lemma len_combine {A B} (a : list A) (b : list B) : len (combine a b) = N.min (len a) (len b).
Proof. unfold len. rewrite combine_length. lia. Qed.

(** ** integers *)
Lemma two64_pow : two64 = 2 ^ 64. Proof. reflexivity. Qed.
Lemma w64_lt x : w64 x < two64.
Proof. unfold w64. apply N.mod_lt. discriminate. Qed.
Lemma w64_id x : x < two64 -> w64 x = x.
Proof. apply N.mod_small. Qed.
Lemma w64_w64 x : w64 (w64 x) = w64 x.
Proof. apply w64_id, w64_lt. Qed.
Lemma w64_add_l a b : w64 (w64 a + b) = w64 (a + b).
Proof. unfold w64. apply N.add_mod_idemp_l. discriminate. Qed.
Lemma w64_add_r a b : w64 (a + w64 b) = w64 (a + b).
Proof. unfold w64. apply N.add_mod_idemp_r. discriminate. Qed.
Lemma w64_mul_l a b : w64 (w64 a * b) = w64 (a * b).
Proof. unfold w64. apply N.mul_mod_idemp_l. discriminate. Qed.

Lemma land_7 x : N.land x 7 = x mod 8.
Proof. change 7 with (N.ones 3). rewrite N.land_ones. reflexivity. Qed.

Lemma mask_test x k : (N.land x (N.shiftl 1 k) =? N.shiftl 1 k) = N.testbit x k.
Proof.
  destruct (N.testbit x k) eqn:E.
  - apply N.eqb_eq. apply N.bits_inj. intro j. rewrite N.land_spec.
    destruct (N.eq_dec j k).
    + subst. rewrite E. reflexivity.
    + replace (N.testbit (N.shiftl 1 k) j) with false. apply andb_false_r.
      symmetry. rewrite N.shiftl_1_l. apply N.pow2_bits_false. auto.
  - apply N.eqb_neq. intro H. assert (N.testbit (N.land x (N.shiftl 1 k)) k = N.testbit (N.shiftl 1 k) k) by congruence.
    rewrite N.land_spec, E in H0. rewrite N.shiftl_1_l, N.pow2_bits_true in H0. discriminate.
Qed.
Lemma testbit_lor_mask x k j : N.testbit (N.lor x (N.shiftl 1 k)) j = N.testbit x j || (j =? k).
Proof.
  rewrite N.lor_spec, N.shiftl_1_l. f_equal. rewrite N.pow2_bits_eqb. apply N.eqb_sym.
Qed.
Lemma lt_pow2_testbit x w : (forall j, w <= j -> N.testbit x j = false) -> x < 2 ^ w.
Proof.
  intro H. destruct (N.eq_dec x 0) as [->|Hx].
  - apply N.neq_0_lt_0. now apply N.pow_nonzero.
  - apply N.log2_lt_pow2. lia. destruct (N.ltb_spec (N.log2 x) w); auto.
    specialize (H _ H0). now rewrite N.bit_log2 in H.
Qed.
Lemma testbit_lt_pow2 x w j : x < 2 ^ w -> w <= j -> N.testbit x j = false.
Proof.
  intros H Hj. destruct (N.eq_dec x 0) as [->|Hx]. apply N.bits_0.
  apply N.bits_above_log2. apply N.log2_lt_pow2 in H; lia.
Qed.
Lemma lor_lt x y w : x < 2 ^ w -> y < 2 ^ w -> N.lor x y < 2 ^ w.
Proof.
  intros. apply lt_pow2_testbit. intros. rewrite N.lor_spec.
  rewrite (testbit_lt_pow2 x w), (testbit_lt_pow2 y w); auto.
Qed.
Lemma land_lt x y w : x < 2 ^ w -> N.land x y < 2 ^ w.
Proof.
  intros. apply lt_pow2_testbit. intros. rewrite N.land_spec. rewrite (testbit_lt_pow2 x w); auto.
Qed.
Lemma land_le_r x y : N.land x y <= y.
Proof.
  assert (H : N.lor (N.land x y) y = y).
  { apply N.bits_inj. intro j. rewrite N.lor_spec, N.land_spec. now destruct (N.testbit x j), (N.testbit y j). }
  rewrite <- H at 2. clear.
  assert (forall a b, a <= N.lor a b) as G.
  { intros a b. rewrite <- (N.add_0_r a) at 1.
    replace (N.lor a b) with (a + N.ldiff b a). lia.
    rewrite N.add_nocarry_lxor.
    - apply N.bits_inj. intro j. rewrite N.lxor_spec, N.lor_spec, N.ldiff_spec. now destruct (N.testbit a j), (N.testbit b j).
    - apply N.bits_inj. intro j. rewrite N.land_spec, N.ldiff_spec, N.bits_0. now destruct (N.testbit a j), (N.testbit b j). }
  apply G.
Qed.

(** ** bytes *)

Lemma le_bytes_length n x : length (le_bytes n x) = n.
Proof. revert x; induction n; cbn; auto. Qed.
Lemma le_bytes_len n x : len (le_bytes n x) = N.of_nat n.
Proof. unfold len. now rewrite le_bytes_length. Qed.
Lemma le_bytes_ok n x : bytes_ok (le_bytes n x).
Proof. revert x; induction n; cbn; intros; constructor; auto. apply N.mod_lt. discriminate. apply IHn. Qed.
Lemma of_le_le_bytes n x : x < 256 ^ N.of_nat n -> of_le (le_bytes n x) = x.
Proof.
  revert x; induction n; intros x H.
  - cbn in *. lia.
  - cbn [le_bytes of_le]. rewrite IHn.
    + rewrite N.add_comm. symmetry. apply N.div_mod. discriminate.
    + rewrite Nat2N.inj_succ, N.pow_succ_r' in H. apply N.div_lt_upper_bound; lia.
Qed.
Lemma of_le_lt l : bytes_ok l -> of_le l < 256 ^ len l.
Proof.
  induction 1; cbn [of_le]. cbn. lia.
  rewrite len_cons, N.pow_succ_r'. lia.
Qed.
Lemma le_bytes_of_le l : bytes_ok l -> le_bytes (length l) (of_le l) = l.
Proof.
  induction 1; cbn [length le_bytes of_le]; auto. f_equal.
  - rewrite N.mul_comm, N.mod_add by discriminate. now apply N.mod_small.
  - rewrite N.mul_comm, N.div_add by discriminate. rewrite N.div_small by auto. now rewrite N.add_0_l.
Qed.
Lemma le8_rt x : x < two64 -> of_le (le_bytes 8 x) = x.
Proof. intro. apply of_le_le_bytes. exact H. Qed.
Lemma of_le8_lt l : bytes_ok l -> length l = 8%nat -> of_le l < two64.
Proof. intros. pose proof (of_le_lt l H). unfold len in H1. rewrite H0 in H1. exact H1. Qed.

Lemma bytes_ok_app a b : bytes_ok (a ++ b) <-> bytes_ok a /\ bytes_ok b.
Proof. apply Forall_app. Qed.
Lemma Forall_firstn {A} (P : A -> Prop) n l : Forall P l -> Forall P (firstn n l).
Proof. intro H. revert n. induction H; intros [|n]; cbn; auto. Qed.
Lemma Forall_skipn {A} (P : A -> Prop) n l : Forall P l -> Forall P (skipn n l).
Proof. intro H. revert n. induction H; intros [|n]; cbn; auto. Qed.

(** ** outcomes *)
(** [injection] without the simplification it performs. *)
Lemma pair_inj {A B} (a c : A) (b d : B) : (a, b) = (c, d) -> a = c /\ b = d.
Proof. intro H. now injection H. Qed.
Lemma Ok_inj {A} (a b : A) : Ok a = Ok b -> a = b.
Proof. intro H. now injection H. Qed.
Lemma Some_inj {A} (a b : A) : Some a = Some b -> a = b.
Proof. intro H. now injection H. Qed.
Lemma obind_Ok_inv {A B} (x : outcome A) (k : A -> outcome B) r :
  obind x k = Ok r -> exists a, x = Ok a /\ k a = Ok r.
Proof. destruct x; cbn; try discriminate. eauto. Qed.
Lemma obind_Err_inv {A B} (x : outcome A) (k : A -> outcome B) e :
  obind x k = Err e -> x = Err e \/ exists a, x = Ok a /\ k a = Err e.
Proof. destruct x; cbn; try discriminate; eauto. intro. left. congruence. Qed.
Lemma obind_Panic_inv {A B} (x : outcome A) (k : A -> outcome B) :
  obind x k = Panic -> x = Panic \/ exists a, x = Ok a /\ k a = Panic.
Proof. destruct x; cbn; try discriminate; eauto. Qed.

Lemma checked_add_small pr a b : a + b < two64 -> checked_add pr a b = Ok (a + b).
Proof. intro H. unfold checked_add. apply N.ltb_lt in H. now rewrite H. Qed.
Lemma checked_mul_small pr a b : a * b < two64 -> checked_mul pr a b = Ok (a * b).
Proof. intro H. unfold checked_mul. apply N.ltb_lt in H. now rewrite H. Qed.
Lemma checked_add_lt pr a b c : checked_add pr a b = Ok c -> c < two64.
Proof.
  unfold checked_add. destruct (N.ltb_spec (a + b) two64). intro E; now injection E as <-.
  destruct pr; try discriminate. intro E. injection E as <-. apply w64_lt.
Qed.
Lemma checked_add_not_Err pr a b e : checked_add pr a b <> Err e.
Proof. unfold checked_add. destruct (_ <? _); [|destruct pr]; discriminate. Qed.
Lemma checked_mul_not_Err pr a b e : checked_mul pr a b <> Err e.
Proof. unfold checked_mul. destruct (_ <? _); [|destruct pr]; discriminate. Qed.
Lemma checked_mul_lt pr a b c : checked_mul pr a b = Ok c -> c < two64.
Proof.
  unfold checked_mul. destruct (N.ltb_spec (a * b) two64). intro E; now injection E as <-.
  destruct pr; try discriminate. intro E. injection E as <-. apply w64_lt.
Qed.
Lemma vec_of_Ok {A} size (x : A) n l : vec_of size x n = Ok l -> l = repeat x (N.to_nat n) /\ n * size <= isize_max.
Proof. unfold vec_of. destruct (N.leb_spec (n * size) isize_max); try discriminate. intro E; now injection E as <-. Qed.
Lemma vec_of_not_Err {A} size (x : A) n e : vec_of size x n <> Err e.
Proof. unfold vec_of. destruct (_ <=? _); discriminate. Qed.
Lemma next_power_of_two_not_Err pr x e : next_power_of_two pr x <> Err e.
Proof. unfold next_power_of_two. destruct (_ <? _); [|destruct pr]; discriminate. Qed.
