(** Bit set lemmas (array.rs, vec.rs, and the u64 blocks of v1.rs). *)
From Coq Require Import Lia.
From Verif Require Import M_BitSet Spec_Bits P_Base.
Open Scope N_scope.

Lemma bit_getN w l i : bit w l i = match getN l (i / w) with Some x => N.testbit x (i mod w) | None => false end.
Proof. reflexivity. Qed.

Lemma div_lt_len w (n i : N) : w <> 0 -> i < w * n -> i / w < n.
Proof. intros. now apply N.div_lt_upper_bound. Qed.

Lemma bit_out w l i : w <> 0 -> w * len l <= i -> bit w l i = false.
Proof.
  intros Hw H. rewrite bit_getN. replace (getN l (i / w)) with (@None N); auto.
  symmetry. apply getN_None. now apply N.div_le_lower_bound.
Qed.

Lemma split_idx w i j : w <> 0 -> i / w = j / w -> i mod w = j mod w -> i = j.
Proof. intros Hw H1 H2. rewrite (N.div_mod i w), (N.div_mod j w) by auto. congruence. Qed.

Lemma bit_set w l i x j : w <> 0 -> getN l (i / w) = Some x ->
  bit w (setN l (i / w) (N.lor x (N.shiftl 1 (i mod w)))) j = bit w l j || (j =? i).
Proof.
  intros Hw H. rewrite !bit_getN, getN_setN.
  assert (L : i / w < len l) by (eapply getN_lt; eauto). apply N.ltb_lt in L. rewrite L, andb_true_r.
  destruct (N.eqb_spec (i / w) (j / w)) as [E|E].
  - rewrite testbit_lor_mask, <- E, H. f_equal.
    destruct (N.eqb_spec (j mod w) (i mod w)); destruct (N.eqb_spec j i); subst; auto; try congruence.
    exfalso. apply n. apply (split_idx w); auto.
  - destruct (N.eqb_spec j i); [congruence|]. now rewrite orb_false_r.
Qed.

Lemma bit_ext w a b : w <> 0 -> words_ok w a -> words_ok w b -> len a = len b ->
  (forall i, i < w * len a -> bit w a i = bit w b i) -> a = b.
Proof.
  intros Hw Ha Hb Hl H. apply list_ext. intro k.
  destruct (N.ltb_spec k (len a)).
  - destruct (proj1 (getN_Some a k) H0) as [x Hx]. rewrite Hx.
    assert (Hk : k < len b) by lia. destruct (proj1 (getN_Some b k) Hk) as [y Hy]. rewrite Hy. f_equal.
    apply N.bits_inj. intro j. destruct (N.ltb_spec j w).
    + specialize (H (w * k + j)). rewrite !bit_getN in H.
      replace ((w * k + j) / w) with k in H by (rewrite N.mul_comm, N.div_add_l, (N.div_small j) by auto; lia).
      replace ((w * k + j) mod w) with j in H by (rewrite N.add_comm, N.mul_comm, N.mod_add, N.mod_small by auto; auto).
      rewrite Hx, Hy in H. apply H. nia.
    + rewrite (testbit_lt_pow2 x w), (testbit_lt_pow2 y w); auto.
      * exact (Forall_getN _ _ _ _ Hb Hy).
      * exact (Forall_getN _ _ _ _ Ha Hx).
  - replace (getN a k) with (@None N) by (symmetry; now apply getN_None).
    symmetry. apply getN_None. lia.
Qed.

Lemma bit_zip w f g a b r i :
  (forall x y n, N.testbit (f x y) n = g (N.testbit x n) (N.testbit y n)) -> g false false = false ->
  len a = len b -> zip_with f a b = Ok r -> bit w r i = g (bit w a i) (bit w b i).
Proof.
  intros Hf Hg Hl H. apply zip_with_inv in H as [_ ->]. rewrite !bit_getN, getN_map, getN_combine.
  destruct (getN a (i / w)) eqn:Ea.
  - assert (i / w < len b) by (rewrite <- Hl; eapply getN_lt; eauto).
    apply getN_Some in H as [y ->]. cbn. apply Hf.
  - assert (getN b (i / w) = None) as -> by (apply getN_None; rewrite <- Hl; now apply getN_None). cbn. now rewrite Hg.
Qed.
Lemma bit_lor w a b r i : len a = len b -> zip_with N.lor a b = Ok r -> bit w r i = bit w a i || bit w b i.
Proof. intros. eapply (bit_zip w N.lor orb); eauto. apply N.lor_spec. Qed.
Lemma bit_land w a b r i : len a = len b -> zip_with N.land a b = Ok r -> bit w r i = bit w a i && bit w b i.
Proof. intros. eapply (bit_zip w N.land andb); eauto. apply N.land_spec. Qed.
Lemma zip_with_len {A B C} (f : A -> B -> C) a b r : zip_with f a b = Ok r -> len r = len a.
Proof. intro H. apply zip_with_inv in H as [? ->]. rewrite len_map, len_combine. unfold len. lia. Qed.
Lemma zip_with_words w f a b r :
  (forall x y, x < 2 ^ w -> y < 2 ^ w -> f x y < 2 ^ w) ->
  words_ok w a -> words_ok w b -> zip_with f a b = Ok r -> words_ok w r.
Proof.
  intros Hf Ha Hb H. apply zip_with_inv in H as [_ ->]. apply Forall_forall. intros z Hz.
  apply in_map_iff in Hz as [[x y] [<- Hz]]. unfold words_ok in *. rewrite Forall_forall in Ha, Hb.
  apply Hf; [apply Ha; eapply in_combine_l; eauto | apply Hb; eapply in_combine_r; eauto].
Qed.
Lemma bit_zeros {A} w (l : list A) i : bit w (map (fun _ => 0) l) i = false.
Proof. rewrite bit_getN, getN_map. destruct (getN l (i / w)); cbn; auto. Qed.
Lemma bit_repeat0 w n i : bit w (repeat 0 n) i = false.
Proof.
  rewrite bit_getN. destruct (getN (repeat 0 n) (i / w)) eqn:E; auto.
  apply getN_In, repeat_spec in E. subst. apply N.bits_0.
Qed.

(** ** the methods *)
Lemma bs_get_spec b i : bs_get b i = if i <? 8 * len b then Ok (bit 8 b i) else Panic.
Proof.
  unfold bs_get. rewrite bit_getN, land_7. 
  destruct (N.ltb_spec i (8 * len b)).
  - apply (div_lt_len 8) in H; [|discriminate]. apply getN_Some in H as [x ->]. now rewrite mask_test.
  - replace (getN b (i / 8)) with (@None N); auto. symmetry. apply getN_None.
    apply N.div_le_lower_bound; lia.
Qed.

Lemma bs_set_spec b i b' r : bs_set b i = (b', r) ->
  len b' = len b /\
  (i < 8 * len b -> r = Ok (bit 8 b i) /\ forall j, bit 8 b' j = bit 8 b j || (j =? i)) /\
  (8 * len b <= i -> r = Panic /\ b' = b).
Proof.
  unfold bs_set, bs_set_value; cbv beta iota zeta. rewrite land_7.  destruct (getN b (i / 8)) as [x|] eqn:E; intro H; apply pair_inj in H as [<- <-].
  - rewrite setN_len. split; auto. split; intro.
    + split. rewrite mask_test, bit_getN, E; auto. intro. now apply bit_set.
    + exfalso. apply getN_lt in E. assert (len b <= i / 8) by (apply N.div_le_lower_bound; lia).  lia.
  - apply getN_None in E. split; auto. split; auto. intro. exfalso.
    apply (div_lt_len 8) in H; try discriminate. lia.
Qed.
Lemma bs_set_words b i b' r : words_ok 8 b -> bs_set b i = (b', r) -> words_ok 8 b'.
Proof.
  unfold bs_set, bs_set_value; cbv beta iota zeta. intros Hb. destruct (getN b (i / 8)) eqn:E; intro H; apply pair_inj in H as [<- <-]; auto.
  apply Forall_setN; auto. apply lor_lt.
  - exact (Forall_getN _ _ _ _ Hb E).
  - rewrite land_7, N.shiftl_1_l. apply N.pow_lt_mono_r. lia. apply N.mod_lt. discriminate.
Qed.
(** Setting a bit that is set changes nothing. *)
Lemma lor_set_id x k : N.testbit x k = true -> N.lor x (N.shiftl 1 k) = x.
Proof.
  intro H. apply N.bits_inj. intro j. rewrite testbit_lor_mask. destruct (N.eqb_spec j k); subst.
  - now rewrite H. - now rewrite orb_false_r.
Qed.
Lemma bs_set_id b i : bs_get b i = Ok true -> bs_set b i = (b, Ok true).
Proof.
  unfold bs_get, bs_set, bs_set_value; cbv beta iota zeta. destruct (getN b (i / 8)) eqn:E; try discriminate. intro H. apply Ok_inj in H.
  rewrite H. rewrite mask_test in H. rewrite lor_set_id by auto. now rewrite setN_same.
Qed.

(** ** counting *)
Lemma count_below_ext n p q : (forall i, i < N.of_nat n -> p i = q i) -> count_below n p = count_below n q.
Proof. induction n; cbn; intros; auto. rewrite H by lia. rewrite IHn; auto. intros. apply H. lia. Qed.
Lemma count_below_le n p : count_below n p <= N.of_nat n.
Proof. induction n; cbn [count_below]. lia. destruct (p (N.of_nat n)); lia. Qed.
Lemma count_below_app n m p : count_below (n + m) p = count_below n p + count_below m (fun i => p (i + N.of_nat n)).
Proof.
  induction m; cbn [count_below]. rewrite Nat.add_0_r. lia.
  rewrite Nat.add_succ_r. cbn [count_below]. rewrite IHm. rewrite Nat2N.inj_add.
  rewrite (N.add_comm (N.of_nat n)). destruct (p _); lia.
Qed.
Lemma count_below_false n p : (forall i, i < N.of_nat n -> p i = false) -> count_below n p = 0.
Proof. induction n; cbn; intros; auto. rewrite H by lia. rewrite IHn; auto. intros. apply H. lia. Qed.
Lemma count_below_negb n p : count_below n p + count_below n (fun i => negb (p i)) = N.of_nat n.
Proof. induction n; cbn [count_below]. auto. destruct (p (N.of_nat n)); cbn [negb]; lia. Qed.
Lemma count_below_mono n p q : (forall i, i < N.of_nat n -> p i = true -> q i = true) -> count_below n p <= count_below n q.
Proof.
  induction n; cbn [count_below]; intros. lia.
  assert (count_below n p <= count_below n q) by (apply IHn; intros; apply H; auto; lia).
  destruct (p (N.of_nat n)) eqn:E. rewrite H by (auto; lia). lia. destruct (q _); lia.
Qed.
Lemma count_below_extend n m p : (n <= m)%nat -> (forall i, N.of_nat n <= i -> p i = false) -> count_below m p = count_below n p.
Proof.
  intros. replace m with (n + (m - n))%nat by lia. rewrite count_below_app.
  rewrite (count_below_false (m - n)). lia. intros. apply H0. lia.
Qed.
Lemma count_ones_spec n x : x < 2 ^ N.of_nat n -> count_ones x = count_below n (N.testbit x).
Proof.
  revert x; induction n; intros x H.
  - cbn in *. assert (x = 0) by lia. now subst.
  - change (S n) with (1 + n)%nat. rewrite count_below_app. cbn [count_below].
    assert (E : count_ones x = (if N.odd x then 1 else 0) + count_ones (N.div2 x)).
    { destruct x as [|[p|p|]]; cbn -[N.add]; auto. all: lia. }
    rewrite E, (IHn (N.div2 x)).
    + rewrite N.bit0_odd. replace (count_below n (fun i => N.testbit x (i + N.of_nat 1))) with (count_below n (N.testbit (N.div2 x))).
      destruct (N.odd x); lia. apply count_below_ext. intros. rewrite N.div2_spec, N.shiftr_spec'. reflexivity.
    + rewrite N.div2_div. rewrite Nat2N.inj_succ, N.pow_succ_r' in H. apply N.div_lt_upper_bound; lia.
Qed.
Lemma sumN_count w l : w <> 0 -> words_ok w l ->
  sumN (map count_ones l) = count_below (N.to_nat (w * len l)) (bit w l).
Proof.
  intros Hw. induction 1 as [|x l Hx Hl IH]; cbn [map sumN fold_right].
  - unfold len. cbn. rewrite N.mul_0_r. reflexivity.
  - fold (sumN (map count_ones l)). rewrite IH. rewrite len_cons.
    replace (N.to_nat (w * N.succ (len l))) with (N.to_nat w + N.to_nat (w * len l))%nat by lia.
    rewrite count_below_app. f_equal.
    + rewrite (count_ones_spec (N.to_nat w)) by (now rewrite N2Nat.id). apply count_below_ext. intros i Hi.
      rewrite N2Nat.id in Hi. rewrite bit_getN, N.div_small, N.mod_small by auto. reflexivity.
    + apply count_below_ext. intros i _. rewrite N2Nat.id, !bit_getN.
      replace ((i + w) / w) with (N.succ (i / w)).
      * replace ((i + w) mod w) with (i mod w). unfold getN. rewrite N2Nat.inj_succ. reflexivity.
        replace (i + w) with (i + 1 * w) by lia. now rewrite N.mod_add.
      * replace (i + w) with (i + 1 * w) by lia. rewrite N.div_add by auto. lia.
Qed.
Lemma count_ones_le w x : x < 2 ^ w -> count_ones x <= w.
Proof.
  intro H. rewrite (count_ones_spec (N.to_nat w)) by now rewrite N2Nat.id.
  pose proof (count_below_le (N.to_nat w) (N.testbit x)). lia.
Qed.
Lemma sumN_zeros w l : words_ok w l ->
  sumN (map count_ones l) + sumN (map (fun x => w - count_ones x) l) = w * len l.
Proof.
  induction 1 as [|x l Hx Hl IH]; cbn [map sumN fold_right]. unfold len; cbn; lia.
  fold (sumN (map count_ones l)). fold (sumN (map (fun x => w - count_ones x) l)).
  rewrite len_cons. apply count_ones_le in Hx. lia.
Qed.
Lemma count_below_upd n p i : i < N.of_nat n -> p i = false ->
  count_below n (fun j => p j || (j =? i)) = count_below n p + 1.
Proof.
  induction n; cbn [count_below]; intros. lia.
  destruct (N.eqb_spec (N.of_nat n) i).
  - subst. rewrite H0. cbn [orb]. rewrite (count_below_ext n _ p). lia.
    intros. destruct (N.eqb_spec i (N.of_nat n)). lia. now rewrite orb_false_r.
  - rewrite orb_false_r. rewrite IHn by (auto; lia). destruct (p _); lia.
Qed.
