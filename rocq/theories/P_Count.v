(** The recomputed number of entries of merged filters. *)
From Coq Require Import Lia Reals Lra.
From Verif Require Import M_Base M_BitSet M_Util M_V1 M_V2 Spec_Bits Spec_V1 Spec_V2 Spec_Real Spec_Count P_Base P_BitSet P_V2Merge P_V2More P_V1 P_V1Codec P_V1More.
From Flocq Require Import Core.
From Verif Require Import P_Float P_FloatDiv P_Real P_V2Sat P_Est.
Open Scope N_scope.

Lemma seq_list {A B} (d : A) (f : A -> B) l : map f l = map (fun j => f (nth j l d)) (seq 0 (length l)).
Proof. induction l as [|x l IH]; [reflexivity|]. cbn [map length seq nth]. f_equal. rewrite <- seq_shift, map_map. exact IH. Qed.
Lemma v2_ones_eq f j : v2_wf f -> (j < length (v2_buckets f))%nat -> bs_count_ones (nth j (v2_buckets f) []) = v2_ones f j.
Proof.
  intros W Hj. pose proof (wf_buckets _ W) as B. rewrite Forall_forall in B. destruct (B _ (nth_In _ [] Hj)) as [Lb Wb]. unfold bs_count_ones, v2_ones.
  rewrite (sumN_count 8) by (auto; lia). assert (L8 : 8 * len (nth j (v2_buckets f) []) = 32768) by (unfold len; rewrite Lb; lia). rewrite L8. apply count_below_ext. intros i _.
  unfold v2_bit, getN. now rewrite Nat2N.id, (nth_error_nth' _ [] Hj).
Qed.
Lemma v2_estimates_eq L f : v2_wf f -> v2_estimates L f = map (fun j => estimate_count L 32768 (v2_ones f j) (v2_n_hash_buck f)) (seq 0 (length (v2_buckets f))).
Proof.
  intro W. unfold v2_estimates. rewrite (seq_list []). apply map_ext_in. intros j Hj. apply in_seq in Hj. now rewrite v2_ones_eq by (auto; lia).
Qed.
Lemma v2_ones_lt f j : v2_wf f -> v2_unsaturated f -> (j < length (v2_buckets f))%nat -> v2_ones f j < 32768.
Proof.
  intros W U Hj. rewrite <- v2_ones_eq by auto. destruct (U (N.of_nat j) ltac:(unfold len; lia)) as (i & Hi & E). unfold v2_bit, getN in E. rewrite Nat2N.id, (nth_error_nth' _ [] Hj) in E.
  pose proof (wf_buckets _ W) as B. rewrite Forall_forall in B. destruct (B _ (nth_In _ [] Hj)) as [Lb Wb]. eapply ones_lt; eauto.
Qed.

(** ** Sums *)
Lemma sumN_R {A} (e : A -> N) (i : A -> R) lo hi l : (forall x, In x l -> i x - lo <= IZR (Z.of_N (e x)) <= i x + hi)%R ->
  (sum_R (map i l) - INR (length l) * lo <= IZR (Z.of_N (sumN (map e l))) <= sum_R (map i l) + INR (length l) * hi)%R.
Proof.
  induction l as [|x l IH]; intro H; [cbn; lra|]. cbn [map sum_R sumN fold_right]. fold (sum_R (map i l)). change (fold_right N.add 0 (map e l)) with (sumN (map e l)).
  rewrite N2Z.inj_add, plus_IZR. cbn [length]. rewrite S_INR. pose proof (H x (or_introl eq_refl)). pose proof (IH (fun y Hy => H y (or_intror Hy))). lra.
Qed.
Lemma sumN_eq {A} (e e' : A -> N) l : (forall x, In x l -> e x = e' x) -> sumN (map e l) = sumN (map e' l).
Proof. intro H. f_equal. now apply map_ext_in. Qed.
Lemma sumN_mono {A} (e e' : A -> N) l : (forall x, In x l -> e x <= e' x) -> sumN (map e l) <= sumN (map e' l).
Proof.
  induction l as [|x l IH]; intro H; [reflexivity|]. cbn [map sumN fold_right]. fold (sumN (map e l)) (sumN (map e' l)). pose proof (H x (or_introl eq_refl)). pose proof (IH (fun y Hy => H y (or_intror Hy))). lia.
Qed.

(** ** Range of a bucket's estimate *)
Lemma est_bucket_R L x k : libm_accurate L -> x < 32768 -> 1 <= k <= 9007199254740992 ->
  (ideal_count 32768 x k - (1 + / 500000) <= IZR (Z.of_N (estimate_count L 32768 x k)) <= ideal_count 32768 x k + / 500000)%R.
Proof.
  intros HL Hx Hk. destruct (est_bucket L x k HL Hx Hk) as (v & E & V0 & V). rewrite E. assert (K : (/ 500000 * / IZR (Z.of_N k) <= / 500000)%R).
  { rewrite <- (Rmult_1_r (/ 500000)) at 2. apply Rmult_le_compat_l; [lra|]. rewrite <- Rinv_1. apply Rinv_le; [lra|]. apply IZR_le. lia. }
  apply Rabs_le_inv in V. pose proof (Zfloor_lb v). pose proof (Zfloor_ub v). lra.
Qed.
Lemma est_bucket_le L x k : libm_accurate L -> x < 32768 -> 1 <= k <= 9007199254740992 -> estimate_count L 32768 x k <= 524288.
Proof.
  intros HL Hx Hk. destruct (est_bucket_R L x k HL Hx Hk) as [_ H]. unfold ideal_count in H. set (K := IZR (Z.of_N k)) in *. set (X := IZR (Z.of_N x)) in *. change (IZR (Z.of_N 32768)) with 32768%R in H.
  assert (K1 : (1 <= K)%R) by (apply IZR_le; lia). assert (X1 : (0 <= X <= 32767)%R) by (split; apply IZR_le; lia). set (t := (1 - X / 32768)%R) in *. assert (T : (/ 32768 <= t <= 1)%R) by (unfold t; lra).
  assert (L0 : (0 <= - ln t <= 15)%R). { split; [pose proof (ln_neg t ltac:(lra)); lra|]. assert (Q : (ln (/ 32768) <= ln t)%R) by (apply ln_le; lra). rewrite ln_Rinv in Q by lra. replace 32768%R with (bpow radix2 15) in Q by (rewrite IZR_bpow by lia; reflexivity). rewrite ln_bpow in Q. pose proof ln2_hi. lra. }
  assert (Ki : (0 < / K <= 1)%R) by (split; [apply Rinv_0_lt_compat; lra|rewrite <- Rinv_1; apply Rinv_le; lra]).
  assert (B : (- (32768 / K * ln t) <= 32768 * 15)%R). { replace (- (32768 / K * ln t))%R with ((32768 * / K) * - ln t)%R by (field; lra). apply Rmult_le_compat; lra. }
  assert (IZR (Z.of_N (estimate_count L 32768 x k)) <= IZR 524288)%R by lra. apply le_IZR in H0. lia.
Qed.

(** ** The count after a merge *)
Lemma merge_sum o pr L a b g : libm_accurate L -> v2_wf a -> v2_wf b -> v2_merge_with (vec_op o) (arr_op o) pr L a b = (g, Ok tt) ->
  1 <= v2_n_hash_buck a <= 9007199254740992 -> len (v2_buckets a) <= 17592186044416 -> v2_unsaturated g ->
  v2_wf g /\ v2_n_hash_buck g = v2_n_hash_buck a /\ length (v2_buckets g) = length (v2_buckets a) /\
  v2_count g = sumN (map (fun j => estimate_count L 32768 (v2_ones g j) (v2_n_hash_buck g)) (seq 0 (length (v2_buckets g)))) /\
  forall j, (j < length (v2_buckets g))%nat -> v2_ones g j < 32768.
Proof.
  intros HL Wa Wb E Hk Hb U. destruct (v2_merge_sem _ _ _ _ _ _ _ Wa Wb E) as [(_ & _ & Q)|(_ & M)]; [discriminate|].
  pose proof (me_wf _ _ _ _ _ _ _ M) as Wg. pose proof (me_frame _ _ _ _ _ _ _ M) as F. pose proof (me_cases _ _ _ _ _ _ _ M) as C. assert (EN : v2_n_hash_buck g = v2_n_hash_buck a) by apply F. assert (EL : len (v2_buckets g) = len (v2_buckets a)) by apply F.
  assert (O : forall j, (j < length (v2_buckets g))%nat -> v2_ones g j < 32768) by (intros; now apply v2_ones_lt). cbn beta iota in C.
  split; [exact Wg|]. split; [exact EN|]. split; [unfold len in EL; lia|]. split; [|exact O]. rewrite v2_estimates_eq in C by exact Wg. set (l := map _ _) in *.
  assert (S : sumN l <= len l * 524288). { apply sumN_le. apply Forall_forall. intros e He. apply in_map_iff in He as (j & <- & Hj). apply in_seq in Hj. apply est_bucket_le; auto; [apply O; lia|lia]. }
  assert (Ll : len l = len (v2_buckets g)) by (unfold l, len; now rewrite map_length, seq_length). rewrite Ll, EL in S. rewrite checked_sum_spec in C.
  assert (Lt : sumN l <? two64 = true) by (apply N.ltb_lt; unfold two64; lia). rewrite Lt in C. apply Ok_inj in C. congruence.
Qed.
(** ** Version 1 *)
Lemma v1_ones_eq f : v1_wf f -> v1_count_ones f = v1_ones f.
Proof. intro W. apply (sumN_count 64); [lia|]. apply (w1_bits _ W). Qed.
Lemma est_v1_R L m x k : libm_accurate L -> 1 <= m <= 1099511627776 -> 4 * x <= 3 * m -> 1 <= k <= 9007199254740992 ->
  (ideal_count m x k - (1 + / 100) <= IZR (Z.of_N (estimate_count L m x k)) <= ideal_count m x k + / 100)%R.
Proof.
  intros HL Hm Hx Hk. destruct (est_R L m x k HL ltac:(lia) ltac:(lia) Hk) as (v & E & V0 & V). rewrite E. clear E. unfold ideal_count in *. set (M := IZR (Z.of_N m)) in *. set (K := IZR (Z.of_N k)) in *. set (X := IZR (Z.of_N x)) in *.
  assert (M1 : (1 <= M <= 1099511627776)%R) by (split; apply IZR_le; lia). assert (K1 : (1 <= K)%R) by (apply IZR_le; lia). assert (X1 : (0 <= X)%R) by (apply IZR_le; lia). assert (X3 : (4 * X <= 3 * M)%R) by (unfold X, M; rewrite <- !mult_IZR; apply IZR_le; lia).
  assert (T : (/ 4 <= 1 - X / M <= 1)%R). { assert (X / M <= 3 / 4)%R by (apply Rmult_le_reg_r with M; [lra|]; unfold Rdiv at 1; rewrite Rmult_assoc, Rinv_l by lra; lra). assert (0 <= X / M)%R by (apply Rmult_le_pos; [lra|left; apply Rinv_0_lt_compat; lra]). lra. }
  set (t := (1 - X / M)%R) in *. clearbody t.
  assert (L0 : (0 <= - ln t <= 2)%R). { split; [pose proof (ln_neg t ltac:(lra)); lra|]. assert (Q : (ln (/ 4) <= ln t)%R) by (apply ln_le; lra). rewrite ln_Rinv in Q by lra. replace 4%R with (bpow radix2 2) in Q by (rewrite IZR_bpow by lia; reflexivity). rewrite ln_bpow in Q. pose proof ln2_hi. lra. }
  assert (Ki : (0 < / K <= 1)%R) by (split; [apply Rinv_0_lt_compat; lra|rewrite <- Rinv_1; apply Rinv_le; lra]). assert (MK : (0 <= M / K <= 1099511627776)%R). { unfold Rdiv. split; [apply Rmult_le_pos; lra|]. rewrite <- (Rmult_1_r 1099511627776). apply Rmult_le_compat; lra. }
  assert (Ti : (0 < / t <= 4)%R). { split; [apply Rinv_0_lt_compat; lra|]. replace 4%R with (/ / 4)%R by field. apply Rinv_le; lra. }
  pose proof eps_small as [E0 E1]. assert (A : (M / K * (5 * eps / t) <= 1099511627776 * (5 * eps * 4))%R). { apply Rmult_le_compat; [lra| |lra|]; unfold Rdiv; [apply Rmult_le_pos; lra|apply Rmult_le_compat_l; lra]. }
  assert (B : (12 * eps * - (M / K * ln t) <= 12 * eps * (1099511627776 * 2))%R). { apply Rmult_le_compat_l; [lra|]. replace (- (M / K * ln t))%R with (M / K * - ln t)%R by ring. apply Rmult_le_compat; lra. }
  rewrite eps_num in *. apply Rabs_le_inv in V. pose proof (Zfloor_lb v). pose proof (Zfloor_ub v). lra.
Qed.

Lemma count_list n l : NoDup l -> (forall i, In i l -> i < N.of_nat n) -> count_below n (fun i => existsb (N.eqb i) l) = len l.
Proof.
  induction l as [|x l IH]; intros D H; [apply count_below_false; reflexivity|]. apply NoDup_cons_iff in D as [Nx D].
  rewrite (count_below_ext _ _ (fun i => existsb (N.eqb i) l || (i =? x))) by (intros; cbn [existsb]; apply orb_comm). rewrite count_below_upd.
  - rewrite IH by (auto; intros; apply H; now right). rewrite len_cons. lia.
  - apply H. now left.
  - apply not_true_is_false. intro E. apply existsb_exists in E as (y & Hy & E). apply N.eqb_eq in E. subst y. contradiction.
Qed.
Lemma count_below_some_false n p : count_below n p < N.of_nat n -> exists i, i < N.of_nat n /\ p i = false.
Proof.
  induction n as [|n IH]; intro H; [cbn in H; lia|]. cbn [count_below] in H. destruct (p (N.of_nat n)) eqn:E; [|exists (N.of_nat n); split; [lia|exact E]].
  destruct (IH ltac:(lia)) as (i & Hi & Q). exists i. split; [lia|exact Q].
Qed.
Lemma v2_ones_def f j : v2_ones f j = count_below (N.to_nat 32768) (v2_bit f (N.of_nat j)). Proof. reflexivity. Qed.
Lemma v2_ones_unsaturated f : (forall j, (j < length (v2_buckets f))%nat -> v2_ones f j < 32768) -> v2_unsaturated f.
Proof.
  intros H k Hk. assert (K : (N.to_nat k < length (v2_buckets f))%nat) by (unfold len in Hk; lia). specialize (H _ K). rewrite v2_ones_def, N2Nat.id in H.
  pose proof (N2Nat.id 32768) as En. revert H En. generalize (N.to_nat 32768). intros n H En.
  destruct (count_below_some_false n (v2_bit f k)) as (i & Hi & Q); [now rewrite En|]. exists i. split; [now rewrite <- En|exact Q].
Qed.
