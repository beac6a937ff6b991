(** C82: on average the number of entries recomputed after a merge is the number of entries (v1.rs:329-334, v2.rs:574-587). *)
From Coq Require Import Lia Reals Lra.
From Verif Require Import M_Base M_Float M_BitSet M_Util M_V1 M_V2 M_RefLibm Spec_Bits Spec_Hash Spec_V1 Spec_V2 Spec_Real Spec_V2Hist Spec_Rate Spec_Count Spec_Common Spec_CountAvg.
From Verif Require Import P_Base P_BitSet P_Hash P_HashMod P_V2 P_V2Sem P_V2Merge P_V2More P_V2Hist P_V2Props P_V2Codec P_V1 P_V1Codec P_V1Hist P_V1More P_V2Size P_V2Sat P_Fpp P_Real P_RealLibm P_Rate P_Est P_Count P_Common P_CountAvg Ex_Base Ex_V1.
From Verif Require Import Prop_V1 Prop_V2Merge Prop_Count Prop_Common.
Open Scope N_scope.

(** ** What the count is computed from *)
Lemma ones_count m (p : N -> bool) l : (forall i, (i < m)%nat -> p (N.of_nat i) = mem i l) -> count_below m p = N.of_nat (ones m l).
Proof.
  unfold ones. rewrite <- cnt_filter. intro H. induction m as [|m IH]; [reflexivity|]. cbn [count_below cnt]. rewrite IH by (intros; apply H; lia). rewrite (H m) by lia. destruct (mem m l); lia.
Qed.
(** Version 1: the positions of the entries of both filters. *)
Theorem C82_v1_answer L a b g Ka Kb ks : v1_kept L a Ka -> v1_kept L b Kb -> v1_union_merge L a b = (g, Ok tt) -> (forall x, Ka x \/ Kb x <-> In x ks) -> v1_bit_size a <> 0 ->
  let pos x := map N.to_nat (v1_positions a x) in
  v1_count_estimate g = estimate_count L (v1_bit_size a) (N.of_nat (ones (N.to_nat (v1_bit_size a)) (flat_map pos ks))) (v1_n_hash a).
Proof.
  intros Ha Hb E EK B0 pos. destruct (v1_kept_inv _ _ _ Ha) as (Wa & _). destruct (v1_kept_inv _ _ _ Hb) as (Wb & _). destruct (v1_kept_inv _ _ _ (k1_union _ _ _ _ _ _ Ha Hb E)) as (Wg & [Ug _] & Pg).
  destruct (v1_union_sem _ _ _ _ _ Wa Wb E) as [(_ & _ & Q)|(_ & _ & V)]; [discriminate|]. change (v1_count_estimate g) with (v1_count g). rewrite (u1_count _ _ _ _ V), (v1_ones_eq g Wg).
  destruct (u1_frame _ _ _ _ V) as (_ & _ & _ & EN & EB & _). rewrite EN, EB.
  assert (Q : forall x, v1_positions g x = v1_positions a x) by (intro x; unfold v1_positions; now rewrite EN, EB). f_equal. unfold v1_ones.
  assert (M : forall i, v1_bit g i = mem (N.to_nat i) (flat_map pos ks)).
  { intro i. apply eq_true_iff_eq. rewrite Pg, mem_In, in_flat_map. split; intros (x & Kx & Hi); exists x; (split; [now apply EK|]); unfold pos in *; rewrite ?Q in *.
    - now apply in_map. - apply in_map_iff in Hi as (y & Ey & Hy). apply N2Nat.inj in Ey. now subst y. }
  rewrite (count_below_extend (N.to_nat (v1_bit_size a))).
  - apply ones_count. intros i _. now rewrite M, Nat2N.id.
  - rewrite <- EB. lia.
  - intros i Hi. rewrite N2Nat.id in Hi. destruct (v1_bit g i) eqn:Ei; [|reflexivity]. apply Pg in Ei as (x & _ & Ei). rewrite Q in Ei. apply dcso_positions_lt in Ei; [lia|exact B0].
Qed.
Print Assumptions C82_v1_answer.
(** Version 2: bucket by bucket, the positions of the entries of both filters that select the bucket. *)
Theorem C82_v2_answer pr wy L a b g Ka Ca Kb Cb ks : v2_kept wy L a Ka Ca -> v2_kept wy L b Kb Cb -> v2_union_merge pr L a b = (g, Ok tt) -> (forall x, Ka x \/ Kb x <-> In x ks) ->
  let pos x := map N.to_nat (v2_positions wy g (hash_pop wy x)) in
  let in_bucket j x := N.eqb (N.of_nat j) (v2_bucket_of g (hash_pop wy x)) in
  checked_sum pr (map (fun j => estimate_count L 32768 (N.of_nat (ones (N.to_nat 32768) (flat_map pos (filter (in_bucket j) ks)))) (v2_n_hash_buck a)) (seq 0 (length (v2_buckets g)))) = Ok (v2_count_estimate g).
Proof.
  intros Ha Hb E EK pos in_bucket. destruct (v2_kept_inv _ _ _ _ _ Ha) as (Wa & _). destruct (v2_kept_inv _ _ _ _ _ Hb) as (Wb & _). destruct (v2_kept_inv _ _ _ _ _ (vk_union _ _ _ _ _ _ _ _ _ _ Ha Hb E)) as (Wg & Pg & _).
  destruct (v2_merge_sem op_or _ _ _ _ _ _ Wa Wb E) as [(_ & _ & Q)|(_ & M)]; [discriminate|]. pose proof (me_cases _ _ _ _ _ _ _ M) as C. pose proof (me_frame _ _ _ _ _ _ _ M) as F. cbn beta iota in C. assert (EN : v2_n_hash_buck g = v2_n_hash_buck a) by apply F.
  change (v2_count_estimate g) with (v2_count g). rewrite <- C, v2_estimates_eq, EN by exact Wg. f_equal. apply map_ext. intro j. f_equal. rewrite v2_ones_def. symmetry. apply ones_count. intros i _.
  apply eq_true_iff_eq. rewrite Pg, mem_In, in_flat_map. split.
  - intros (x & Kx & Eb & Hi). exists x. split; [apply filter_In; split; [now apply EK|now apply N.eqb_eq]|]. apply in_map_iff. exists (N.of_nat i). split; [apply Nat2N.id|exact Hi].
  - intros (x & Kx & Hi). apply filter_In in Kx as [Kx Eb]. apply N.eqb_eq in Eb. exists x. split; [now apply EK|]. split; [exact Eb|]. apply in_map_iff in Hi as (y & E' & Hy). rewrite <- E', N2Nat.id. exact Hy.
Qed.
Print Assumptions C82_v2_answer.

(** ** Its average *)
Lemma est_ideal m k x : est m k x = ideal_count (N.of_nat m) (N.of_nat x) (N.of_nat k).
Proof. unfold est, ideal_count. now rewrite !nat_N_Z, <- !INR_IZR_INZ. Qed.
(** Version 1: with [n] entries that set at most three quarters of the bits. *)
Theorem C82_v1_average L m k n : libm_accurate L -> 64 <= N.of_nat m <= 2 ^ 40 -> 1 <= N.of_nat k <= 2 ^ 53 -> (4 * (k * n) <= 3 * m)%nat ->
  (INR n - (1 + / 100) <= ideal_estimate m k n (fun x => IZR (Z.of_N (estimate_count L (N.of_nat m) (N.of_nat x) (N.of_nat k)))) <= INR n + 22 / 10 * / INR k + / 100)%R.
Proof.
  intros HL Hm Hk H4. assert (B : forall x, (x <= k * n)%nat -> (est m k x - (1 + / 100) <= IZR (Z.of_N (estimate_count L (N.of_nat m) (N.of_nat x) (N.of_nat k))) <= est m k x + / 100)%R).
  { intros x Hx. rewrite est_ideal. apply est_v1_R; [exact HL|change 1099511627776 with (2 ^ 40); lia|lia|exact Hk]. }
  split.
  - apply estimate_lower; [lia|lia| |lia]. intros x _ Hx. now apply B.
  - apply estimate_upper_num; [lia|lia|exact H4|]. intros x Hx. now apply B.
Qed.
Print Assumptions C82_v1_average.
(** Version 2, one bucket. *)
Theorem C82_v2_average L k n : libm_accurate L -> 1 <= N.of_nat k <= 2 ^ 53 -> N.of_nat (k * n) <= 24576 ->
  (INR n - (1 + / 500000) <= ideal_estimate (N.to_nat 32768) k n (fun x => IZR (Z.of_N (estimate_count L 32768 (N.of_nat x) (N.of_nat k)))) <= INR n + 22 / 10 * / INR k + / 500000)%R.
Proof.
  intros HL Hk H4. pose proof (N2Nat.id 32768) as En. revert En. generalize (N.to_nat 32768). intros m En.
  assert (B : forall x, (x <= k * n)%nat -> (est m k x - (1 + / 500000) <= IZR (Z.of_N (estimate_count L 32768 (N.of_nat x) (N.of_nat k))) <= est m k x + / 500000)%R).
  { intros x Hx. rewrite est_ideal, En. apply est_bucket_R; [exact HL|lia|exact Hk]. }
  split.
  - apply estimate_lower; [lia|lia| |lia]. intros x _ Hx. now apply B.
  - apply estimate_upper_num; [lia|lia|lia|]. intros x Hx. now apply B.
Qed.
Print Assumptions C82_v2_average.
(** However full the bucket is, entries are on average not lost beyond the truncation. *)
Theorem C82_v2_lower L k n : libm_accurate L -> lm_ln L (S754_zero false) = S754_infinity true -> 1 <= N.of_nat k <= 2 ^ 53 -> N.of_nat n <= 2 ^ 60 ->
  (INR n - (1 + / 500000) <= ideal_estimate (N.to_nat 32768) k n (fun x => IZR (Z.of_N (estimate_count L 32768 (N.of_nat x) (N.of_nat k)))))%R.
Proof.
  intros HL HI Hk Hn. pose proof (N2Nat.id 32768) as En. revert En. generalize (N.to_nat 32768). intros m En. apply estimate_lower; [lia|lia| |].
  - intros x Hx _. rewrite est_ideal, En. apply est_bucket_R; [exact HL|lia|exact Hk].
  - intros _. rewrite En. change 32768 with bucket_bit_size at 2. rewrite sat_estimate by (auto; unfold two64; lia). change (IZR (Z.of_N u64_max)) with 18446744073709551615%R.
    destruct (untouched_ln m (k * n) ltac:(lia)) as (_ & _ & U). assert (Em : INR m = 32768%R) by (rewrite INR_IZR_INZ, <- nat_N_Z, En; reflexivity). rewrite Em in *. rewrite mult_INR in U.
    assert (K1 : (1 <= INR k)%R) by (apply (le_INR 1); lia). assert (Hn' : (INR n <= 1152921504606846976)%R) by (rewrite INR_IZR_INZ, <- nat_N_Z; apply IZR_le; lia).
    assert (N0 : (0 <= INR n)%R) by apply pos_INR. apply Rle_trans with (32768 / INR k * (INR k * INR n / (32768 - 1) + 1))%R.
    + assert (0 < 32768 / INR k)%R by (apply Rdiv_lt_0_compat; lra). assert (32768 / INR k * (- ln (untouched m (k * n)) + 1) <= 32768 / INR k * (INR k * INR n / (32768 - 1) + 1))%R by (apply Rmult_le_compat_l; lra). lra.
    + replace (32768 / INR k * (INR k * INR n / (32768 - 1) + 1))%R with (32768 / 32767 * INR n + 32768 * / INR k)%R by (field; lra). assert (/ INR k <= 1)%R by (rewrite <- Rinv_1; apply Rinv_le_contravar; lra). lra.
Qed.
Print Assumptions C82_v2_lower.
Lemma filter_le {A} (p : A -> bool) l : (length (filter p l) <= length l)%nat.
Proof. induction l as [|x l IH]; cbn; [lia|]. destruct (p x); cbn; lia. Qed.
Lemma sum_count_in b l : below b l -> sum_below b (fun j => INR (count_in j l)) = INR (length l).
Proof.
  induction l as [|x l IH]; intro H; [cbn; rewrite sum_const; ring|]. inversion H; subst.
  rewrite (sum_ext b _ (fun j => ind (Nat.eqb x j) + INR (count_in j l)))%R.
  - rewrite sum_plus, sum_eqb, IH by assumption. cbn [length]. rewrite S_INR. ring.
  - intros j _. unfold count_in. cbn [filter]. rewrite (Nat.eqb_sym x j). destruct (Nat.eqb j x); cbn [ind length]; [rewrite S_INR|]; ring.
Qed.
(** A whole filter of [b] buckets. *)
Theorem C82_v2_filter_lower L b k n : libm_accurate L -> lm_ln L (S754_zero false) = S754_infinity true -> 1 <= N.of_nat k <= 2 ^ 53 -> N.of_nat n <= 2 ^ 60 -> (0 < b)%nat ->
  (INR n - INR b * (1 + / 500000) <= ideal_filter_estimate b (N.to_nat 32768) k n (fun x => IZR (Z.of_N (estimate_count L 32768 (N.of_nat x) (N.of_nat k)))))%R.
Proof.
  intros HL HI Hk Hn Hb. unfold ideal_filter_estimate. pose proof (fun n' => C82_v2_lower L k n' HL HI Hk) as B. revert B. generalize (N.to_nat 32768). intros m B.
  rewrite <- (seq_const b n (INR n - INR b * (1 + / 500000))%R Hb []) at 1. apply seq_le; [constructor|]. intros l Hl El. cbn [length] in El. rewrite Nat.add_0_r in El.
  apply Rle_trans with (sum_below b (fun j => INR (count_in j l) + - (1 + / 500000)))%R.
  - rewrite sum_plus, sum_const, sum_count_in, El by exact Hl. right. ring.
  - apply sum_le. intros j _. apply B. assert (count_in j l <= length l)%nat by apply filter_le. lia.
Qed.
Print Assumptions C82_v2_filter_lower.

(** Three entries each, five in all. *)
Example C82_v2_answer_example : exists Ka Ca Kb Cb, v2_kept ex_wy ref_libm fa3 Ka Ca /\ v2_kept ex_wy ref_libm fc3 Kb Cb /\ v2_union_merge Debug ref_libm fa3 fc3 = (fu, Ok tt) /\
  (forall x, Ka x \/ Kb x <-> In x [KSlice [7]; KSlice [5; 6]; KSlice [1; 2; 3]; KSlice [15; 6]; KSlice [11; 2; 3]]) /\ v2_count_estimate fu = 5.
Proof.
  pose proof (vk_make ex_wy ref_libm Release 4 p001 ONone fn0 ltac:(reflexivity) ltac:(reflexivity) fn0_eq) as H0.
  pose proof (vk_insert _ _ _ _ _ _ _ _ _ (vk_insert _ _ _ _ _ _ _ _ _ (vk_insert _ _ _ _ _ _ _ _ _ H0 (slice_ok [1; 2; 3] ltac:(bytes)) fa1_eq) (slice_ok [5; 6] ltac:(bytes)) fa2_eq) (slice_ok [7] ltac:(bytes)) fa3_eq) as Ha.
  pose proof (vk_insert _ _ _ _ _ _ _ _ _ (vk_insert _ _ _ _ _ _ _ _ _ (vk_insert _ _ _ _ _ _ _ _ _ H0 (slice_ok [11; 2; 3] ltac:(bytes)) fc1_eq) (slice_ok [15; 6] ltac:(bytes)) fc2_eq) (slice_ok [7] ltac:(bytes)) fc3_eq) as Hc.
  do 4 eexists. split; [exact Ha|]. split; [exact Hc|]. split; [exact fu_eq|]. split; [|reflexivity]. intro x. cbn [In]. intuition congruence.
Qed.
(** A bucket filled to its capacity (3418 entries, 7 positions each): on average between 3416.9 and 3418.4. *)
Example C82_v2_average_example : v2_bucket_cap ref_libm p001 = 3418 /\ v2_n_hash_buck fn0 = 7 /\
  (3416.9 <= ideal_estimate (N.to_nat 32768) 7 3418 (fun x => IZR (Z.of_N (estimate_count real_libm 32768 (N.of_nat x) 7))) <= 3418.4)%R.
Proof.
  split; [vm_compute; reflexivity|]. split; [reflexivity|]. pose proof (C82_v2_average real_libm 7 3418 real_libm_accurate ltac:(lia) ltac:(lia)) as H. change (N.of_nat 7) with 7 in H.
  assert (E : INR 3418 = 3418%R) by (rewrite INR_IZR_INZ; f_equal). rewrite E in H. assert (E7 : INR 7 = 7%R) by (cbn; lra). rewrite E7 in H. lra.
Qed.
(** 1000 such buckets filled with 3418000 entries. *)
Example C82_v2_filter_example :
  (3416999 <= ideal_filter_estimate 1000 (N.to_nat 32768) 7 (N.to_nat 3418000) (fun x => IZR (Z.of_N (estimate_count real_libm0 32768 (N.of_nat x) 7))))%R.
Proof.
  pose proof (N2Nat.id 3418000) as En. revert En. generalize (N.to_nat 3418000). intros n En. pose proof (C82_v2_filter_lower real_libm0 1000 7 n real_libm0_accurate eq_refl ltac:(lia) ltac:(lia) ltac:(lia)) as H. change (N.of_nat 7) with 7 in H.
  assert (E : INR n = 3418000%R) by (rewrite INR_IZR_INZ, <- nat_N_Z, En; reflexivity). assert (E' : INR 1000 = 1000%R) by (rewrite INR_IZR_INZ; f_equal). rewrite E, E' in H. lra.
Qed.
(** 100 entries in a v1 filter of 958 bits. *)
Example C82_v1_average_example : (98.9 <= ideal_estimate 958 7 100 (fun x => IZR (Z.of_N (estimate_count real_libm 958 (N.of_nat x) 7))) <= 100.4)%R /\ v1_bit_size m0 = 958 /\ v1_n_hash m0 = 7.
Proof.
  split; [|split; reflexivity]. pose proof (C82_v1_average real_libm 958 7 100 real_libm_accurate ltac:(lia) ltac:(lia) ltac:(lia)) as H. change (N.of_nat 7) with 7 in H. change (N.of_nat 958) with 958 in H.
  assert (E : INR 100 = 100%R) by (rewrite INR_IZR_INZ; f_equal). rewrite E in H. assert (E7 : INR 7 = 7%R) by (cbn; lra). rewrite E7 in H. lra.
Qed.
(** Three entries each in filters for four: the union of the six counts 5. *)
Example C82_v1_answer_example : exists Ka Kb g, v1_kept ref_libm a3 Ka /\ v1_kept ref_libm c3 Kb /\ v1_union_merge ref_libm a3 c3 = (g, Ok tt) /\
  (forall x, Ka x \/ Kb x <-> In x [[7]; [5; 6]; [1; 2; 3]; [17]; [15; 6]; [11; 2; 3]]) /\ v1_bit_size a3 = 38 /\ v1_count_estimate g = 5.
Proof.
  assert (K0 : v1_kept ref_libm e0 (fun _ => False)) by exact (k1_make ref_libm 4 p001 e0 ltac:(reflexivity) ltac:(reflexivity) e0_eq).
  pose proof (k1_insert _ _ _ _ _ _ _ (k1_insert _ _ _ _ _ _ _ (k1_insert _ _ _ _ _ _ _ K0 a1_eq) a2_eq) a3_eq) as Ka. pose proof (k1_insert _ _ _ _ _ _ _ (k1_insert _ _ _ _ _ _ _ (k1_insert _ _ _ _ _ _ _ K0 c1_eq) c2_eq) c3_eq) as Kc.
  do 2 eexists. exists (fst (v1_union_merge ref_libm a3 c3)). split; [exact Ka|]. split; [exact Kc|]. split; [vm_compute; reflexivity|]. split; [|split; [reflexivity|vm_compute; reflexivity]]. intro x. cbn [In]. intuition congruence.
Qed.
