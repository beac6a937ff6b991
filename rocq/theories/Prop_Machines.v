(** C113: the same parameters on two machines. *)
From Coq Require Import Lia Reals Lra List ZArith.
Import ListNotations.
From Flocq Require Import Core.
From Verif Require Import M_Base M_Float M_Util M_V1 M_V2 M_Bloom M_RefLibm Spec_Bits Spec_Libm Spec_Real P_Base P_Float P_Real P_RealLibm P_V2Make P_V2Size P_V2Merge Prop_Size.
Open Scope N_scope.

(** A C library as good as the theorems about sizes ask. *)
Definition good_libm (L : libm) : Prop := libm_accurate L /\ libm_ln2_sq L /\ libm_ln1 L /\ libm_ln_range L.

(** ** What is used of the C library *)
(** Full statement: the same version, capacity, rate and level give filters of the same shape on every machine. True if the two libraries agree on three
    values; without an index cache. *)
Theorem C113_same_partial pr L L' cap p : lm_ln L f_two = lm_ln L' f_two -> lm_powf L (lm_ln L f_two) f_two = lm_powf L' (lm_ln L' f_two) f_two ->
  lm_ln L (sf_of_bits p) = lm_ln L' (sf_of_bits p) -> v1_with_capacity L cap p = v1_with_capacity L' cap p /\ v2_make pr L cap p ONone = v2_make pr L' cap p ONone /\ v2_make pr L cap p OSpace = v2_make pr L' cap p OSpace.
Proof.
  intros A B C. unfold v1_with_capacity, v2_make, bu_bit_size, bu_cap_from_bit_size, bu_k, ln2_sq, ln2 in *. rewrite B, A, C. auto.
Qed.

(** With an index cache, a fourth value: the rate that estimate_p gives for the cache. *)
Theorem C113_same_cache_partial pr L L' cap p opt : lm_ln L f_two = lm_ln L' f_two -> lm_powf L (lm_ln L f_two) f_two = lm_powf L' (lm_ln L' f_two) f_two ->
  lm_ln L (sf_of_bits p) = lm_ln L' (sf_of_bits p) -> (forall c, next_power_of_two pr cap = Ok c -> bu_estimate_p L cap c = bu_estimate_p L' cap c) -> v2_make pr L cap p opt = v2_make pr L' cap p opt.
Proof.
  intros A B C D. destruct (C113_same_partial pr L L' cap p A B C) as (_ & E1 & E2). destruct opt; [exact E1|exact E2| |]; unfold v2_make, bu_cap_from_bit_size, v2_cached_n_hash, bu_k, ln2_sq, ln2 in *; rewrite B, A, C;
    (destruct (next_power_of_two pr cap) as [c| |] eqn:En; cbn [obind]; [rewrite (D c eq_refl)| |]; reflexivity).
Qed.

Open Scope R_scope.
Lemma pow47 : powerRZ 2 (-47) = / 140737488355328. Proof. change 2 with (IZR radix2). rewrite <- bpow_powerRZ. reflexivity. Qed.
Lemma pow48 : powerRZ 2 (-48) = / 281474976710656. Proof. change 2 with (IZR radix2). rewrite <- bpow_powerRZ. reflexivity. Qed.
Lemma pow50 : powerRZ 2 (-50) = / 1125899906842624. Proof. change 2 with (IZR radix2). rewrite <- bpow_powerRZ. reflexivity. Qed.
Lemma pow59 : powerRZ 2 (-59) = / 576460752303423488. Proof. change 2 with (IZR radix2). rewrite <- bpow_powerRZ. reflexivity. Qed.
(** However they differ, the sizes are close: version 1 sizes up to 2^-47 of the optimum and one bit, capacities of buckets by at most one at rates up to 1/2. *)
Theorem C113_v1_close L L' cap p f f' : libm_accurate L -> libm_accurate L' -> (cap < two64)%N -> v1_with_capacity L cap p = Ok f -> v1_with_capacity L' cap p = Ok f' -> (v1_bit_size f <> u64_max)%N -> (v1_bit_size f' <> u64_max)%N ->
  Rabs (IZR (Z.of_N (v1_bit_size f)) - IZR (Z.of_N (v1_bit_size f'))) <= optimal_bits cap (sf_R (sf_of_bits p)) * powerRZ 2 (-47) + 1.
Proof.
  intros A A' Hc E E' Nf Nf'. destruct (C36_v1_size L cap p f A Hc E) as [U [Q|D]]; [contradiction|]. destruct (C36_v1_size L' cap p f' A' Hc E') as [U' [Q'|D']]; [contradiction|].
  rewrite pow47. rewrite pow48 in *. set (o := optimal_bits cap _) in *. apply Rabs_le. lra.
Qed.
Theorem C113_v2_close L L' p : libm_accurate L -> libm_accurate L' -> fpp_in_range p = true -> sf_R (sf_of_bits p) <= / 2 -> (v2_bucket_cap L p <> u64_max)%N -> (v2_bucket_cap L' p <> u64_max)%N ->
  (v2_bucket_cap L p <= v2_bucket_cap L' p + 1 /\ v2_bucket_cap L' p <= v2_bucket_cap L p + 1)%N.
Proof.
  intros A A' R P Nf Nf'. destruct (C36_v2_bucket_capacity L p A R ltac:(lra)) as (_ & U & [Q|D]); [contradiction|]. destruct (C36_v2_bucket_capacity L' p A' R ltac:(lra)) as (_ & U' & [Q'|D']); [contradiction|].
  destruct (fpp_real p R) as [_ [B _]]. pose proof (bpow_gt_0 radix2 (-1022)) as B0.
  rewrite pow48 in *. set (o := 32768 * (ln 2 * ln 2) / _) in *.
  assert (O : 0 <= o <= 32768). { pose proof ln2_bounds as [L1 L2]. assert (X : ln 2 <= ln (/ sf_R (sf_of_bits p))). { apply P_Real.ln_le; [lra|]. rewrite <- (Rinv_inv 2). apply Rinv_le_contravar; lra. }
    unfold o. set (y := ln (/ _)) in *. clearbody y. assert (Y : 0 < y) by lra. assert (/ y <= / ln 2) by (apply Rinv_le_contravar; lra). assert (0 < / y) by (apply Rinv_0_lt_compat; lra).
    assert (M : ln 2 * / y <= 1). { apply Rle_trans with (ln 2 * / ln 2); [apply Rmult_le_compat_l; lra|]. rewrite Rinv_r by lra. lra. } assert (0 <= ln 2 * / y) by (apply Rmult_le_pos; lra).
    unfold Rdiv. replace (32768 * (ln 2 * ln 2) * / y) with (32768 * (ln 2 * (ln 2 * / y))) by ring. assert (0 <= ln 2 * (ln 2 * / y) <= 1); [|lra]. split; [apply Rmult_le_pos; lra|]. apply Rle_trans with (1 * 1); [apply Rmult_le_compat; lra|lra]. }
  clearbody o. split; apply N2Z.inj_le, Z.lt_succ_r, lt_IZR; rewrite N2Z.inj_add, succ_IZR, plus_IZR; change (IZR (Z.of_N 1)) with 1; lra.
Qed.

(** ** Two machines *)
(** The rate 0.007815760132910994. *)
Definition pm : f64_bits := 4575659100747094417%N.
(** The two doubles around ln of it. *)
Definition ln_up : spec_float := S754_finite true 5462430685480107 (-50).
Definition ln_down : spec_float := S754_finite true 5462430685480108 (-50).
(** A machine that rounds ln pm to y and is right elsewhere. *)
Definition machine (y : spec_float) : libm :=
  {| lm_ln := fun z => match z with S754_finite false m e => if ((m =? 4505478966040977)%positive && (e =? -59)%Z)%bool then y else lm_ln real_libm z | _ => lm_ln real_libm z end;
     lm_exp := lm_exp real_libm; lm_powf := lm_powf real_libm |}.
Lemma machine_ln y z : lm_ln (machine y) z = lm_ln real_libm z \/ z = sf_of_bits pm /\ lm_ln (machine y) z = y.
Proof.
  destruct z as [| | |[] m e]; try (left; reflexivity). cbn [machine lm_ln]. destruct (Pos.eqb_spec m 4505478966040977) as [->|]; [|left; reflexivity]. destruct (Z.eqb_spec e (-59)) as [->|]; [|left; reflexivity]. right. split; [vm_compute|]; reflexivity.
Qed.
Lemma lnq2 x : 0 < x <= / 4000 -> 0 <= lnq 2 x <= / 100000000000000000.
Proof.
  intros Hx. destruct (MVT_cor2 (lnq 2) (fun t => 2 * (t * t) ^ 2 / (1 - t * t)) 0 x) as (c & E & C); [lra|intros c C; apply lnq_deriv; lra|].
  assert (L0 : lnq 2 0 = 0). { unfold lnq. cbn [atanh_sum]. rewrite Rplus_0_r, Rminus_0_r, ln_1. rewrite !pow_i by lia. unfold Rdiv. ring. }
  rewrite L0, !Rminus_0_r in E. rewrite E. assert (T : 0 <= c * c <= / 16000000) by (split; [nra|]; apply Rle_trans with (/ 4000 * / 4000); [apply Rmult_le_compat; lra|lra]).
  assert (P : 0 <= (c * c) ^ 2 <= / 256000000000000). { cbn [pow]. rewrite Rmult_1_r. split; [apply Rmult_le_pos; lra|]. apply Rle_trans with (/ 16000000 * / 16000000); [apply Rmult_le_compat; lra|lra]. }
  assert (D : 0 < / (1 - c * c) <= 2). { split; [apply Rinv_0_lt_compat; lra|]. rewrite <- (Rinv_inv 2). apply Rinv_le_contravar; lra. }
  unfold Rdiv. set (q := (c * c) ^ 2) in *. set (i := / (1 - c * c)) in *. clearbody q i. assert (Q : 0 <= 2 * q * i <= / 64000000000000 * 1) by (split; [apply Rmult_le_pos; lra|]; apply Rle_trans with (2 * / 256000000000000 * 2); [apply Rmult_le_compat; lra|lra]).
  split; [apply Rmult_le_pos; lra|]. apply Rle_trans with (/ 64000000000000 * / 4000); [apply Rmult_le_compat; lra|lra].
Qed.
Lemma ln2_tight : 6243314768165359.2 < ln 2 * 9007199254740992 < 6243314768165359.22.
Proof.
  pose proof (ln2_series 20) as [A B]. cbn [atanh_sum pow Nat.mul Nat.add] in A, B.
  repeat match goal with H : context [INR ?n] |- _ => let z := eval vm_compute in (Z.of_nat n) in change (INR n) with (INR (Z.to_nat z)) in H; rewrite (INR_IZR_INZ (Z.to_nat z)) in H; change (Z.of_nat (Z.to_nat z)) with z in H end.
  split; lra.
Qed.
(** ln of the rate, to 16 digits. *)
Lemma ln_pm : - 5462430685480107.7 < ln (sf_R (sf_of_bits pm)) * 1125899906842624 < - 5462430685480107.2.
Proof.
  assert (V : sf_R (sf_of_bits pm) = 4505478966040977 * / 576460752303423488). { change (sf_of_bits pm) with (S754_finite false 4505478966040977 (-59)). unfold sf_R. rewrite pow59. reflexivity. }
  rewrite V. set (x := 1879338670481 / 9009078593411473).
  assert (T : ln (4505478966040977 * / 576460752303423488) = ln (1 + x) - ln (1 - x) - 7 * ln 2).
  { replace (7 * ln 2) with (ln (2 ^ 7)) by (rewrite ln_pow by lra; cbn [INR]; ring). unfold Rminus. rewrite <- !ln_Rinv by (unfold x; lra). rewrite <- !ln_mult by (unfold x; first [apply Rinv_0_lt_compat; lra|apply Rmult_lt_0_compat; [lra|apply Rinv_0_lt_compat; lra]|lra]). f_equal. unfold x. field. }
  rewrite T. destruct (lnq2 x) as [A B]; [unfold x; lra|]. unfold lnq in A, B. cbn [atanh_sum pow Nat.mul Nat.add] in A, B. cbn [INR] in A, B. pose proof ln2_tight as [L1 L2].
  set (d := ln (1 + x) - ln (1 - x)) in *. clearbody d. unfold x in *. clear x T V. lra.
Qed.

(** Both doubles are within one unit in the last place. *)
Lemma machine_near y : y = ln_up \/ y = ln_down -> near y (ln (sf_R (sf_of_bits pm))) /\ Rabs (sf_R y - ln (sf_R (sf_of_bits pm))) < powerRZ 2 (-50).
Proof.
  intro H. pose proof ln_pm as [A B]. set (l := ln (sf_R (sf_of_bits pm))) in *. clearbody l.
  assert (V : sf_R ln_up = - 5462430685480107 * / 1125899906842624 /\ sf_R ln_down = - 5462430685480108 * / 1125899906842624) by (unfold ln_up, ln_down, sf_R; rewrite pow50; split; lra). destruct V as [V1 V2].
  unfold near. rewrite pow50, (Rabs_left l) by lra. split; [split|].
  - destruct H as [->| ->]; (split; [vm_compute; reflexivity|exact I]).
  - destruct H as [->| ->]; rewrite ?V1, ?V2; apply Rabs_le; lra.
  - destruct H as [->| ->]; rewrite ?V1, ?V2; apply Rabs_lt; lra.
Qed.
Lemma machine_good y : y = ln_up \/ y = ln_down -> good_libm (machine y).
Proof.
  intro H. destruct real_libm_meets_all as ([A1 A2] & B & C & D). split; [split|split; [|split]].
  - intros x Vx X1 X2. destruct (machine_ln y x) as [->|[-> ->]]; [exact (A1 x Vx X1 X2)|]. exact (proj1 (machine_near y H)).
  - exact A2.
  - exact B.
  - exact C.
  - intros x Vx X1 X2. cbv zeta. destruct (machine_ln y x) as [->|[-> ->]]; [exact (D x Vx X1 X2)|]. right. right. destruct H as [->| ->]; vm_compute; auto.
Qed.
(** A computable library with the same three values. *)
Definition table (y : spec_float) : libm :=
  {| lm_ln := fun z => match z with S754_finite false 4505478966040977 _ => y | _ => S754_finite false 6243314768165359 (-53) end; lm_exp := fun x => x; lm_powf := fun _ _ => S754_finite false 8655072057804174 (-54) |}.
Lemma machine_table y : y = ln_up \/ y = ln_down -> lm_ln (machine y) f_two = lm_ln (table y) f_two /\ lm_powf (machine y) (lm_ln (machine y) f_two) f_two = lm_powf (table y) (lm_ln (table y) f_two) f_two /\ lm_ln (machine y) (sf_of_bits pm) = lm_ln (table y) (sf_of_bits pm).
Proof. intro H. destruct (machine_good y H) as (_ & [B1 B2] & _). rewrite B2, B1. repeat split. Qed.
(** The same arguments, 3245 entries at that rate: one bucket on one machine, two on the other, 32767 bits or 32768. Neither accepts the filter of the other in a union, an
    intersection or a count of common entries. *)
Theorem C113_v2_refuted : exists L L' p, good_libm L /\ good_libm L' /\ (forall x, x <> sf_of_bits p -> lm_ln L x = lm_ln L' x) /\ Rabs (sf_R (lm_ln L (sf_of_bits p)) - sf_R (lm_ln L' (sf_of_bits p))) <= powerRZ 2 (-50) /\
  forall pr, exists f g, v2_make pr L 3245 p ONone = Ok f /\ v2_make pr L' 3245 p ONone = Ok g /\ len (v2_buckets f) = 1%N /\ len (v2_buckets g) = 2%N /\
    v2_union_merge pr L f g = (f, Err Merge) /\ v2_union_merge pr L' g f = (g, Err Merge) /\ v2_intersection_merge pr L f g = (f, Err Merge) /\ v2_count_common_entries pr L f g = Err Merge.
Proof.
  exists (machine ln_up), (machine ln_down), pm. split; [apply machine_good; auto|]. split; [apply machine_good; auto|]. split; [|split].
  - intros x Hx. destruct (machine_ln ln_up x) as [->|[E _]]; [|contradiction]. destruct (machine_ln ln_down x) as [->|[E _]]; [reflexivity|contradiction].
  - change (lm_ln (machine ln_up) (sf_of_bits pm)) with ln_up. change (lm_ln (machine ln_down) (sf_of_bits pm)) with ln_down. unfold ln_up, ln_down, sf_R. rewrite pow50. apply Rabs_le. lra.
  - intro pr. destruct (machine_table ln_up (or_introl eq_refl)) as (A1 & A2 & A3). destruct (machine_table ln_down (or_intror eq_refl)) as (B1 & B2 & B3).
    rewrite (proj1 (proj2 (C113_same_partial pr _ _ 3245 pm A1 A2 A3))), (proj1 (proj2 (C113_same_partial pr _ _ 3245 pm B1 B2 B3))). eexists. eexists. split; [destruct pr; vm_compute; reflexivity|]. split; [destruct pr; vm_compute; reflexivity|].
    repeat split; vm_compute; reflexivity.
Qed.
Theorem C113_v1_refuted : exists L L' p, good_libm L /\ good_libm L' /\ (forall x, x <> sf_of_bits p -> lm_ln L x = lm_ln L' x) /\ Rabs (sf_R (lm_ln L (sf_of_bits p)) - sf_R (lm_ln L' (sf_of_bits p))) <= powerRZ 2 (-50) /\
  exists f g, v1_with_capacity L 3245 p = Ok f /\ v1_with_capacity L' 3245 p = Ok g /\ v1_bit_size f = 32767%N /\ v1_bit_size g = 32768%N /\ v1_union_merge L f g = (f, Err Merge) /\ v1_union_merge L' g f = (g, Err Merge).
Proof.
  exists (machine ln_up), (machine ln_down), pm. split; [apply machine_good; auto|]. split; [apply machine_good; auto|]. split; [|split].
  - intros x Hx. destruct (machine_ln ln_up x) as [->|[E _]]; [|contradiction]. destruct (machine_ln ln_down x) as [->|[E _]]; [reflexivity|contradiction].
  - change (lm_ln (machine ln_up) (sf_of_bits pm)) with ln_up. change (lm_ln (machine ln_down) (sf_of_bits pm)) with ln_down. unfold ln_up, ln_down, sf_R. rewrite pow50. apply Rabs_le. lra.
  - destruct (machine_table ln_up (or_introl eq_refl)) as (A1 & A2 & A3). destruct (machine_table ln_down (or_intror eq_refl)) as (B1 & B2 & B3).
    rewrite (proj1 (C113_same_partial Debug _ _ 3245 pm A1 A2 A3)), (proj1 (C113_same_partial Debug _ _ 3245 pm B1 B2 B3)). eexists. eexists. split; [vm_compute; reflexivity|]. split; [vm_compute; reflexivity|].
    repeat split; vm_compute; reflexivity.
Qed.
(** Filters that are merged on two machines (of either build) differ at most in the recomputed count: they answer alike, and errors are the same. *)
Theorem C113_v1_merge L L' a b g r g' r' : v1_union_merge L a b = (g, r) -> v1_union_merge L' a b = (g', r') -> r = r' /\ forall d, v1_contains_bytes g d = v1_contains_bytes g' d.
Proof.
  unfold v1_union_merge. destruct (v1_has_same_params a b); cbn [negb]; [|intros [= <- <-] [= <- <-]; auto]. destruct (zip_with N.lor (v1_bitset a) (v1_bitset b)); intros [= <- <-] [= <- <-]; auto.
Qed.
Lemma upd_contains wy a c bs n n' d : v2_contains_bytes wy (v2_upd a c bs n) d = v2_contains_bytes wy (v2_upd a c bs n') d.
Proof. reflexivity. Qed.
Lemma upd_count pr L f g : v2_update_count pr L f = Ok g -> exists n, g = v2_upd f (v2_index_cache f) (v2_buckets f) n.
Proof. unfold v2_update_count. destruct (checked_sum _ _); cbn [obind]; intros [= <-]; eauto. Qed.
Lemma upd_no_err pr L f e : v2_update_count pr L f <> Err e.
Proof. unfold v2_update_count. rewrite checked_sum_spec. destruct (_ <? _)%N; [discriminate|]. destruct pr; discriminate. Qed.
Theorem C113_v2_merge wy pr pr' L L' a b g r g' r' : v2_union_merge pr L a b = (g, r) /\ v2_union_merge pr' L' a b = (g', r') \/ v2_intersection_merge pr L a b = (g, r) /\ v2_intersection_merge pr' L' a b = (g', r') ->
  (forall d, v2_contains_bytes wy g d = v2_contains_bytes wy g' d) /\ forall e, r = Err e <-> r' = Err e.
Proof.
  assert (G : forall vo ao, v2_merge_with vo ao pr L a b = (g, r) -> v2_merge_with vo ao pr' L' a b = (g', r') -> (forall d, v2_contains_bytes wy g d = v2_contains_bytes wy g' d) /\ forall e, r = Err e <-> r' = Err e).
  { intros vo ao. unfold v2_merge_with. destruct (v2_has_same_params a b); cbn [negb]; [|intros [= <- <-] [= <- <-]; split; [auto|tauto]]. destruct (vo _ _) as [c|e|]; [|intros [= <- <-] [= <- <-]; split; [auto|tauto] ..].
    destruct (zip_outcome ao _ _) as [bs|e|]; [|intros [= <- <-] [= <- <-]; split; [auto|tauto] ..]. set (f := v2_upd a c bs (v2_count a)).
    destruct (v2_update_count pr L f) as [h|e|] eqn:E1; [apply upd_count in E1 as (n & ->)|destruct (upd_no_err _ _ _ _ E1)|]; (destruct (v2_update_count pr' L' f) as [h'|e'|] eqn:E2; [apply upd_count in E2 as (n' & ->)|destruct (upd_no_err _ _ _ _ E2)|]); intros [= <- <-] [= <- <-]; (split; [reflexivity|split; discriminate]). }
  intros [[A B]|[A B]]; exact (G _ _ A B).
Qed.
Print Assumptions C113_same_partial.
Print Assumptions C113_same_cache_partial.
Print Assumptions C113_v1_close.
Print Assumptions C113_v2_close.
Print Assumptions C113_v2_refuted.
Print Assumptions C113_v1_refuted.
Print Assumptions C113_v1_merge.
Print Assumptions C113_v2_merge.
(** The two machines meet the hypotheses of the theorems about close sizes, and the bucket capacities differ by one. *)
Example C113_example : libm_accurate (machine ln_up) /\ libm_accurate (machine ln_down) /\ fpp_in_range pm = true /\ sf_R (sf_of_bits pm) <= / 2 /\ v2_bucket_cap (machine ln_up) pm = 3245%N /\ v2_bucket_cap (machine ln_down) pm = 3244%N.
Proof.
  destruct (machine_good ln_up (or_introl eq_refl)) as (A & A' & _). destruct (machine_good ln_down (or_intror eq_refl)) as (B & B' & _). split; [exact A|]. split; [exact B|]. split; [vm_compute; reflexivity|].
  split; [change (sf_of_bits pm) with (S754_finite false 4505478966040977 (-59)); unfold sf_R; rewrite pow59; lra|]. unfold v2_bucket_cap, bu_cap_from_bit_size, ln2_sq, ln2. rewrite (proj2 A'), (proj2 B'). split; vm_compute; reflexivity.
Qed.
(** A filter with one entry merged into an empty one; the second library is a bad one and gives another count. *)
Example C113_merge_example : exists f h g g', v2_make Release ref_libm 100 pm ONone = Ok f /\ v2_insert_bytes Release (fun _ => 77%N) f [1%N] = (h, Ok true) /\
  v2_union_merge Release ref_libm f h = (g, Ok tt) /\ v2_union_merge Debug (table ln_up) f h = (g', Ok tt) /\ v2_count g = 1%N /\ v2_count g' = 0%N /\ v2_contains_bytes (fun _ => 77%N) g [1%N] = Ok true.
Proof. eexists. eexists. eexists. eexists. split; [vm_compute; reflexivity|]. split; [vm_compute; reflexivity|]. split; [vm_compute; reflexivity|]. split; [vm_compute; reflexivity|]. repeat split; vm_compute; reflexivity. Qed.
