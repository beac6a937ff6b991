(** v1 filters whose number of bits is a power of two (C78). *)
From Coq Require Import Lia Reals Lra List FinFun.
Import ListNotations.
From Verif Require Import M_V1 M_RefLibm Spec_Bits Spec_Hash Spec_V1 P_Base P_V1 P_V1Codec P_V1Hist Ex_Base Ex_V1 Prop_V1 Spec_Real Spec_Rate P_Rate P_RateFloat Prop_Rate.
Open Scope N_scope.

(** ** The sequence of hash values *)
(** The product of step [n] is reduced modulo 2^64 before it is reduced modulo the prime; the second reduction changes it only
    when it is one of the 59 largest values. *)
Definition plain_step (d : list N) (n : nat) : Prop := (dcso_h d n * 18446744073709550147) mod 2 ^ 64 < 18446744073709551557.
Lemma plain_dcso d n : plain_step d n -> dcso_h d (S n) = (dcso_h d n * 18446744073709550147) mod 2 ^ 64.
Proof. intro H. cbn [dcso_h]. apply N.mod_small. exact H. Qed.
Lemma mod_mod_pow2 x a b : a <= b -> (x mod 2 ^ b) mod 2 ^ a = x mod 2 ^ a.
Proof.
  intro H. replace b with (a + (b - a)) by lia. rewrite N.pow_add_r. rewrite N.mod_mul_r by (apply N.pow_nonzero; discriminate).
  rewrite N.mul_comm, N.mod_add by (apply N.pow_nonzero; discriminate). apply N.mod_mod, N.pow_nonzero. discriminate.
Qed.
(** Modulo a power of two, each hash value is a fixed multiple of the preceding one. *)
Lemma step_pow2 d n a : a <= 64 -> plain_step d n -> dcso_h d (S n) mod 2 ^ a = (dcso_h d n mod 2 ^ a * 18446744073709550147) mod 2 ^ a.
Proof. intros A H. rewrite (plain_dcso d n H), mod_mod_pow2 by exact A. rewrite N.mul_mod_idemp_l by (apply N.pow_nonzero; discriminate). reflexivity. Qed.
Lemma same_from d e a n k : a <= 64 -> dcso_h d n mod 2 ^ a = dcso_h e n mod 2 ^ a -> (forall i, (i < k)%nat -> plain_step d (n + i) /\ plain_step e (n + i)) ->
  forall i, (i <= k)%nat -> dcso_h d (n + i) mod 2 ^ a = dcso_h e (n + i) mod 2 ^ a.
Proof.
  intros A E H i. induction i as [|i IH]; intro Hi; [now rewrite Nat.add_0_r|]. rewrite <- plus_n_Sm. destruct (H i ltac:(lia)) as [Hd He].
  rewrite !step_pow2 by auto. now rewrite IH by lia.
Qed.

(** * C78 The hash functions of a v1 filter *)
(** When 2^a divides the number of bits, the last [a] bits of the first position determine those of all positions. *)
Theorem C78_low_bits k m d e a i : a <= 64 -> m mod 2 ^ a = 0 -> m <> 0 -> (forall n, (1 <= n < N.to_nat k)%nat -> plain_step d n /\ plain_step e n) ->
  nth 0 (dcso_positions k m d) 0 mod 2 ^ a = nth 0 (dcso_positions k m e) 0 mod 2 ^ a ->
  nth i (dcso_positions k m d) 0 mod 2 ^ a = nth i (dcso_positions k m e) 0 mod 2 ^ a.
Proof.
  intros A Hm M0 H E. assert (P : 2 ^ a <> 0) by (apply N.pow_nonzero; discriminate).
  assert (Q : forall x, x mod m mod 2 ^ a = x mod 2 ^ a).
  { intro x. pose proof (N.div_mod m (2 ^ a) P) as D. rewrite Hm, N.add_0_r in D. rewrite D. assert (m / 2 ^ a <> 0) by (intro Z; rewrite Z, N.mul_0_r in D; contradiction).
    rewrite N.mod_mul_r by auto. rewrite N.mul_comm, N.mod_add by auto. now apply N.mod_mod. }
  assert (G : forall x j, (j < N.to_nat k)%nat -> nth j (dcso_positions k m x) 0 mod 2 ^ a = dcso_h x (S j) mod 2 ^ a).
  { intros x j Hj. unfold dcso_positions. set (F := fun i : nat => dcso_h x (S i) mod m). rewrite (nth_indep _ 0 (F 0%nat)) by (rewrite map_length, seq_length; exact Hj).
    rewrite map_nth, seq_nth by exact Hj. apply Q. }
  destruct (Nat.lt_ge_cases i (N.to_nat k)) as [Hi|Hi].
  - rewrite !G in * by lia. change (S i) with (1 + i)%nat. apply (same_from d e a 1 i A E); [|lia]. intros j Hj. apply H. lia.
  - rewrite !nth_overflow by (unfold dcso_positions; rewrite map_length, seq_length; exact Hi). reflexivity.
Qed.
Print Assumptions C78_low_bits.
(** In particular with 2^a bits all the positions are determined by the first one. *)
Theorem C78_one_position k a d e : a <= 64 -> (forall n, (1 <= n < N.to_nat k)%nat -> plain_step d n /\ plain_step e n) ->
  hd 0 (dcso_positions k (2 ^ a) d) = hd 0 (dcso_positions k (2 ^ a) e) -> dcso_positions k (2 ^ a) d = dcso_positions k (2 ^ a) e.
Proof.
  intros A H E. assert (P : 2 ^ a <> 0) by (apply N.pow_nonzero; discriminate).
  assert (Ln : forall x, length (dcso_positions k (2 ^ a) x) = N.to_nat k) by (intro; unfold dcso_positions; now rewrite map_length, seq_length).
  assert (B : forall x i, nth i (dcso_positions k (2 ^ a) x) 0 mod 2 ^ a = nth i (dcso_positions k (2 ^ a) x) 0).
  { intros x i. apply N.mod_small. destruct (nth_in_or_default i (dcso_positions k (2 ^ a) x) 0) as [I|Z]; [|rewrite Z; lia]. revert I. generalize (nth i (dcso_positions k (2 ^ a) x) 0). intros y I. unfold dcso_positions in I. apply in_map_iff in I as (j & <- & _). now apply N.mod_lt. }
  apply nth_ext with 0 0; [now rewrite !Ln|]. intros i _. rewrite <- (B d), <- (B e). apply C78_low_bits; auto; [now apply N.mod_same|].
  rewrite !B. destruct (dcso_positions k (2 ^ a) d) eqn:D, (dcso_positions k (2 ^ a) e) eqn:F; cbn in E |- *; auto.
Qed.
Print Assumptions C78_one_position.
(** So such a filter accepts everything that shares its first position with an entry, as a filter with a single hash function does. *)
Theorem C78_accepts L f K a x d : v1_kept L f K -> v1_bit_size f = 2 ^ a -> a <= 64 -> K x -> (forall n, (1 <= n < N.to_nat (v1_n_hash f))%nat -> plain_step d n /\ plain_step x n) ->
  hd 0 (v1_positions f d) = hd 0 (v1_positions f x) -> v1_contains_bytes f d = Ok true.
Proof.
  intros H B A Kx S E. apply (C03_v1_exact L f K d H). split; [rewrite B; apply N.pow_nonzero; discriminate|]. unfold v1_positions in *. rewrite B in *.
  rewrite (C78_one_position _ a d x A S E). eauto.
Qed.
Print Assumptions C78_accepts.
(** The exceptions: 59 of the 2^64 hash values. *)
Theorem C78_exceptions : exists l, NoDup l /\ length l = 59%nat /\ forall h, h < 2 ^ 64 -> (In h l <-> 18446744073709551557 <= (h * 18446744073709550147) mod 2 ^ 64).
Proof.
  set (inv := 14805113181009912427). set (g := 18446744073709550147).
  assert (IG : (inv * g) mod 2 ^ 64 = 1) by (vm_compute; reflexivity). assert (P : 2 ^ 64 <> 0) by discriminate.
  assert (L1 : forall h, h < 2 ^ 64 -> (((h * g) mod 2 ^ 64) * inv) mod 2 ^ 64 = h).
  { intros h Hh. rewrite N.mul_mod_idemp_l, <- N.mul_assoc, (N.mul_comm g inv) by exact P. rewrite <- N.mul_mod_idemp_r, IG, N.mul_1_r by exact P. now apply N.mod_small. }
  assert (L2 : forall y, y < 2 ^ 64 -> (((y * inv) mod 2 ^ 64) * g) mod 2 ^ 64 = y).
  { intros h Hh. rewrite N.mul_mod_idemp_l, <- N.mul_assoc by exact P. rewrite <- N.mul_mod_idemp_r, IG, N.mul_1_r by exact P. now apply N.mod_small. }
  set (ys := map (fun i => 18446744073709551557 + N.of_nat i) (seq 0 59)). exists (map (fun y => (y * inv) mod 2 ^ 64) ys).
  assert (Y : forall y, In y ys <-> 18446744073709551557 <= y /\ y < 2 ^ 64).
  { intro y. unfold ys. rewrite in_map_iff. split.
    - intros (i & <- & I). apply in_seq in I. change (2 ^ 64) with 18446744073709551616. lia.
    - intros [A B]. change (2 ^ 64) with 18446744073709551616 in B. exists (N.to_nat (y - 18446744073709551557)). split; [lia|]. apply in_seq. lia. }
  split; [|split].
  - assert (ND : NoDup ys). { unfold ys. apply FinFun.Injective_map_NoDup; [|apply seq_NoDup]. intros i j E. lia. }
    assert (G : forall l, NoDup l -> (forall y, In y l -> In y ys) -> NoDup (map (fun y => (y * inv) mod 2 ^ 64) l)).
    { induction l as [|y l IH]; intros N I; [constructor|]. inversion N as [|? ? N1 N2]; subst. cbn [map]. constructor; [|apply IH; auto; intros; apply I; now right].
      intro J. apply in_map_iff in J as (z & E & Iz). apply N1. replace y with z; [exact Iz|]. rewrite <- (L2 z), <- (L2 y), E; [reflexivity|apply Y, I; now left|apply Y, I; now right]. }
    apply G; auto.
  - now rewrite map_length; unfold ys; rewrite map_length, seq_length.
  - intros h Hh. rewrite in_map_iff. split.
    + intros (y & <- & I). apply Y in I as [A B]. rewrite L2 by exact B. exact A.
    + intro A. exists ((h * g) mod 2 ^ 64). split; [now apply L1|]. apply Y. split; [exact A|now apply N.mod_lt].
Qed.
Print Assumptions C78_exceptions.

(** The capacity of the test test_show_bug_in_v1 of v1.rs, 109397 entries at 1%: 2^20 bits. "bqks" inserted alone makes "cbaa" appear. *)
Theorem C78_refuted : exists f g, v1_with_capacity ref_libm 109397 p001 = Ok f /\ v1_bit_size f = 2 ^ 20 /\ v1_n_hash f = 7 /\
  (forall pr, v1_insert_bytes pr f [98; 113; 107; 115] = (g, Ok true)) /\ v1_contains_bytes g [99; 98; 97; 97] = Ok true.
Proof.
  exists (mk1 109397 p001), (ins1 (mk1 109397 p001) [98; 113; 107; 115]). split; [vm_compute; reflexivity|]. split; [vm_compute; reflexivity|]. split; [vm_compute; reflexivity|].
  split; [intros []; vm_compute; reflexivity|vm_compute; reflexivity].
Qed.
Print Assumptions C78_refuted.
(** When first positions are spread evenly, a full filter of this size therefore has a rate of more than 9%, instead of 1%. *)
Theorem C78_rate_refuted : exists f, v1_with_capacity ref_libm 109397 p001 = Ok f /\ (sf_R (sf_of_bits p001) < 0.0101)%R /\
  (9 / 100 < ideal_rate (N.to_nat (v1_bit_size f)) 1 (N.to_nat 109397))%R.
Proof.
  exists (mk1 109397 p001). split; [vm_compute; reflexivity|]. split.
  - assert (S : sf_of_bits p001 = S754_finite false 5764607523034235 (-59)) by (vm_compute; reflexivity). rewrite S. unfold sf_R, powerRZ. change (Pos.to_nat 59) with 59%nat. lra.
  - replace (v1_bit_size (mk1 109397 p001)) with 1048576 by (vm_compute; reflexivity). refine (Rlt_le_trans _ _ _ _ (formula_lower _ 1 _ _)); [|lia]. unfold formula_rate.
    rewrite !INR_N. cbn [INR Z.of_N]. rewrite pow_1.
    assert (E : (exp (- (1 * 109397 / 1048576)) <= / (1 + 109397 / 1048576))%R).
    { rewrite exp_Ropp. apply Rinv_le_contravar; [lra|]. pose proof (exp_ineq1 (1 * 109397 / 1048576) ltac:(lra)). lra. }
    lra.
Qed.
Print Assumptions C78_rate_refuted.
(** Nor is it the multiplication modulo the prime that the comment at v1.rs:15 describes. *)
Theorem C78_comment_refuted : exists d, dcso_h d 1 <> (dcso_h d 0 * 18446744073709550147) mod 18446744073709551557.
Proof. exists [98; 97; 114]. vm_compute. discriminate. Qed.
Print Assumptions C78_comment_refuted.
(** The hypotheses of C78_one_position for these two entries. *)
Example C78_example : (forall n, (1 <= n < 7)%nat -> plain_step [98; 113; 107; 115] n /\ plain_step [99; 98; 97; 97] n) /\
  dcso_positions 7 (2 ^ 20) [98; 113; 107; 115] = dcso_positions 7 (2 ^ 20) [99; 98; 97; 97] /\ dcso_positions 7 1048577 [98; 113; 107; 115] <> dcso_positions 7 1048577 [99; 98; 97; 97].
Proof.
  assert (S : forall n, (1 <= n < 7)%nat -> plain_step [98; 113; 107; 115] n /\ plain_step [99; 98; 97; 97] n).
  { intros n H. destruct n as [|[|[|[|[|[|[|n]]]]]]]; try lia; unfold plain_step; split; vm_compute; reflexivity. }
  split; [exact S|]. split; [apply C78_one_position; [lia|exact S|vm_compute; reflexivity]|vm_compute; discriminate].
Qed.
