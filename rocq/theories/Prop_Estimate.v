(** The rate a v1 filter estimates for itself (C69). *)
From Coq Require Import Lia Reals Lra List SpecFloat.
Import ListNotations.
From Verif Require Import M_V1 M_RefLibm Spec_Bits Spec_V1 P_Base P_V1 P_V1Codec P_V1Hist P_V1More P_V1Size Spec_Real Spec_Rate Prop_Rate Ex_Base Ex_V1.
Open Scope R_scope.

Lemma v1_kept_k L f K : v1_kept L f K -> v1_n_hash f = bu_k L (v1_bit_size f) (v1_capacity f).
Proof.
  induction 1 as [cap fpp f Hc Hf E|pr f K d g b H IH E|pr f K d g e H IH E|f K H IH|a b Ka Kb g Ha IHa Hb IHb E|f K d H IH Hd|pr f K g H IH E].
  - apply v1_make_created in E. rewrite (c1_n_hash _ _ _ _ E), (c1_capacity _ _ _ _ E). reflexivity.
  - pose proof (v1_kept_inv _ _ _ H) as (W & _). pose proof (i1_frame _ _ _ _ _ (v1_insert_sem _ _ _ _ _ W E)) as (_ & -> & _ & -> & -> & _). exact IH.
  - pose proof (v1_kept_inv _ _ _ H) as (W & _). pose proof (i1_frame _ _ _ _ _ (v1_insert_sem _ _ _ _ _ W E)) as (_ & -> & _ & -> & -> & _). exact IH.
  - exact IH.
  - pose proof (v1_kept_inv _ _ _ Ha) as (Wa & _). pose proof (v1_kept_inv _ _ _ Hb) as (Wb & _).
    destruct (v1_union_sem _ _ _ _ _ Wa Wb E) as [(_ & _ & X)|(_ & _ & U)]; [discriminate|]. destruct (u1_frame _ _ _ _ U) as (_ & -> & _ & -> & -> & _). exact IHa.
  - exact IH.
  - pose proof (v1_kept_inv _ _ _ H) as (W & _). rewrite v1_roundtrip in E by auto. apply Ok_inj in E as <-. exact IH.
Qed.

(** * C69 *)
(** The rate expected of a filter of [m] bits with [k] hash functions and [n] entries, as doubles compute it. *)
Definition double_rate (L : libm) (m k n : N) : spec_float :=
  lm_powf L (f_sub f_one (lm_exp L (f_div (f_mul (f_opp (f_of_u64 k)) (f_of_u64 n)) (f_of_u64 m)))) (f_of_u64 k).
(** Full statement: estimated_p is the expected rate of the filter as it is, with its number of bits, hash functions and
    entries. True of a filter filled to its capacity. Missing: every other count, see the refutation. *)
Theorem C69_estimated_p_partial L f K : v1_kept L f K -> v1_count f = v1_capacity f -> v1_estimated_p L f = double_rate L (v1_bit_size f) (v1_n_hash f) (v1_count f).
Proof. intros H E. unfold v1_estimated_p, bu_estimate_p, double_rate. rewrite (v1_kept_k _ _ _ H), E. reflexivity. Qed.
Print Assumptions C69_estimated_p_partial.
(** One entry in a filter for 100 at 1%: the estimate assumes the 665 hash functions that would be best for one entry, where the
    filter has 7. The estimate is below 2^-660, the rate of the filter above 2^-50. *)
Theorem C69_refuted : exists f g, v1_with_capacity ref_libm 100 p001 = Ok f /\ (forall pr, v1_insert_bytes pr f da = (g, Ok true)) /\ v1_count g = 1%N /\ v1_n_hash g = 7%N /\
  sf_R (v1_estimated_p ref_libm g) < (/ 2) ^ 660 /\ (/ 2) ^ 50 < ideal_rate (N.to_nat (v1_bit_size g)) (N.to_nat (v1_n_hash g)) (N.to_nat (v1_count g)).
Proof.
  exists (mk1 100 p001), (ins1 (mk1 100 p001) da). split; [vm_compute; reflexivity|]. split; [intros []; vm_compute; reflexivity|].
  assert (C : v1_count (ins1 (mk1 100 p001) da) = 1%N) by (vm_compute; reflexivity). assert (H : v1_n_hash (ins1 (mk1 100 p001) da) = 7%N) by (vm_compute; reflexivity).
  assert (M : v1_bit_size (ins1 (mk1 100 p001) da) = 958%N) by (vm_compute; reflexivity). split; [exact C|]. split; [exact H|]. split.
  - assert (V : v1_estimated_p ref_libm (ins1 (mk1 100 p001) da) = S754_finite false 8793938787211953 (-717)) by (vm_compute; reflexivity). rewrite V. unfold sf_R, powerRZ.
    change (Pos.to_nat 717) with (57 + 660)%nat. rewrite pow_add, Rinv_mult, <- !pow_inv. assert (P : 0 < (/ 2) ^ 660) by (apply pow_lt; lra). set (z := (/ 2) ^ 660) in *. clearbody z.
    assert (Q : IZR (Zpos 8793938787211953) * (/ 2) ^ 57 < 1) by lra. rewrite <- Rmult_assoc. rewrite <- (Rmult_1_l z) at 2. now apply Rmult_lt_compat_r.
  - rewrite C, H, M. apply rate_ge with (b := 0.00725); [lia|lra| |change (N.to_nat 7) with 7%nat; lra]. rewrite ?N_nat_Z. cbn [Z.of_N]. lra.
Qed.
Print Assumptions C69_refuted.
(** A full filter: capacity 2, two entries. *)
Example C69_example : v1_kept ref_libm q2 (fun x => x = db \/ x = da \/ False) /\ v1_count q2 = v1_capacity q2 /\ v1_estimated_p ref_libm q2 = double_rate ref_libm (v1_bit_size q2) 7 2 /\
  v1_estimated_p ref_libm e2 <> double_rate ref_libm (v1_bit_size e2) (v1_n_hash e2) 2.
Proof.
  split; [exact (k1_insert _ _ _ _ _ _ _ (k1_insert _ _ _ _ _ _ _ (k1_make ref_libm 2 p001 q0 eq_refl eq_refl q0_eq) q1_eq) q2_eq)|]. split; [vm_compute; reflexivity|]. split; [vm_compute; reflexivity|]. vm_compute. discriminate.
Qed.
