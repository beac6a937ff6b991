(** Size of the index cache announced by a file. *)
From Coq Require Import Lia Reals Lra.
From Verif Require Import M_V2 Spec_Bits P_Base P_BitSet.
From Flocq Require Import Core BinarySingleNaN.
From Verif Require Import P_Float P_FloatDiv.
Open Scope N_scope.

Lemma byte_cap_le a : a < two64 -> byte_cap_from_bit_cap a <= 2305843009213693952.
Proof.
  intros Ha. unfold byte_cap_from_bit_cap. pose proof (rnd_u64_bounds a Ha) as [A0 A1].
  set (x := rnd (IZR (Z.of_N a))) in *.
  assert (F8 : fval (f_of_u64 8) 8). { replace 8%R with (rnd (IZR (Z.of_N 8))). apply fval_of_u64. reflexivity. apply rnd_format. apply format_int. lia. }
  assert (Q0 : (0 <= x / 8)%R) by lra.
  assert (Q1 : (x / 8 <= bpow radix2 61)%R).
  { replace (bpow radix2 64) with (bpow radix2 61 * 8)%R in A1 by (change 8%R with (bpow radix2 3); rewrite <- bpow_plus; reflexivity). lra. }
  assert (D : fval (f_div (f_of_u64 a) (f_of_u64 8)) (rnd (x / 8))).
  { apply fval_div; [now apply fval_of_u64|exact F8|lra|]. rewrite Rabs_pos_eq by auto. apply Rle_trans with (1 := Q1). apply bpow_le; lia. }
  assert (R0 : (0 <= rnd (x / 8))%R). { rewrite <- rnd_0. now apply rnd_le. }
  assert (R1 : (rnd (x / 8) <= bpow radix2 61)%R).
  { rewrite <- (rnd_format (bpow radix2 61)). now apply rnd_le. replace (bpow radix2 61) with (1 * bpow radix2 61)%R by ring. apply (format_spec 1); lia. }
  assert (C0 : (0 <= Zceil (rnd (x / 8)))%Z). { apply le_IZR. apply Rle_trans with (1 := R0). apply Zceil_ub. }
  assert (C1 : (Zceil (rnd (x / 8)) <= 2 ^ 61)%Z). { apply Zceil_glb. rewrite <- IZR_bpow by lia. exact R1. }
  assert (Z.of_N (f_to_u64 (f_ceil (f_div (f_of_u64 a) (f_of_u64 8)))) <= 2 ^ 61)%Z; [|lia].
  rewrite (fval_to_u64 _ _ (fval_ceil _ _ D)) by (apply IZR_le; lia). rewrite Zfloor_IZR. lia.
Qed.
Lemma byte_cap_exact a : a < 9007199254740992 -> byte_cap_from_bit_cap a = (a + 7) / 8.
Proof. intro H. unfold byte_cap_from_bit_cap. rewrite (ceil_div_exact a 8) by (auto; lia). f_equal. lia. Qed.
