(** Reading decimal numbers gives the nearest double; the bits of a double determine it. *)
From Coq Require Import Lia Reals Lra SpecFloat String.
From Flocq Require Import Core IEEE754.BinarySingleNaN.
From Verif Require Import M_Args P_Base P_Float P_FloatDiv P_Text.
Open Scope N_scope.

(** ** Bits *)
Lemma bounded_cases m e : SpecFloat.bounded 53 1024 m e = true -> (-1074 <= e <= 971)%Z /\ (Zpos m < 2 ^ 53)%Z /\ ((2 ^ 52 <= Zpos m)%Z \/ e = (-1074)%Z).
Proof.
  intro H. pose proof (bounded_mantissa m e H) as M. unfold bounded, canonical_mantissa in H. apply andb_true_iff in H as [C L]. apply Z.leb_le in L. apply Zeq_bool_eq in C.
  unfold fexp, SpecFloat.emin in C. split; [split; [lia|lia]|]. split; [exact M|].
  destruct (Z_lt_le_dec (Zpos m) (2 ^ 52)) as [Lt|]; [right|now left].
  assert (D : (Zpos (digits2_pos m) <= 52)%Z). { rewrite Digits.Zpos_digits2_pos. apply Digits.Zdigits_le_Zpower. rewrite Z.abs_eq by lia. exact Lt. } lia.
Qed.
Lemma sf_bits_bound x : SpecFloat.valid_binary 53 1024 x = true -> sf_to_bits x < two64.
Proof.
  destruct x as [s|s| |s m e]; cbn [sf_to_bits SpecFloat.valid_binary]; intro V; try (destruct s; reflexivity); [reflexivity|].
  apply bounded_cases in V as (E & M & _). assert (S : sign_bit s <= 9223372036854775808) by (destruct s; cbn; lia). unfold two64. change (2 ^ 53)%Z with 9007199254740992%Z in M.
  destruct (N.ltb_spec (Npos m) 4503599627370496); [lia|]. assert (Z.to_N (e + 1075) <= 2046) by lia. nia.
Qed.
Lemma sf_bits_round x : SpecFloat.valid_binary 53 1024 x = true -> x <> S754_nan -> sf_of_bits (sf_to_bits x) = x.
Proof.
  assert (Dec : forall (s : bool) r, r < 9223372036854775808 -> N.testbit (sign_bit s + r) 63 = s /\ (sign_bit s + r) / 4503599627370496 mod 2048 = r / 4503599627370496 /\ (sign_bit s + r) mod 4503599627370496 = r mod 4503599627370496).
  { intros s r R. assert (Q : r / 4503599627370496 < 2048) by (apply N.div_lt_upper_bound; lia).
    split; [|split].
    - rewrite N.testbit_eqb. destruct s; cbn [sign_bit].
      + replace ((9223372036854775808 + r) / 2 ^ 63) with 1; [reflexivity|]. apply N.div_unique with r; [exact R|]. change (2 ^ 63) with 9223372036854775808. lia.
      + rewrite N.add_0_l, N.div_small by exact R. reflexivity.
    - destruct s; cbn [sign_bit]; [|now rewrite N.add_0_l, N.mod_small].
      change 9223372036854775808 with (2048 * 4503599627370496). rewrite N.add_comm, N.div_add by discriminate. rewrite <- (N.mul_1_l 2048) at 1. rewrite N.mod_add by discriminate. now apply N.mod_small.
    - destruct s; cbn [sign_bit]; [|now rewrite N.add_0_l]. change 9223372036854775808 with (2048 * 4503599627370496). rewrite N.add_comm, N.mod_add by discriminate. reflexivity. }
  destruct x as [s|s| |s m e]; cbn [sf_to_bits SpecFloat.valid_binary]; intros V NN.
  - rewrite <- (N.add_0_r (sign_bit s)). unfold sf_of_bits. destruct (Dec s 0 ltac:(lia)) as (-> & -> & ->). reflexivity.
  - unfold sf_of_bits. destruct (Dec s 9218868437227405312 ltac:(lia)) as (-> & -> & ->). reflexivity.
  - contradiction.
  - apply bounded_cases in V as (E & M & C). change (2 ^ 53)%Z with 9007199254740992%Z in M. change (2 ^ 52)%Z with 4503599627370496%Z in C. unfold sf_of_bits.
    destruct (N.ltb_spec (Npos m) 4503599627370496) as [L|L].
    + destruct (Dec s (Npos m) ltac:(lia)) as (-> & -> & ->). rewrite N.div_small, N.mod_small by exact L. cbn [N.eqb]. destruct C as [C|C]; [lia|now rewrite C].
    + assert (K : Z.to_N (e + 1075) <= 2046 /\ 1 <= Z.to_N (e + 1075)) by lia. set (k := Z.to_N (e + 1075)) in *.
      assert (B : k * 4503599627370496 + (N.pos m - 4503599627370496) < 9223372036854775808) by nia. destruct (Dec s _ B) as (-> & -> & ->).
      assert (Q : (k * 4503599627370496 + (N.pos m - 4503599627370496)) / 4503599627370496 = k). { rewrite N.add_comm, N.div_add by discriminate. rewrite N.div_small by lia. apply N.add_0_l. }
      assert (R : (k * 4503599627370496 + (N.pos m - 4503599627370496)) mod 4503599627370496 = N.pos m - 4503599627370496). { rewrite N.add_comm, N.mod_add by discriminate. apply N.mod_small. lia. }
      rewrite Q, R. destruct (N.eqb_spec k 0) as [|_]; [lia|]. destruct (N.eqb_spec k 2047) as [|_]; [lia|]. rewrite N.sub_add by exact L. replace (Z.of_N k - 1075)%Z with e by lia. reflexivity.
Qed.

(** ** Rounding *)
(** A spec_float that is the nearest double of [r], with sign [s] (the sign matters for zero): infinite beyond the largest. *)
Definition nearest (s : bool) (r : R) (x : spec_float) : Prop :=
  SpecFloat.valid_binary 53 1024 x = true /\
  if Rlt_bool (Rabs (rnd r)) (bpow radix2 1024) then fval x (rnd r) /\ sign_SF x = s else x = S754_infinity s.
Lemma nearest_of s r x : SpecFloat.valid_binary 53 1024 x = true ->
  (if Rlt_bool (Rabs (rnd r)) (bpow radix2 1024) then SF2R radix2 x = rnd r /\ is_finite_SF x = true /\ sign_SF x = s else x = binary_overflow 53 1024 mode_NE s) -> nearest s r x.
Proof.
  intros V H. split; [exact V|]. destruct (Rlt_bool _ _); [|exact H]. destruct H as (A & B & C). split; [|exact C].
  exists (SF2B x V). split; [apply B2SF_SF2B|]. split; [now rewrite is_finite_SF2B|]. now rewrite B2R_SF2B.
Qed.
Definition signed (s : bool) (x : R) : R := if s then (- x)%R else x.
Lemma signed_Z s p e : F2R (Float radix2 (SpecFloat.cond_Zopp s (Zpos p)) e) = signed s (IZR (Zpos p) * bpow radix2 e).
Proof. unfold F2R. cbn [Fnum Fexp]. destruct s; cbn [SpecFloat.cond_Zopp signed]; [rewrite opp_IZR; ring|reflexivity]. Qed.
Definition pow10 (e : Z) : R := if (0 <=? e)%Z then IZR (10 ^ e) else (/ IZR (10 ^ (- e)))%R.
Lemma of_decimal_nearest s m e : nearest s (signed s (IZR (Z.of_N m) * pow10 e)) (of_decimal s m e).
Proof.
  destruct m as [|p]; cbn [of_decimal].
  { split; [reflexivity|]. change (IZR (Z.of_N 0)) with 0%R. rewrite Rmult_0_l. replace (signed s 0) with 0%R by (destruct s; cbn; lra). rewrite rnd_0, Rabs_R0, Rlt_bool_true by apply bpow_gt_0.
    split; [|reflexivity]. exists (B754_zero s). split; [reflexivity|]. split; reflexivity. }
  cbn [Z.of_N]. unfold pow10. destruct (Z.leb_spec 0 e) as [E|E].
  - rewrite binary_round_equiv. pose proof (binary_round_correct 53 1024 Hprec Hmax mode_NE s (p * Z.to_pos (10 ^ e)) 0) as [V H]. apply nearest_of; [exact V|].
    rewrite signed_Z in H. cbn [bpow] in H. rewrite Rmult_1_r, Pos2Z.inj_mul, mult_IZR, Z2Pos.id in H by (apply Z.pow_pos_nonneg; lia). exact H.
  - assert (P : (0 < 10 ^ (- e))%Z) by (apply Z.pow_pos_nonneg; lia). destruct (10 ^ (- e))%Z as [|q|q] eqn:Q; try lia.
    pose proof (Bdiv_correct_aux 53 1024 Hprec Hmax mode_NE s p 0 false q 0) as H. cbn zeta in H. destruct (SFdiv_core_binary 53 1024 (Zpos p) 0 (Zpos q) 0) as [[mz ez] lz].
    rewrite binary_round_aux_equiv. rewrite xorb_false_r in H. destruct H as [V H]. apply nearest_of; [exact V|]. rewrite !signed_Z in H. cbn [bpow signed] in H. rewrite !Rmult_1_r in H.
    replace (signed s (IZR (Zpos p) * / IZR (Zpos q))) with (signed s (IZR (Zpos p)) / IZR (Zpos q))%R; [exact H|]. destruct s; cbn [signed]; unfold Rdiv; ring.
Qed.
Lemma nearest_bits s r x : nearest s r x -> nearest s r (sf_of_bits (sf_to_bits x)).
Proof. intro H. rewrite sf_bits_round; [exact H|apply H|]. destruct H as [_ H]. intros ->. destruct (Rlt_bool _ _); [|discriminate]. destruct H as [(b & E & F & _) _]. now destruct b. Qed.

(** ** Digits *)
Lemma is_digit_spec c : is_digit c = true <-> digit c.
Proof. unfold is_digit, in_rng, digit. rewrite andb_true_iff, !N.leb_le. lia. Qed.
Lemma digits_from_spec l a n : digits_from a l = Some n <-> Forall digit l /\ fold_left (fun a c => 10 * a + (c - 48)) l a = n.
Proof.
  revert a. induction l as [|c l IH]; intro a; cbn [digits_from fold_left].
  - split; [intro H; injection H as <-; auto|intros [_ <-]; reflexivity].
  - rewrite Forall_cons_iff, <- is_digit_spec. destruct (is_digit c); [rewrite IH; tauto|]. split; [discriminate|intros [[? _] _]; discriminate].
Qed.
Lemma read_digits_spec l n : read_digits l = Some n <-> l <> [] /\ Forall digit l /\ dec_val l = n.
Proof. unfold read_digits, dec_val. destruct l as [|c l]; [split; [discriminate|tauto]|]. rewrite digits_from_spec. split; [intros [A B]|intros (_ & A & B)]; repeat split; auto; discriminate. Qed.
Lemma span_spec l : let '(a, b) := span_digits l in l = a ++ b /\ Forall digit a /\ (forall c r, b = c :: r -> ~ digit c).
Proof.
  induction l as [|c l IH]; cbn [span_digits]; [split; [reflexivity|]; split; [constructor|discriminate]|].
  destruct (is_digit c) eqn:D.
  - destruct (span_digits l) as [a b]. destruct IH as (-> & F & N0). split; [reflexivity|]. split; [constructor; [now apply is_digit_spec|exact F]|exact N0].
  - split; [reflexivity|]. split; [constructor|]. intros x r E. injection E as <- <-. rewrite <- is_digit_spec, D. discriminate.
Qed.
Lemma span_app a b : Forall digit a -> (forall c r, b = c :: r -> ~ digit c) -> span_digits (a ++ b) = (a, b).
Proof.
  intros F N0. induction F as [|c a D F IH]; cbn [app].
  - destruct b as [|c r]; [reflexivity|]. cbn [span_digits]. destruct (is_digit c) eqn:E; [|reflexivity]. apply is_digit_spec in E. destruct (N0 c r eq_refl E).
  - cbn [span_digits]. apply is_digit_spec in D. now rewrite D, IH.
Qed.
