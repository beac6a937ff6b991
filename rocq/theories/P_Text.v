(** Lemmas on printed numbers. *)
From Coq Require Import Lia Reals Lra SpecFloat String.
From Flocq Require Import Core IEEE754.BinarySingleNaN.
From Verif Require Import M_Text P_Base P_Float P_FloatDiv.
Open Scope N_scope.

(** Digits and the number they spell. *)
Definition digit (c : N) : Prop := 48 <= c < 58.
Definition dec_val (l : list N) : N := fold_left (fun a c => 10 * a + (c - 48)) l 0.

Lemma fold_dec_app l a : fold_left (fun a c => 10 * a + (c - 48)) l a = 10 ^ len l * a + dec_val l.
Proof.
  revert a. induction l as [|c l IH]; intro a; [change (a = 1 * a + 0); lia|]. unfold dec_val. cbn [fold_left]. rewrite (IH (10 * a + (c - 48))), (IH (10 * 0 + (c - 48))). rewrite len_cons.
  rewrite N.pow_succ_r'. ring.
Qed.
Lemma dec_val_cons c l : dec_val (c :: l) = 10 ^ len l * (c - 48) + dec_val l.
Proof. unfold dec_val at 1. cbn [fold_left]. rewrite fold_dec_app. f_equal. Qed.
Lemma dec_val_snoc l c : dec_val (l ++ [c]) = 10 * dec_val l + (c - 48).
Proof. unfold dec_val. rewrite fold_left_app. reflexivity. Qed.
Lemma dec_aux_acc k : forall n acc, dec_aux k n acc = (dec_aux k n []) ++ acc.
Proof.
  induction k as [|k IH]; intros n acc; [reflexivity|]. cbn [dec_aux]. destruct (n <? 10); [reflexivity|].
  rewrite (IH (n / 10) ((48 + n mod 10) :: acc)), (IH (n / 10) [48 + n mod 10]). rewrite <- app_assoc. reflexivity.
Qed.
Lemma dec_aux_spec k : forall n, n < 2 ^ N.of_nat k -> let l := dec_aux (S k) n [] in
  Forall digit l /\ dec_val l = n /\ (exists c r, l = c :: r /\ (c = 48 -> n = 0)) /\ (n = 0 -> l = [48]).
Proof.
  induction k as [|k IH]; intros n Hn l.
  - assert (n = 0) by (cbn in Hn; lia). subst n. subst l. cbn. split; [repeat constructor; unfold digit; lia|]. split; [reflexivity|]. split; [exists 48, []; auto|auto].
  - subst l. assert (St : dec_aux (S (S k)) n [] = if n <? 10 then [48 + n mod 10] else dec_aux (S k) (n / 10) [48 + n mod 10]) by reflexivity. rewrite St. clear St. pose proof (N.div_mod n 10 ltac:(discriminate)) as Dm. pose proof (N.mod_lt n 10 ltac:(discriminate)) as Rm. destruct (N.ltb_spec n 10) as [Sm|Sm].
    + rewrite N.mod_small by exact Sm. split; [repeat constructor; unfold digit; lia|]. split; [unfold dec_val; cbn [fold_left]; lia|]. split; [exists (48 + n), []; split; [reflexivity|lia]|]. intros ->. reflexivity.
    + assert (B : n / 10 < 2 ^ N.of_nat k). { rewrite Nat2N.inj_succ, N.pow_succ_r' in Hn. revert Dm. generalize (n / 10) (n mod 10). intros q r Dm. lia. }
      destruct (IH _ B) as (A1 & A2 & (c & r & A3 & A4) & _).
      rewrite (dec_aux_acc (S k) (n / 10) [48 + n mod 10]). split; [apply Forall_app; split; [exact A1|apply Forall_cons; [clear - Rm; unfold digit; revert Rm; generalize (n mod 10); intros; lia|apply Forall_nil]]|]. split; [rewrite dec_val_snoc, A2; clear - Dm; revert Dm; generalize (n / 10) (n mod 10); intros; lia|].
      split; [|intro; exfalso; clear - Sm H; lia]. exists c, (r ++ [48 + n mod 10]). rewrite A3. split; [reflexivity|]. intro Q. specialize (A4 Q). exfalso. rewrite A4 in Dm. clear - Dm Rm Sm. revert Dm Rm. generalize (n mod 10). intros; lia.
Qed.
Lemma size_nat_bound n : n < 2 ^ N.of_nat (N.size_nat n).
Proof.
  replace (N.of_nat (N.size_nat n)) with (N.size n). { apply N.size_gt. } destruct n as [|p]; [reflexivity|]. cbn. induction p as [p IH|p IH|]; cbn [Pos.size Pos.size_nat]; [| |reflexivity]; rewrite Nat2N.inj_succ, <- IH; lia.
Qed.
Lemma dec_spec n : Forall digit (dec n) /\ dec_val (dec n) = n /\ (exists c r, dec n = c :: r /\ (c = 48 -> n = 0)) /\ (n = 0 -> dec n = [48]).
Proof. exact (dec_aux_spec _ n (size_nat_bound n)). Qed.
Lemma dec_inj a b : dec a = dec b -> a = b.
Proof. intro E. rewrite <- (proj1 (proj2 (dec_spec a))), E. apply dec_spec. Qed.

(** [half_even] is rounding to the nearest integer, ties to even. *)
Lemma half_even_nearest n e : Z.of_N (half_even n e) = ZnearestE (IZR (Z.of_N n) * bpow radix2 e)%R.
Proof.
  unfold half_even. destruct (Z.leb_spec 0 e) as [E|E].
  - assert (Q : (IZR (Z.of_N n) * bpow radix2 e)%R = IZR (Z.of_N (n * 2 ^ Z.to_N e))).
    { rewrite N2Z.inj_mul, N2Z.inj_pow, Z2N.id by exact E. rewrite mult_IZR, (IZR_bpow e E). reflexivity. }
    rewrite Q. symmetry. exact (Zrnd_IZR _ _).
  - set (d := 2 ^ Z.to_N (- e)). assert (Dp : 0 < d) by (apply N.neq_0_lt_0, N.pow_nonzero; discriminate).
    assert (DR : bpow radix2 e = (/ IZR (Z.of_N d))%R). { unfold d. rewrite N2Z.inj_pow, Z2N.id by lia. change (Z.of_N 2) with 2%Z. rewrite <- IZR_bpow by lia. rewrite bpow_opp. rewrite Rinv_inv. reflexivity. }
    pose proof (N.div_mod n d ltac:(lia)) as Dm. pose proof (N.mod_lt n d ltac:(lia)) as Rm. set (q := n / d) in *. set (r := n mod d) in *. clearbody d q r.
    assert (DZ : (0 < IZR (Z.of_N d))%R) by (apply IZR_lt; lia).
    assert (X : (IZR (Z.of_N n) * bpow radix2 e = IZR (Z.of_N q) + IZR (Z.of_N r) / IZR (Z.of_N d))%R).
    { rewrite DR, Dm, N2Z.inj_add, N2Z.inj_mul, plus_IZR, mult_IZR. field. lra. }
    rewrite X. set (f := (IZR (Z.of_N r) / IZR (Z.of_N d))%R). assert (F : (f * IZR (Z.of_N d) = IZR (Z.of_N r))%R) by (unfold f; field; lra). clearbody f.
    assert (RZ : (0 <= IZR (Z.of_N r) /\ IZR (Z.of_N r) < IZR (Z.of_N d))%R) by (split; [apply IZR_le; lia|apply IZR_lt; lia]).
    assert (F0 : (0 <= f < 1)%R). { split; [apply Rmult_le_reg_r with (1 := DZ); lra|apply Rmult_lt_reg_r with (1 := DZ); lra]. }
    assert (FL : Zfloor (IZR (Z.of_N q) + f) = Z.of_N q) by (apply Zfloor_imp; rewrite plus_IZR; lra).
    unfold Znearest. rewrite FL. replace (IZR (Z.of_N q) + f - IZR (Z.of_N q))%R with f by ring.
    assert (CE : f <> 0%R -> Zceil (IZR (Z.of_N q) + f) = (Z.of_N q + 1)%Z). { intro N0. apply Zceil_imp. rewrite minus_IZR, plus_IZR. lra. }
    destruct (N.ltb_spec (2 * r) d) as [C|C].
    + rewrite Rcompare_Lt; [reflexivity|]. apply Rmult_lt_reg_r with (1 := DZ). rewrite F. assert (2 * IZR (Z.of_N r) < IZR (Z.of_N d))%R by (rewrite <- mult_IZR; apply IZR_lt; lia). lra.
    + destruct (N.ltb_spec d (2 * r)) as [C'|C'].
      * assert (G : (/ 2 < f)%R). { apply Rmult_lt_reg_r with (1 := DZ). rewrite F. assert (IZR (Z.of_N d) < 2 * IZR (Z.of_N r))%R by (rewrite <- mult_IZR; apply IZR_lt; lia). lra. }
        rewrite Rcompare_Gt by exact G. rewrite CE by lra. lia.
      * assert (G : (f = / 2)%R). { apply Rmult_eq_reg_r with (IZR (Z.of_N d)); [|lra]. rewrite F. assert (2 * IZR (Z.of_N r) = IZR (Z.of_N d))%R by (rewrite <- mult_IZR; f_equal; lia). lra. }
        rewrite Rcompare_Eq by exact G. rewrite CE by lra. assert (EV : Z.even (Z.of_N q) = N.even q) by (destruct q as [|[]]; reflexivity). rewrite EV. destruct (N.even q); cbn; lia.
Qed.
Lemma half_even_close n e : (Rabs (IZR (Z.of_N n) * bpow radix2 e - IZR (Z.of_N (half_even n e))) <= / 2)%R.
Proof. rewrite half_even_nearest. apply Znearest_half. Qed.

(** What [fmt_1] prints of a float with value [r]. *)
Definition tenths (x : spec_float) : N := match x with S754_finite _ m e => half_even (10 * Npos m) e | _ => 0 end.
Lemma fval_tenths x r : fval x r -> (0 <= r)%R -> x <> S754_zero true -> fmt_1 x = one_decimal (tenths x) /\ Z.of_N (tenths x) = ZnearestE (10 * r)%R.
Proof.
  intros (b & E & F & V) R Z. destruct b as [s|s| |s m e H]; cbn [B2SF is_finite B2R] in E, F, V; try discriminate; subst x r.
  - destruct s; [congruence|]. split; [reflexivity|]. cbn [tenths]. replace (10 * 0)%R with (IZR 0) by (cbn; ring). symmetry. exact (Zrnd_IZR _ _).
  - assert (s = false). { destruct s; [|reflexivity]. exfalso. unfold F2R, cond_Zopp in R. cbn [Fnum Fexp] in R. pose proof (bpow_gt_0 radix2 e). assert (IZR (- Zpos m) < 0)%R by (apply IZR_lt; lia). nra. }
    subst s. split; [reflexivity|]. cbn [tenths]. rewrite half_even_nearest. f_equal. unfold F2R, cond_Zopp. cbn [Fnum Fexp]. rewrite N2Z.inj_mul, mult_IZR. change (Z.of_N (Npos m)) with (Zpos m). change (Z.of_N 10) with 10%Z. ring.
Qed.
