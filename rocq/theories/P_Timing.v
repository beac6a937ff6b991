(** Lemmas about measured times. *)
From Coq Require Import Lia Reals Lra.
From Verif Require Import M_Base M_Float M_Bench M_Text M_Timing Spec_Real Spec_Bench P_Base.
From Flocq Require Import Core BinarySingleNaN Plus_error Relative.
From Verif Require Import P_Float P_FloatDiv P_Real P_Stats P_V2Size P_V2Sat P_Text P_Bench.
Open Scope R_scope.

(** ** Square roots *)
Lemma sqrt_equiv (x : bf64) : f_sqrt (B2SF x) = B2SF (Bsqrt mode_NE x).
Proof.
  destruct x as [s|s| |s m e H]; try reflexivity; try (destruct s; reflexivity). destruct s; [reflexivity|].
  cbn. rewrite B2SF_SF2B. destruct (SpecFloat.SFsqrt_core_binary 53 1024 (Zpos m) e) as [[mz ez] lz]. apply binary_round_aux_equiv.
Qed.
Lemma fval_sqrt a x : fval a x -> 0 <= x -> fval (f_sqrt a) (rnd (sqrt x)).
Proof.
  intros (b & <- & F & <-) Hx. exists (Bsqrt mode_NE b). split; [symmetry; apply sqrt_equiv|]. destruct (Bsqrt_correct 53 1024 _ _ mode_NE b) as (R & Fi & _).
  split; [|exact R]. rewrite Fi. destruct b as [s|s| |s m e H]; cbn in F; try discriminate; [reflexivity|]. destruct s; [|reflexivity]. exfalso.
  cbn [B2R] in Hx. match type of Hx with _ <= ?t => assert (t < 0) by (apply F2R_lt_0; cbn; lia) end. lra.
Qed.

(** ** Rounding errors *)
Definition tiny : R := bpow radix2 (-1000).
Lemma tiny_pos : 0 < tiny. Proof. apply bpow_gt_0. Qed.
Lemma rnd_small_err x : Rabs x <= tiny -> Rabs (rnd x - x) <= eps * tiny.
Proof. intro H. unfold eps, tiny in *. pose proof (rnd_abs (-1000) x ltac:(lia) H) as A. replace (-1000 - 53)%Z with (-53 + -1000)%Z in A by lia. rewrite bpow_plus in A. exact A. Qed.
Lemma rnd_err B x : tiny <= B -> Rabs x <= B -> Rabs (rnd x - x) <= eps * B.
Proof.
  intros T H. pose proof eps_small as [E _]. destruct (Rle_or_lt tiny (Rabs x)) as [L|L].
  - apply Rle_trans with (1 := rnd_rel x L). apply Rmult_le_compat_l; lra.
  - apply Rle_trans with (eps * tiny); [apply rnd_small_err; lra|]. apply Rmult_le_compat_l; lra.
Qed.
Lemma rnd_lo x : 0 <= x -> (1 - eps) * x - tiny <= rnd x.
Proof.
  intro H. pose proof eps_small as [E E1]. pose proof tiny_pos. destruct (Rle_or_lt tiny x) as [L|L].
  - pose proof (rnd_rel x) as A. fold tiny in A. rewrite (Rabs_pos_eq x H) in A. specialize (A L). apply Rabs_le_inv in A. lra.
  - pose proof (rnd_le 0 x H) as A. rewrite rnd_0 in A. assert (eps * x >= 0) by (apply Rle_ge, Rmult_le_pos; lra). lra.
Qed.
Lemma rnd_nonneg x : 0 <= x -> 0 <= rnd x.
Proof. intro H. rewrite <- rnd_0. now apply rnd_le. Qed.
Lemma big_bound x B : Rabs x <= B -> B <= bpow radix2 1000 -> Rabs x <= bpow radix2 1023.
Proof. intros H H'. apply Rle_trans with (1 := H), Rle_trans with (1 := H'). apply bpow_le. lia. Qed.

(** ** The running mean stays between the smallest and the largest value *)
Lemma rnd_diff x y : format x -> format y -> exists d, Rabs d <= eps /\ rnd (x - y) = (x - y) * (1 + d).
Proof.
  intros Fx Fy. destruct (FLT_plus_error_N_ex radix2 (-1074) 53 (fun n => negb (Z.even n)) x (- y)) as (d & Hd & E).
  - exact Fx.
  - apply generic_format_opp. exact Fy.
  - exists d. split; [|exact E]. apply Rle_trans with (1 := Hd). assert (U : u_ro radix2 53 = eps). { unfold u_ro, eps. rewrite bpow_plus. change (bpow radix2 1) with 2. change (Z.opp 53) with (-53)%Z. set (t := bpow radix2 (-53)). lra. }
    rewrite U. pose proof eps_small as [E0 E1]. apply Rmult_le_reg_r with (1 + eps); [lra|]. unfold Rdiv. rewrite Rmult_assoc, Rinv_l by lra. assert (0 <= eps * eps) by (apply Rmult_le_pos; lra). lra.
Qed.
Lemma rnd_half x y n : format x -> format y -> y <= x -> 2 <= n -> 0 <= rnd (rnd (x - y) / n) /\ (rnd (y + rnd (rnd (x - y) / n)) <= x) /\ y <= rnd (y + rnd (rnd (x - y) / n)).
Proof.
  intros Fx Fy H Hn. set (d := rnd (x - y)). assert (D0 : 0 <= d) by (apply rnd_nonneg; lra). assert (Q0 : 0 <= d / n) by (apply Rmult_le_pos; [exact D0|apply Rlt_le, Rinv_0_lt_compat; lra]).
  assert (W0 : 0 <= rnd (d / n)) by now apply rnd_nonneg. split; [exact W0|]. split; [|apply Rle_trans with (rnd y); [rewrite (rnd_format y Fy); lra|apply rnd_le; lra]].
  apply Rle_trans with (rnd x); [|rewrite (rnd_format x Fx); lra]. apply rnd_le. enough (rnd (d / n) <= x - y) by lra.
  destruct (rnd_diff x y Fx Fy) as (e & He & E). fold d in E. pose proof eps_small as [E0 E1]. apply Rabs_le_inv in He.
  assert (Dn : d / n <= d / 2) by (apply Rmult_le_compat_l; [exact D0|apply Rinv_le_contravar; lra]).
  assert (D2 : d / 2 <= (x - y) * (9 / 16)) by (rewrite E; unfold Rdiv; rewrite Rmult_assoc; apply Rmult_le_compat_l; lra).
  destruct (Rle_or_lt (bpow radix2 (-1021)) (x - y)) as [L|L].
  - assert (Fs : format (bpow radix2 (-1021))). { replace (bpow radix2 (-1021)) with (IZR 1 * bpow radix2 (-1021)) by ring. apply format_spec; lia. }
    assert (Ld : bpow radix2 (-1021) <= d) by (unfold d; rewrite <- (rnd_format _ Fs); now apply rnd_le).
    apply Rle_trans with (rnd (d / 2)); [now apply rnd_le|]. pose proof (relative_error_N_FLT radix2 (-1074) 53 ltac:(reflexivity) (fun n => negb (Z.even n)) (d / 2)) as A.
    change (-1074 + 53 - 1)%Z with (-1022)%Z in A. rewrite (Rabs_pos_eq (d / 2)) in A by lra. change (-1021)%Z with (1 + -1022)%Z in Ld. rewrite bpow_plus in Ld. change (bpow radix2 1) with 2 in Ld.
    specialize (A ltac:(lra)). change (round radix2 (FLT_exp (-1074) 53) (Znearest (fun n => negb (Z.even n))) (d / 2)) with (rnd (d / 2)) in A. replace (/ 2 * bpow radix2 (- (53) + 1)) with eps in A by (unfold eps; rewrite bpow_plus; change (bpow radix2 1) with 2; change (Z.opp 53) with (-53)%Z; set (t := bpow radix2 (-53)); lra).
    apply Rabs_le_inv in A. assert (eps * (d / 2) <= / 1000000 * (d / 2)) by (apply Rmult_le_compat_r; lra). lra.
  - assert (X : format (x - y)).
    { destruct (format_inv x Fx) as (mx & ex & Ex & _ & Ex2). destruct (format_inv y Fy) as (my & ey & Ey & _ & Ey2).
      assert (K : x - y = IZR (mx * 2 ^ (ex + 1074) - my * 2 ^ (ey + 1074)) * bpow radix2 (-1074)).
      { rewrite minus_IZR, !mult_IZR, <- !IZR_bpow by lia. rewrite Rmult_minus_distr_r, !Rmult_assoc, <- !bpow_plus. replace (ex + 1074 + -1074)%Z with ex by lia. replace (ey + 1074 + -1074)%Z with ey by lia. now rewrite Ex, Ey. }
      rewrite K in *. apply format_spec; [|lia]. set (k := (mx * 2 ^ (ex + 1074) - my * 2 ^ (ey + 1074))%Z) in *. pose proof (bpow_gt_0 radix2 (-1074)) as P.
      change (-1021)%Z with (53 + -1074)%Z in L. rewrite bpow_plus, (IZR_bpow 53) in L by lia. apply Rmult_lt_reg_r in L; [|exact P]. apply lt_IZR in L.
      assert (0 <= k)%Z. { apply le_IZR. apply Rmult_le_reg_r with (1 := P). lra. } lia. }
    assert (Ed : d = x - y) by (unfold d; now apply rnd_format). rewrite <- Ed. apply Rle_trans with (rnd d); [apply rnd_le; lra|]. unfold d. rewrite rnd_format; [lra|apply format_rnd].
Qed.
Lemma rnd_opp x : rnd (- x) = - rnd x.
Proof. apply round_NE_opp. Qed.
Lemma step_between x m n lo hi : format x -> format m -> 2 <= n -> lo <= x <= hi -> lo <= m <= hi -> lo <= rnd (m + rnd (rnd (x - m) / n)) <= hi.
Proof.
  intros Fx Fm Hn Bx Bm. destruct (Rle_or_lt m x) as [L|L].
  - destruct (rnd_half x m n Fx Fm L Hn) as (_ & A & B). lra.
  - destruct (rnd_half (- x) (- m) n (generic_format_opp _ _ _ Fx) (generic_format_opp _ _ _ Fm) ltac:(lra) Hn) as (_ & A & B).
    replace (- x - - m) with (- (x - m)) in A, B by ring. rewrite rnd_opp in A, B. replace (- rnd (x - m) / n) with (- (rnd (x - m) / n)) in A, B by (unfold Rdiv; ring). rewrite rnd_opp in A, B.
    replace (- m + - rnd (rnd (x - m) / n)) with (- (m + rnd (rnd (x - m) / n))) in A, B by ring. rewrite rnd_opp in A, B. lra.
Qed.
Definition top : R := bpow radix2 64.
Lemma top_1 : 1 <= top. Proof. unfold top. change 1 with (bpow radix2 0). apply bpow_le. lia. Qed.
Lemma tiny_1 : tiny <= 1. Proof. unfold tiny. change 1 with (bpow radix2 0). apply bpow_le. lia. Qed.
Lemma top_big : 8 * top <= bpow radix2 1000.
Proof. unfold top. change 8 with (bpow radix2 3). rewrite <- bpow_plus. apply bpow_le. lia. Qed.
(** One step of the mean. *)
Lemma mean_add a x M m i lo hi X : fval a x -> fval M m -> lo <= x <= hi -> lo <= m <= hi -> 0 <= lo -> hi <= X -> 1 <= X <= top -> (2 <= i <= 9007199254740992)%N ->
  exists m', fval (f_add M (f_div (f_sub a M) (f_of_u64 i))) m' /\ lo <= m' <= hi /\ Rabs (m' - (m + (x - m) / IZR (Z.of_N i))) <= 3 * eps * X.
Proof.
  intros Fx Fm Bx Bm L0 HX X1 Hi. set (n := IZR (Z.of_N i)). assert (Hn : 2 <= n) by (apply IZR_le; lia). pose proof tiny_1 as T1. pose proof top_big as TB. pose proof eps_small as [E0 E1].
  assert (A1 : Rabs (x - m) <= X) by (apply Rabs_le; lra). pose proof (fval_sub _ _ _ _ Fx Fm (big_bound _ X A1 ltac:(lra))) as S. pose proof (rnd_err X _ ltac:(lra) A1) as R1. set (s := rnd (x - m)) in *.
  assert (Ni : 0 < / n <= / 2). { split; [apply Rinv_0_lt_compat; lra|]. apply Rinv_le_contravar; lra. }
  assert (EX : 0 <= eps * X <= X) by (split; [apply Rmult_le_pos; lra|]; assert (eps * X <= 1 * X) by (apply Rmult_le_compat_r; lra); lra).
  assert (S2 : Rabs s <= 2 * X). { apply Rabs_le_inv in R1, A1. apply Rabs_le. lra. }
  assert (Q : Rabs (s / n) <= X). { unfold Rdiv. rewrite Rabs_mult, (Rabs_pos_eq (/ n)) by lra. apply Rle_trans with (2 * X * / 2); [|lra]. apply Rmult_le_compat; try lra. apply Rabs_pos. }
  pose proof (fval_div _ _ _ _ S (fval_int i ltac:(lia)) ltac:(fold n; lra) (big_bound _ X Q ltac:(lra))) as D. fold n in D. pose proof (rnd_err X _ ltac:(lra) Q) as R2. set (q := rnd (s / n)) in *.
  assert (A3 : Rabs (m + q) <= 4 * X). { apply Rabs_le_inv in R2, Q. apply Rabs_le. lra. }
  pose proof (fval_add _ _ _ _ Fm D (big_bound _ (4 * X) A3 ltac:(lra))) as F. exists (rnd (m + q)). split; [exact F|].
  assert (Bt : lo <= rnd (m + q) <= hi) by (apply step_between; auto; eapply fval_format; eassumption). split; [exact Bt|].
  assert (R1' : Rabs (s / n - (x - m) / n) <= eps * X * / 2). { replace (s / n - (x - m) / n) with ((s - (x - m)) * / n) by (unfold Rdiv; ring). rewrite Rabs_mult, (Rabs_pos_eq (/ n)) by lra. apply Rmult_le_compat; try lra. apply Rabs_pos. }
  assert (MQ : Rabs (m + (x - m) / n) <= X). { replace (m + (x - m) / n) with (m * (1 - / n) + x * / n) by (field; lra). assert (0 <= m * (1 - / n) <= X * (1 - / n)) by (split; [apply Rmult_le_pos; lra|apply Rmult_le_compat_r; lra]). assert (0 <= x * / n <= X * / n) by (split; [apply Rmult_le_pos; lra|apply Rmult_le_compat_r; lra]). apply Rabs_le. lra. }
  assert (A4 : Rabs (m + q) <= X + 3 / 2 * (eps * X)). { apply Rabs_le_inv in R1', R2, MQ. apply Rabs_le. lra. }
  assert (EE : eps * (eps * X) <= / 1000000 * (eps * X)) by (apply Rmult_le_compat_r; lra).
  pose proof (rnd_err (X + 3 / 2 * (eps * X)) _ ltac:(lra) A4) as R3. rewrite Rmult_plus_distr_l in R3. replace (eps * (3 / 2 * (eps * X))) with (3 / 2 * (eps * (eps * X))) in R3 by ring.
  apply Rabs_le_inv in R1', R2, R3. apply Rabs_le. rewrite Rmult_assoc. lra.
Qed.
Definition avg (xs : list R) : R := sumR xs / IZR (Z.of_nat (length xs)).
Lemma mean_from_R l xs : Forall2 fval l xs -> forall k M m mu E lo hi X, Forall (fun x => lo <= x <= hi) xs -> fval M m -> lo <= m <= hi -> 0 <= lo -> hi <= X -> 1 <= X <= top ->
  Rabs (m - mu) <= E -> (1 <= k)%N -> (k + N.of_nat (length l) <= 9007199254740992)%N ->
  exists m', fval (mean_from (f_of_u64 k) M l) m' /\ lo <= m' <= hi /\
    Rabs (m' - (IZR (Z.of_N k) * mu + sumR xs) / (IZR (Z.of_N k) + IZR (Z.of_nat (length xs)))) <= E + IZR (Z.of_nat (length l)) * (3 * eps * X).
Proof.
  induction 1 as [|a x l xs Fx F IH]; intros k M m mu E lo hi X B Fm Bm L0 HX X1 D K1 K2.
  - cbn [mean_from length sumR fold_right]. exists m. split; [exact Fm|]. split; [exact Bm|]. change (Z.of_nat 0) with 0%Z. assert (1 <= IZR (Z.of_N k)) by (apply IZR_le; lia). replace ((IZR (Z.of_N k) * mu + 0) / (IZR (Z.of_N k) + 0)) with mu by (field; lra). lra.
  - cbn [mean_from length] in *. inversion B as [|? ? Bx B']; subst. unfold f_one. rewrite add_count by lia.
    destruct (mean_add a x M m (k + 1) lo hi X Fx Fm Bx Bm L0 HX X1 ltac:(lia)) as (m1 & F1 & B1 & D1).
    assert (Hk : 1 <= IZR (Z.of_N k)) by (apply IZR_le; lia). assert (Hn : IZR (Z.of_N (k + 1)) = IZR (Z.of_N k) + 1) by (rewrite N2Z.inj_add, plus_IZR; reflexivity). rewrite Hn in D1. set (kk := IZR (Z.of_N k)) in *.
    set (mu1 := (kk * mu + x) / (kk + 1)). set (d := 3 * eps * X) in *. assert (D' : Rabs (m1 - mu1) <= E + d).
    { replace (m1 - mu1) with ((m1 - (m + (x - m) / (kk + 1))) + (m - mu) * (kk / (kk + 1))) by (unfold mu1; field; lra). apply Rle_trans with (1 := Rabs_triang _ _). rewrite (Rplus_comm E). apply Rplus_le_compat; [exact D1|].
      assert (0 <= kk / (kk + 1) <= 1). { split; [apply Rmult_le_pos; [lra|apply Rlt_le, Rinv_0_lt_compat; lra]|]. apply Rmult_le_reg_r with (kk + 1); [lra|]. unfold Rdiv. rewrite Rmult_assoc, Rinv_l by lra. lra. }
      rewrite Rabs_mult, (Rabs_pos_eq (kk / (kk + 1))) by lra. rewrite <- (Rmult_1_r E). apply Rmult_le_compat; try lra. apply Rabs_pos. }
    destruct (IH (k + 1)%N _ m1 mu1 (E + d) lo hi X B' F1 B1 L0 HX X1 D' ltac:(lia) ltac:(lia)) as (m' & F' & Bt & D2). exists m'. split; [exact F'|]. split; [exact Bt|]. fold d in D2. rewrite Hn in D2. fold kk in D2.
    rewrite !Nat2Z.inj_succ, !succ_IZR. assert (0 <= IZR (Z.of_nat (length xs))) by (apply IZR_le; lia). cbn [sumR fold_right]. change (fold_right Rplus 0 xs) with (sumR xs).
    replace ((kk * mu + (x + sumR xs)) / (kk + (IZR (Z.of_nat (length xs)) + 1))) with (((kk + 1) * mu1 + sumR xs) / (kk + 1 + IZR (Z.of_nat (length xs)))) by (unfold mu1; field; lra).
    apply Rle_trans with (1 := D2). lra.
Qed.
(** statrs' mean of non-negative values: between the smallest and the largest, and close to the average. *)
Lemma stat_mean_R l xs lo hi X : Forall2 fval l xs -> l <> [] -> Forall (fun x => lo <= x <= hi) xs -> 0 <= lo -> hi <= X -> 1 <= X <= top -> (N.of_nat (length l) <= 9007199254740992)%N ->
  exists m, fval (stat_mean l) m /\ lo <= m <= hi /\ Rabs (m - avg xs) <= IZR (Z.of_nat (length l)) * (3 * eps * X).
Proof.
  intros F N0 B L0 HX X1 Hl. destruct F as [|a x l xs Fx F]; [contradiction|]. inversion B as [|? ? Bx B']; subst. cbn [stat_mean mean_from length] in *. pose proof top_big as TB. pose proof eps_small as [E0 E1].
  pose proof (fval_format _ _ Fx) as Fo. assert (Z0 : fval (S754_zero false) 0) by exact (fval_int 0 ltac:(lia)).
  assert (A1 : Rabs (x - 0) <= X) by (apply Rabs_le; lra). pose proof (fval_sub _ _ _ _ Fx Z0 (big_bound _ X A1 ltac:(lra))) as S. rewrite Rminus_0_r, (rnd_format x Fo) in S.
  assert (A2 : Rabs (x / 1) <= X) by (unfold Rdiv; rewrite Rinv_1, Rmult_1_r; apply Rabs_le; lra). assert (F1 : fval f_one 1) by exact (fval_int 1 ltac:(lia)).
  assert (I1 : f_add (S754_zero false) f_one = f_of_u64 1) by reflexivity. rewrite I1. change (f_of_u64 1) with f_one. pose proof (fval_div _ _ _ _ S F1 ltac:(lra) (big_bound _ X A2 ltac:(lra))) as D. replace (x / 1) with x in D by field. rewrite (rnd_format x Fo) in D.
  assert (A3 : Rabs (0 + x) <= X) by (apply Rabs_le; lra). pose proof (fval_add _ _ _ _ Z0 D (big_bound _ X A3 ltac:(lra))) as G. rewrite Rplus_0_l, (rnd_format x Fo) in G.
  destruct (mean_from_R l xs F 1%N _ x x 0 lo hi X B' G Bx L0 HX X1 ltac:(rewrite Rminus_diag_eq, Rabs_R0 by reflexivity; lra) ltac:(lia) ltac:(lia)) as (m & Fm & Bm & Dm). exists m. split; [exact Fm|]. split; [exact Bm|].
  unfold avg. cbn [length sumR fold_right]. change (fold_right Rplus 0 xs) with (sumR xs). rewrite !Nat2Z.inj_succ, !succ_IZR. change (Z.of_N 1) with 1%Z in Dm.
  replace ((x + sumR xs) / (IZR (Z.of_nat (length xs)) + 1)) with ((1 * x + sumR xs) / (1 + IZR (Z.of_nat (length xs)))) by (unfold Rdiv; rewrite Rmult_1_l, (Rplus_comm 1); reflexivity).
  apply Rle_trans with (1 := Dm). assert (0 <= 3 * eps * X) by (repeat apply Rmult_le_pos; lra). lra.
Qed.

(** ** The variance *)
Definition sumsq (xs : list R) : R := sumR (map (fun x => x * x) xs).
Definition spread (k s a : R) : R := a - s * s / k.
Lemma spread_step k s a x : 0 < k -> spread (k + 1) (s + x) (a + x * x) = spread k s a + ((k + 1) * x - (s + x)) * ((k + 1) * x - (s + x)) / ((k + 1) * k).
Proof. intro H. unfold spread. field. lra. Qed.
Lemma half_square D e : D * D / 2 - e * e <= (D + e) * (D + e).
Proof. assert (0 <= (D / 2 + e) * (D / 2 + e)) by apply Rle_0_sqr. assert (0 <= (D * D / 2) ) by (apply Rmult_le_pos; [apply Rle_0_sqr|lra]).
  replace ((D + e) * (D + e)) with (2 * ((D / 2 + e) * (D / 2 + e)) + D * D / 2 - e * e) by field. lra. Qed.
Lemma var_add a x s S0 v k A P X : fval a x -> fval (fst s) (snd s) -> fval (fst v) (snd v) -> (1 <= k <= 2048)%N -> 1 <= X -> 0 <= x <= X -> (IZR (Z.of_N k) + 1) * X <= P -> P <= 131072 ->
  let kk := IZR (Z.of_N k) in let c := 50 * (eps * P) * (eps * P) + 4 * tiny in
  0 <= S0 <= kk * X -> Rabs (snd s - S0) <= 2 * kk * (eps * P) -> 0 <= snd v <= kk * bpow radix2 50 -> 0 <= spread kk S0 A -> (1 - 3 * kk * eps) * (spread kk S0 A / 2) - kk * c <= snd v ->
  let i := f_of_u64 (k + 1) in let sm := f_add (fst s) a in let df := f_sub (f_mul i a) sm in
  exists s' v', fval sm s' /\ fval (f_add (fst v) (f_div (f_mul df df) (f_mul i (f_sub i f_one)))) v' /\
    Rabs (s' - (S0 + x)) <= 2 * (kk + 1) * (eps * P) /\ 0 <= v' <= (kk + 1) * bpow radix2 50 /\ 0 <= spread (kk + 1) (S0 + x) (A + x * x) /\
    (1 - 3 * (kk + 1) * eps) * (spread (kk + 1) (S0 + x) (A + x * x) / 2) - (kk + 1) * c <= v'.
Proof.
  intros Fx Fs Fv Hk X1 Bx HP P1 kk c HS Ds Bv Q0 Lv i sm df. destruct s as [sf s], v as [vf v]. cbn [fst snd] in *. fold kk in HP. assert (Kd : kk = IZR (Z.of_N k)) by reflexivity. assert (Cd : c = 50 * (eps * P) * (eps * P) + 4 * tiny) by reflexivity. clearbody kk; clearbody c.
  assert (K1 : 1 <= kk <= 2048) by (rewrite Kd; split; apply IZR_le; lia). pose proof eps_small as [E0 E1]. pose proof tiny_pos as T0. pose proof tiny_1 as T1.
  assert (PX : 2 * X <= P) by (apply Rle_trans with (2 := HP); apply Rmult_le_compat_r; lra). set (u := eps * P) in *. assert (U0 : 0 < u) by (apply Rmult_lt_0_compat; lra).
  assert (U1 : u <= P / 1000000) by (unfold u; apply Rle_trans with (/ 1000000 * P); [apply Rmult_le_compat_r; lra|lra]).
  assert (KU : kk * u <= P / 400). { apply Rle_trans with (2048 * (P / 1000000)); [apply Rmult_le_compat; lra|lra]. }
    assert (B60 : bpow radix2 62 = 4611686018427387904) by (rewrite IZR_bpow by lia; reflexivity).
  assert (Big : forall r B, Rabs r <= B -> B <= 4611686018427387904 -> Rabs r <= bpow radix2 1023) by (intros r B H H'; apply Rle_trans with (1 := H), Rle_trans with (1 := H'); rewrite <- B60; apply bpow_le; lia). assert (B50 : bpow radix2 50 = 1125899906842624) by (rewrite IZR_bpow by lia; reflexivity).
  assert (KX : (kk + 1) * X = kk * X + X) by ring.
  (* the sum *)
  assert (A1 : Rabs (s + x) <= 2 * P). { apply Rabs_le_inv in Ds. apply Rabs_le. lra. }
  pose proof (fval_add _ _ _ _ Fs Fx (Big _ _ A1 ltac:(lra))) as Fsm. pose proof (rnd_err (2 * P) _ ltac:(lra) A1) as R1. set (s' := rnd (s + x)) in *.
  assert (Ds' : Rabs (s' - (S0 + x)) <= 2 * (kk + 1) * u). { apply Rabs_le_inv in Ds, R1. apply Rabs_le. replace (eps * (2 * P)) with (2 * u) in R1 by (unfold u; ring). lra. }
  (* the difference *)
  assert (Fi : fval i (kk + 1)). { unfold i. replace (kk + 1) with (IZR (Z.of_N (k + 1))) by (rewrite Kd, N2Z.inj_add, plus_IZR; reflexivity). apply fval_int. lia. }
  assert (IX : 0 <= (kk + 1) * x <= P) by (split; [apply Rmult_le_pos; lra|]; apply Rle_trans with (2 := HP); apply Rmult_le_compat_l; lra).
  assert (A2 : Rabs ((kk + 1) * x) <= P) by (apply Rabs_le; lra). pose proof (fval_mul _ _ _ _ Fi Fx (Big _ _ A2 ltac:(lra))) as Fp. pose proof (rnd_err P _ ltac:(lra) A2) as R2. fold u in R2. set (p := rnd ((kk + 1) * x)) in *.
  assert (A3 : Rabs (p - s') <= 4 * P). { apply Rabs_le_inv in R2, Ds'. apply Rabs_le. lra. }
  pose proof (fval_sub _ _ _ _ Fp Fsm (Big _ _ A3 ltac:(lra))) as Fd. pose proof (rnd_err (4 * P) _ ltac:(lra) A3) as R3. replace (eps * (4 * P)) with (4 * u) in R3 by (unfold u; ring). set (d := rnd (p - s')) in *. fold sm in Fsm, Fd. fold df in Fd.
  set (D := (kk + 1) * x - (S0 + x)). assert (De : Rabs (d - D) <= 5 * (kk + 1) * u). { apply Rabs_le_inv in R2, R3, Ds'. unfold D. apply Rabs_le. assert (u <= kk * u) by (rewrite <- (Rmult_1_l u) at 1; apply Rmult_le_compat_r; lra). lra. }
  assert (Bd : Rabs d <= 5 * P) by (apply Rabs_le_inv in R3, A3; apply Rabs_le; lra).
  (* its square *)
  assert (DD : 0 <= d * d <= 25 * (P * P)). { split; [apply Rle_0_sqr|]. rewrite <- (Rabs_pos_eq (d * d)) by apply Rle_0_sqr. rewrite Rabs_mult. replace (25 * (P * P)) with (5 * P * (5 * P)) by ring. apply Rmult_le_compat; try apply Rabs_pos; exact Bd. }
  assert (PP : P * P <= 17179869184). { replace 17179869184 with (131072 * 131072) by lra. apply Rmult_le_compat; lra. }
  assert (A4 : Rabs (d * d) <= 500000000000) by (rewrite Rabs_pos_eq; lra). pose proof (fval_mul _ _ _ _ Fd Fd (Big _ _ A4 ltac:(lra))) as Fq. pose proof (rnd_lo _ (proj1 DD)) as Lq. pose proof (rnd_nonneg _ (proj1 DD)) as Q1. pose proof (rnd_err 500000000000 _ ltac:(lra) A4) as R4. set (q := rnd (d * d)) in *.
  assert (Bq : q <= 600000000000) by (apply Rabs_le_inv in R4; apply Rabs_le_inv in A4; assert (eps * 500000000000 <= / 1000000 * 500000000000) by (apply Rmult_le_compat_r; lra); lra).
  (* the divisor *)
  assert (I1 : fval (f_sub i f_one) kk). { assert (H5 : Rabs (kk + 1 - 1) <= 5000) by (apply Rabs_le; lra). pose proof (fval_sub i f_one (kk + 1) 1 Fi (fval_int 1 ltac:(lia)) (Big _ _ H5 ltac:(lra))) as H. replace (kk + 1 - 1) with kk in H by ring. rewrite rnd_format in H; [exact H|]. rewrite Kd. apply format_int. lia. }
  assert (IJ : fval (f_mul i (f_sub i f_one)) ((kk + 1) * kk)). { assert (Z : (kk + 1) * kk = IZR (Z.of_N ((k + 1) * k))) by (rewrite Kd, N2Z.inj_mul, mult_IZR, N2Z.inj_add, plus_IZR; reflexivity).
    assert (Zb : (Z.of_N ((k + 1) * k) <= 2049 * 2048)%Z) by (rewrite N2Z.inj_mul, N2Z.inj_add; apply Z.mul_le_mono_nonneg; lia). assert (Zr : (kk + 1) * kk <= 4196352) by (rewrite Z; apply IZR_le; exact Zb). assert (0 <= (kk + 1) * kk) by (apply Rmult_le_pos; lra).
    assert (H6 : Rabs ((kk + 1) * kk) <= 4196352) by (rewrite Rabs_pos_eq; lra). pose proof (fval_mul _ _ _ _ Fi I1 (Big _ _ H6 ltac:(lra))) as H'. rewrite rnd_format in H'; [exact H'|]. rewrite Z. apply format_int. lia. }
  assert (W2 : 2 <= (kk + 1) * kk) by (replace 2 with (2 * 1) by ring; apply Rmult_le_compat; lra). set (w := (kk + 1) * kk) in *. assert (Wi : 0 < / w <= / 2) by (split; [apply Rinv_0_lt_compat; lra|apply Rinv_le_contravar; lra]).
  assert (Q2 : 0 <= q / w <= 600000000000). { split; [apply Rmult_le_pos; lra|]. unfold Rdiv. apply Rle_trans with (600000000000 * / 2); [apply Rmult_le_compat; lra|lra]. }
  assert (A5 : Rabs (q / w) <= 600000000000) by (rewrite Rabs_pos_eq; lra). pose proof (fval_div _ _ _ _ Fq IJ ltac:(lra) (Big _ _ A5 ltac:(lra))) as Fr. pose proof (rnd_lo _ (proj1 Q2)) as Lr. pose proof (rnd_nonneg _ (proj1 Q2)) as Rr0. pose proof (rnd_err 600000000000 _ ltac:(lra) A5) as R5. set (r := rnd (q / w)) in *.
  assert (Br : r <= 700000000000) by (apply Rabs_le_inv in R5; assert (eps * 600000000000 <= / 1000000 * 600000000000) by (apply Rmult_le_compat_r; lra); lra).
  (* the new variance *)
  assert (KB : kk * bpow radix2 50 <= 2048 * bpow radix2 50) by (apply Rmult_le_compat_r; lra).
  assert (V0 : 0 <= v + r) by lra. assert (A6 : Rabs (v + r) <= 2049 * bpow radix2 50) by (rewrite Rabs_pos_eq; lra).
  pose proof (fval_add _ _ _ _ Fv Fr (Big _ _ A6 ltac:(lra))) as Fv'. pose proof (rnd_lo _ V0) as Lv'. pose proof (rnd_nonneg _ V0) as V0'. pose proof (rnd_err (2049 * bpow radix2 50) _ ltac:(lra) A6) as R6. set (v' := rnd (v + r)) in *.
  assert (E50 : eps * (2049 * bpow radix2 50) <= 2049). { unfold eps. replace (bpow radix2 (-53) * (2049 * bpow radix2 50)) with (2049 * (bpow radix2 (-53) * bpow radix2 50)) by ring. rewrite <- bpow_plus. assert (bpow radix2 (-53 + 50) <= bpow radix2 0) by (apply bpow_le; lia). change (bpow radix2 0) with 1 in *. lra. }
  exists s', v'. split; [exact Fsm|]. split; [exact Fv'|]. split; [exact Ds'|]. split; [split; [exact V0'|apply Rabs_le_inv in R6; rewrite Rmult_plus_distr_r; lra]|].
  rewrite spread_step by lra. fold D w. set (Q := spread kk S0 A) in *. assert (DW : 0 <= D * D / w) by (apply Rmult_le_pos; [apply Rle_0_sqr|lra]). split; [lra|].
  (* lower bound *)
  assert (HS1 : D * D / 2 - (5 * (kk + 1) * u) * (5 * (kk + 1) * u) <= d * d).
  { pose proof (half_square D (d - D)) as H. replace (D + (d - D)) with d in H by ring. assert ((d - D) * (d - D) <= (5 * (kk + 1) * u) * (5 * (kk + 1) * u)). { rewrite <- (Rabs_pos_eq ((d - D) * (d - D))) by apply Rle_0_sqr. rewrite Rabs_mult. apply Rmult_le_compat; try apply Rabs_pos; exact De. } lra. }
  assert (HS2 : D * D / w / 2 - 50 * u * u <= d * d / w).
  { assert (H : (D * D / 2 - (5 * (kk + 1) * u) * (5 * (kk + 1) * u)) * / w <= d * d * / w) by (apply Rmult_le_compat_r; lra). unfold Rdiv at 3.
    assert (G : (5 * (kk + 1) * u) * (5 * (kk + 1) * u) * / w <= 50 * u * u). { replace ((5 * (kk + 1) * u) * (5 * (kk + 1) * u) * / w) with (25 * (u * u) * ((kk + 1) * / kk)) by (unfold w; field; lra).
      assert ((kk + 1) * / kk <= 2) by (apply Rmult_le_reg_r with kk; [lra|]; rewrite Rmult_assoc, Rinv_l by lra; lra). assert (0 <= 25 * (u * u)) by (apply Rmult_le_pos; [lra|apply Rle_0_sqr]). apply Rle_trans with (25 * (u * u) * 2); [apply Rmult_le_compat_l; lra|lra]. }
    unfold Rdiv in *. rewrite Rmult_minus_distr_r in H. replace (D * D * / w * / 2) with (D * D * / 2 * / w) by ring. lra. }
  set (z := D * D / w) in *. set (y := d * d / w) in *. assert (Y0 : 0 <= y) by (apply Rmult_le_pos; lra).
  assert (Lr1 : (1 - eps) * ((1 - eps) * y - tiny) - tiny <= r).
  { apply Rle_trans with (2 := Lr). assert (H : (1 - eps) * y - tiny <= q / w). { assert (H : ((1 - eps) * (d * d) - tiny) * / w <= q * / w) by (apply Rmult_le_compat_r; lra). unfold y, Rdiv in *. rewrite Rmult_minus_distr_r in H. assert (tiny * / w <= tiny * 1) by (apply Rmult_le_compat_l; lra). lra. }
    assert ((1 - eps) * ((1 - eps) * y - tiny) <= (1 - eps) * (q / w)) by (apply Rmult_le_compat_l; lra). lra. }
  clearbody y z.
  assert (Y1 : (1 - 2 * eps) * y - 2 * tiny <= r). { apply Rle_trans with (2 := Lr1). assert (0 <= eps * eps * y) by (repeat apply Rmult_le_pos; lra). assert (0 <= eps * tiny) by (apply Rmult_le_pos; lra). lra. }
  set (g := 50 * u * u) in *. assert (G0 : 0 <= g) by (unfold g; repeat apply Rmult_le_pos; lra). assert (Cc : c = g + 4 * tiny) by (rewrite Cd; unfold g, u; ring). rewrite Cc in *.
  set (lam := 1 - 3 * kk * eps) in *. assert (Kc : 0 <= kk * (g + 4 * tiny)) by (apply Rmult_le_pos; lra).
  assert (KE : 0 <= kk * eps <= / 400). { split; [apply Rmult_le_pos; lra|]. apply Rle_trans with (2048 * / 1000000); [apply Rmult_le_compat; lra|lra]. }
  assert (L1 : (1 - eps) * v >= (lam - 3 * eps) * (Q / 2) - kk * (g + 4 * tiny)).
  { assert (H : (1 - eps) * (lam * (Q / 2) - kk * (g + 4 * tiny)) <= (1 - eps) * v) by (apply Rmult_le_compat_l; lra).
    assert (H1 : 0 <= eps * (kk * (g + 4 * tiny))) by (apply Rmult_le_pos; lra). assert (H2 : 0 <= eps * (Q / 2) * (3 - lam)) by (repeat apply Rmult_le_pos; unfold lam; lra).
    replace ((1 - eps) * (lam * (Q / 2) - kk * (g + 4 * tiny))) with ((lam - 3 * eps) * (Q / 2) - kk * (g + 4 * tiny) + eps * (kk * (g + 4 * tiny)) + eps * (Q / 2) * (3 - lam)) in H by ring. lra. }
  assert (L2 : (1 - eps) * r >= (lam - 3 * eps) * (z / 2) - g - 3 * tiny).
  { assert (H : (1 - eps) * ((1 - 2 * eps) * y - 2 * tiny) <= (1 - eps) * r) by (apply Rmult_le_compat_l; lra).
    assert (H0 : (1 - eps) * ((1 - 2 * eps) * y) >= (1 - 3 * eps) * y) by (assert (0 <= eps * eps * y) by (repeat apply Rmult_le_pos; lra); lra).
    assert (H1 : (1 - 3 * eps) * (z / 2 - g) <= (1 - 3 * eps) * y) by (apply Rmult_le_compat_l; lra).
    assert (H2 : (lam - 3 * eps) * (z / 2) <= (1 - 3 * eps) * (z / 2)) by (apply Rmult_le_compat_r; unfold lam; lra).
    assert (H3 : 0 <= eps * g) by (apply Rmult_le_pos; lra). assert (H4 : 0 <= eps * tiny) by (apply Rmult_le_pos; lra). lra. }
  replace (1 - 3 * (kk + 1) * eps) with (lam - 3 * eps) by (unfold lam; ring). lra.
Qed.
Lemma var_from_R l xs : Forall2 fval l xs -> forall k sf s S0 vf v A P X, fval sf s -> fval vf v -> (1 <= k)%N -> (k + N.of_nat (length l) <= 2048)%N -> 1 <= X -> Forall (fun x => 0 <= x <= X) xs ->
  let kk := IZR (Z.of_N k) in let c := 50 * (eps * P) * (eps * P) + 4 * tiny in let n := kk + IZR (Z.of_nat (length xs)) in
  n * X <= P -> P <= 131072 -> 0 <= S0 <= kk * X -> Rabs (s - S0) <= 2 * kk * (eps * P) -> 0 <= v <= kk * bpow radix2 50 -> 0 <= spread kk S0 A -> (1 - 3 * kk * eps) * (spread kk S0 A / 2) - kk * c <= v ->
  exists vf' v', var_from (f_of_u64 k) sf vf l = (f_of_u64 (k + N.of_nat (length l)), vf') /\ fval vf' v' /\ 0 <= v' <= n * bpow radix2 50 /\
    (1 - 3 * n * eps) * (spread n (S0 + sumR xs) (A + sumsq xs) / 2) - n * c <= v'.
Proof.
  induction 1 as [|a x l xs Fx F IH]; intros k sf s S0 vf v A P X Fs Fv K1 K2 X1 B kk c n HP P1 HS Ds Bv Q0 Lv.
  - exists vf, v. cbn [var_from length]. change (N.of_nat 0) with 0%N. rewrite N.add_0_r. split; [reflexivity|]. split; [exact Fv|]. unfold n, sumsq. cbn [length Z.of_nat map sumR fold_right]. rewrite !Rplus_0_r. split; assumption.
  - cbn [var_from]. inversion B as [|? ? Bx B']; subst. cbn [length] in *. assert (I1 : f_add (f_of_u64 k) f_one = f_of_u64 (k + 1)) by (unfold f_one; apply add_count; lia). rewrite I1.
    assert (Hl : n = kk + 1 + IZR (Z.of_nat (length xs))) by (unfold n; rewrite Nat2Z.inj_succ, succ_IZR; ring). assert (L0 : 0 <= IZR (Z.of_nat (length xs))) by (apply IZR_le; lia).
    assert (HP1 : (kk + 1) * X <= P) by (apply Rle_trans with (2 := HP); apply Rmult_le_compat_r; lra).
    destruct (var_add a x (sf, s) S0 (vf, v) k A P X Fx Fs Fv ltac:(lia) X1 Bx HP1 P1 HS Ds Bv Q0 Lv) as (s' & v' & Fs' & Fv' & Ds' & Bv' & Q0' & Lv'). cbn [fst snd] in *. fold kk in Ds', Bv', Q0', Lv'.
    assert (Hk : IZR (Z.of_N (k + 1)) = kk + 1) by (unfold kk; rewrite N2Z.inj_add, plus_IZR; reflexivity).
    destruct (IH (k + 1)%N _ s' (S0 + x) _ v' (A + x * x) P X Fs' Fv' ltac:(lia) ltac:(lia) X1 B') as (vf' & v2 & Ev & Fv2 & Bv2 & Lv2); rewrite ?Hk; try assumption.
    + rewrite <- Hl. exact HP.
    + rewrite Rmult_plus_distr_r. lra.
    + exists vf', v2. rewrite Hk, <- Hl in *. split; [rewrite Ev; replace (k + 1 + N.of_nat (length l))%N with (k + N.of_nat (S (length l)))%N by lia; reflexivity|]. split; [exact Fv2|]. split; [exact Bv2|]. unfold sumsq in *. cbn [map sumR fold_right]. cbn [sumR] in *.
      change (fold_right Rplus 0 xs) with (sumR xs). change (fold_right Rplus 0 (map (fun x => x * x) xs)) with (sumR (map (fun x => x * x) xs)). rewrite <- !Rplus_assoc. exact Lv2.
Qed.
Definition dev (xs : list R) : R := sumR (map (fun x => (x - avg xs) * (x - avg xs)) xs).
Lemma dev_at mu xs : sumR (map (fun x => (x - mu) * (x - mu)) xs) = sumsq xs - 2 * mu * sumR xs + IZR (Z.of_nat (length xs)) * mu * mu.
Proof.
  induction xs as [|x xs IH]; [cbn; ring|]. unfold sumsq in *. cbn [map sumR fold_right length]. unfold sumR in IH. rewrite IH, Nat2Z.inj_succ, succ_IZR. ring.
Qed.
Lemma dev_spread xs : xs <> [] -> dev xs = spread (IZR (Z.of_nat (length xs))) (sumR xs) (sumsq xs).
Proof.
  intro H. unfold dev. rewrite dev_at. unfold spread, avg. assert (1 <= IZR (Z.of_nat (length xs))) by (apply IZR_le; destruct xs; [contradiction|cbn [length]; lia]). field. lra.
Qed.
Lemma sum_pos {A} (g : A -> R) l : (forall x, 0 <= g x) -> 0 <= sumR (map g l).
Proof. intro H. induction l as [|y l IH]; [cbn; lra|]. cbn [map sumR fold_right]. unfold sumR in IH. specialize (H y). lra. Qed.
Lemma sum_one {A} (g : A -> R) l x : (forall x, 0 <= g x) -> In x l -> g x <= sumR (map g l).
Proof.
  intros H I. induction l as [|y l IH]; [contradiction|]. cbn [map sumR fold_right]. fold (sumR (map g l)). pose proof (sum_pos g l H). pose proof (H y). destruct I as [->|I]; [lra|]. specialize (IH I). lra.
Qed.
Lemma sum_two {A} (g : A -> R) l x y : (forall x, 0 <= g x) -> In x l -> In y l -> x <> y -> g x + g y <= sumR (map g l).
Proof.
  intros H Ix Iy N. induction l as [|z l IH]; [contradiction|]. cbn [map sumR fold_right]. fold (sumR (map g l)). destruct Ix as [->|Ix], Iy as [->|Iy].
  - contradiction.
  - pose proof (sum_one g l y H Iy). lra.
  - pose proof (sum_one g l x H Ix). lra.
  - specialize (IH Ix Iy). pose proof (H z). lra.
Qed.
Lemma dev_gap xs x y : In x xs -> In y xs -> x <> y -> (x - y) * (x - y) / 2 <= dev xs.
Proof.
  intros Ix Iy N. pose proof (sum_two (fun z => (z - avg xs) * (z - avg xs)) xs x y (fun z => Rle_0_sqr _) Ix Iy N) as H. fold (dev xs) in H. set (m := avg xs) in *.
  assert (0 <= (x + y - 2 * m) * (x + y - 2 * m)) by apply Rle_0_sqr. apply Rle_trans with (2 := H). replace ((x - m) * (x - m) + (y - m) * (y - m)) with ((x - y) * (x - y) / 2 + (x + y - 2 * m) * (x + y - 2 * m) / 2) by field. lra.
Qed.
Lemma some_close (g : R -> R) xs : xs <> [] -> exists x, In x xs /\ IZR (Z.of_nat (length xs)) * g x <= sumR (map g xs).
Proof.
  induction xs as [|y xs IH]; [contradiction|]. intros _. destruct xs as [|z xs].
  - exists y. split; [now left|]. cbn. lra.
  - destruct (IH ltac:(discriminate)) as (x & Ix & Hx). set (l := z :: xs) in *. assert (L1 : 0 <= IZR (Z.of_nat (length l))) by (apply IZR_le; lia).
    cbn [length]. rewrite Nat2Z.inj_succ, succ_IZR. cbn [map sumR fold_right]. fold (sumR (map g l)). destruct (Rle_or_lt (g x) (g y)) as [C|C].
    + exists x. split; [now right|]. lra.
    + exists y. split; [now left|]. assert (IZR (Z.of_nat (length l)) * g y <= IZR (Z.of_nat (length l)) * g x) by (apply Rmult_le_compat_l; lra). lra.
Qed.
Lemma Forall2_same {A B} (R : A -> B -> Prop) a b : Forall2 R a b -> length a = length b.
Proof. induction 1; [reflexivity|]. cbn [length]. now f_equal. Qed.
Lemma variance_R l xs P X : Forall2 fval l xs -> (2 <= length l <= 2048)%nat -> 1 <= X -> Forall (fun x => 0 <= x <= X) xs -> let n := IZR (Z.of_nat (length xs)) in n * X <= P -> P <= 131072 ->
  exists v w, fval (stat_variance l) w /\ 0 <= w <= bpow radix2 62 /\ 0 <= v /\ (1 - eps) * (v / (n - 1)) - tiny <= w /\
    (1 - 3 * n * eps) * (dev xs / 2) - n * (50 * (eps * P) * (eps * P) + 4 * tiny) <= v.
Proof.
  intros F Hl X1 B n HP P1. pose proof (Forall2_same _ _ _ F) as Le. destruct F as [|a x l xs Fx F]; [cbn in Hl; lia|]. inversion B as [|? ? Bx B']; subst. cbn [length] in *. injection Le as Le.
  assert (Hn : n = 1 + IZR (Z.of_nat (length xs))) by (unfold n; cbn [length]; rewrite Nat2Z.inj_succ, succ_IZR; ring). assert (N1 : 1 <= IZR (Z.of_nat (length xs))) by (apply IZR_le; lia).
  pose proof eps_small as [E0 E1]. pose proof tiny_pos as T0. assert (P0 : 0 <= P) by (apply Rle_trans with (2 := HP); apply Rmult_le_pos; lra). assert (C0 : 0 <= 50 * (eps * P) * (eps * P)) by (rewrite Rmult_assoc; apply Rmult_le_pos; [lra|apply Rle_0_sqr]).
  destruct (var_from_R l xs F 1%N a x x (S754_zero false) 0 (x * x) P X Fx (fval_int 0 ltac:(lia)) ltac:(lia) ltac:(lia) X1 B') as (vf & v & Ev & Fv & Bv & Lv); change (Z.of_N 1) with 1%Z; rewrite <- ?Hn; try assumption.
  - lra.
  - rewrite Rminus_diag_eq, Rabs_R0 by reflexivity. assert (0 <= eps * P) by (apply Rmult_le_pos; lra). lra.
  - pose proof (bpow_gt_0 radix2 50). lra.
  - unfold spread. replace (x * x - x * x / 1) with 0 by field. lra.
  - unfold spread. replace (x * x - x * x / 1) with 0 by field. lra.
  - change (Z.of_N 1) with 1%Z in *. rewrite <- Hn in Bv, Lv. set (i := (1 + N.of_nat (length l))%N) in *. assert (Fi : fval (f_of_u64 i) n). { replace n with (IZR (Z.of_N i)). apply fval_int; unfold i; lia. rewrite Hn. unfold i. rewrite N2Z.inj_add, nat_N_Z, plus_IZR, Le. reflexivity. }
    assert (F1 : fval f_one 1) by exact (fval_int 1 ltac:(lia)). assert (Nb : n <= 2048) by (unfold n; cbn [length]; apply IZR_le; lia).
    assert (H5 : Rabs (n - 1) <= bpow radix2 62) by (rewrite IZR_bpow by lia; apply Rabs_le; change (2 ^ 62)%Z with 4611686018427387904%Z; lra).
    pose proof (fval_sub _ _ _ _ Fi F1 (big_bound _ _ H5 ltac:(apply bpow_le; lia))) as Fj. rewrite rnd_format in Fj by (rewrite Hn; replace (1 + IZR (Z.of_nat (length xs)) - 1) with (IZR (Z.of_nat (length xs))) by ring; apply format_int; lia).
    set (j := n - 1) in *. assert (J1 : 1 <= j) by (unfold j; lra). assert (Ji : 0 < / j <= 1) by (split; [apply Rinv_0_lt_compat; lra|rewrite <- Rinv_1; apply Rinv_le_contravar; lra]).
    assert (V0 : 0 <= v / j) by (apply Rmult_le_pos; lra). assert (V1 : v / j <= bpow radix2 61). { unfold Rdiv. apply Rle_trans with (n * bpow radix2 50 * 1); [apply Rmult_le_compat; lra|]. change 61%Z with (11 + 50)%Z. rewrite bpow_plus, Rmult_1_r. apply Rmult_le_compat_r; [apply bpow_ge_0|]. rewrite IZR_bpow by lia. exact Nb. }
    assert (V2 : Rabs (v / j) <= bpow radix2 61) by (rewrite Rabs_pos_eq; lra). pose proof (fval_div _ _ _ _ Fv Fj ltac:(lra) (big_bound _ _ V2 ltac:(apply bpow_le; lia))) as Fw. pose proof (rnd_bound 61 _ ltac:(lia) V2) as Bw. pose proof (rnd_nonneg _ V0) as W0. rewrite Rabs_pos_eq in Bw by exact W0.
    exists v, (rnd (v / j)). assert (B62 : bpow radix2 61 <= bpow radix2 62) by (apply bpow_le; lia). split; [|split; [lra|split; [lra|split]]].
    + cbn [stat_variance]. unfold f_one at 1. rewrite Ev. assert (Lt : SFltb f_one (f_of_u64 i) = true) by (apply (ltb_R _ _ _ _ F1 Fi); lra). rewrite Lt. exact Fw.
    + apply rnd_lo. exact V0.
    + rewrite dev_spread by discriminate. cbn [length]. replace (IZR (Z.of_nat (S (length xs)))) with n by reflexivity. unfold sumsq in *. cbn [map sumR fold_right]. exact Lv.
Qed.

(** ** Not every time is discarded *)
Lemma eps_val : eps = / 9007199254740992.
Proof. unfold eps. cbn [bpow]. reflexivity. Qed.
Lemma tiny_small : tiny <= / 1000000000000000000000000000000000000000000000000000000000000000000000000000000.
Proof. unfold tiny. apply Rle_trans with (bpow radix2 (-270)); [apply bpow_le; lia|]. cbn [bpow]. apply Rinv_le_contravar; [lra|]. apply IZR_le. vm_compute. discriminate. Qed.
Lemma kept l xs X : Forall2 fval l xs -> (2 <= length l)%nat -> 1 <= X -> Forall (fun x => 0 <= x <= X) xs -> let n := IZR (Z.of_nat (length xs)) in n * n * n * X * X <= 8589934592 ->
  (forall x y, In x xs -> In y xs -> x = y \/ / 2000000000 <= Rabs (x - y)) ->
  filter (bench_keep (stat_mean l) (f_mul f_three (stat_std_dev l))) l <> [].
Proof.
  intros F Hl X1 B n HX Gap. pose proof (Forall2_same _ _ _ F) as Le. assert (N2 : 2 <= n) by (unfold n; apply IZR_le; lia). set (P := n * X).
  assert (NP : n * (P * P) <= 8589934592) by (replace (n * (P * P)) with (n * n * n * X * X) by (unfold P; ring); exact HX).
  assert (P0 : n <= P) by (unfold P; rewrite <- (Rmult_1_r n) at 1; apply Rmult_le_compat_l; lra). assert (PX : X <= P) by (unfold P; rewrite <- (Rmult_1_l X) at 1; apply Rmult_le_compat_r; lra).
  assert (PP : P * P <= 8589934592). { apply Rle_trans with (2 := NP). rewrite <- (Rmult_1_l (P * P)) at 1. apply Rmult_le_compat_r; [apply Rle_0_sqr|lra]. }
  assert (P1 : P <= 131072). { destruct (Rle_or_lt P 131072) as [|C]; [assumption|]. exfalso. assert (131072 * 131072 < P * P) by (apply Rmult_gt_0_lt_compat; lra). lra. }
  assert (Nb : n <= 2048). { destruct (Rle_or_lt n 2048) as [|C]; [assumption|]. exfalso. assert (Q : 2048 * 2048 < P * P) by (apply Rmult_gt_0_lt_compat; lra). assert (2048 * (2048 * 2048) < n * (P * P)) by (apply Rmult_gt_0_lt_compat; lra). lra. }
  assert (Lb : (length l <= 2048)%nat) by (apply le_IZR in Nb; lia). pose proof eps_small as [E0 E1]. pose proof tiny_pos as T0. pose proof tiny_1 as T1.
  destruct (variance_R l xs P X F ltac:(lia) X1 B ltac:(fold n; unfold P; lra) P1) as (v & w & Fw & Bw & V0 & Lw & Lv). fold n in Lw, Lv.
  pose proof (fval_sqrt _ _ Fw (proj1 Bw)) as Fsd. pose proof (sqrt_pos w) as Q0. pose proof (rnd_nonneg _ Q0) as Sd0. pose proof (rnd_lo _ Q0) as Ls. set (sd := rnd (sqrt w)) in *.
  assert (SB : sqrt w <= bpow radix2 31). { rewrite <- (sqrt_Rsqr (bpow radix2 31)) by apply bpow_ge_0. apply sqrt_le_1_alt. unfold Rsqr. rewrite <- bpow_plus. apply (proj2 Bw). }
  pose proof (rnd_bound 31 (sqrt w) ltac:(lia) ltac:(rewrite Rabs_pos_eq; lra)) as Bsd. fold sd in Bsd. rewrite Rabs_pos_eq in Bsd by exact Sd0.
  assert (F3 : fval f_three 3) by exact (fval_int 3 ltac:(lia)). assert (T3 : 0 <= 3 * sd) by lra. assert (B3 : Rabs (3 * sd) <= bpow radix2 33). { rewrite Rabs_pos_eq by lra. change 33%Z with (2 + 31)%Z. rewrite bpow_plus. change (bpow radix2 2) with 4. pose proof (bpow_ge_0 radix2 31). lra. }
  pose proof (fval_mul _ _ _ _ F3 Fsd (big_bound _ _ B3 ltac:(apply bpow_le; lia))) as Ft. pose proof (rnd_nonneg _ T3) as T30. pose proof (rnd_lo _ T3) as Lt. set (thr := rnd (3 * sd)) in *.
  change (f_sqrt (stat_variance l)) with (stat_std_dev l) in *.
  assert (Xtop : X <= top). { apply Rle_trans with 131072; [lra|]. unfold top. rewrite IZR_bpow by lia. change (2 ^ 64)%Z with 18446744073709551616%Z. lra. }
  assert (Lne : l <> []) by (intros ->; cbn in Hl; lia). assert (Xne : xs <> []) by (intros ->; cbn in Le; lia).
  assert (Hit : forall a x m, In (a, x) (combine l xs) -> fval a x -> fval (stat_mean l) m -> Rabs (rnd (x - m)) <= thr -> Rabs (x - m) <= X -> filter (bench_keep (stat_mean l) (f_mul f_three (stat_std_dev l))) l <> []).
  { intros a x m Ia Fa Fm H HB C. assert (In a (filter (bench_keep (stat_mean l) (f_mul f_three (stat_std_dev l))) l)) as J.
    { apply filter_In. split; [apply in_combine_l in Ia; exact Ia|]. unfold bench_keep. apply (R_f_leb _ _ (Rabs (rnd (x - m))) thr); [|exact Ft|exact H]. apply fval_abs, fval_sub; auto. apply (big_bound _ X HB). apply Rle_trans with (1 := Xtop). unfold top. apply bpow_le. lia. }
    rewrite C in J. contradiction. }
  destruct (Req_dec (dev xs) 0) as [Z|Z].
  - (* all equal *)
    destruct xs as [|x0 xs]; [contradiction|]. destruct l as [|a0 l]; [contradiction|]. inversion F as [|? ? ? ? Fa F']; subst.
    assert (Eq : forall y, In y (x0 :: xs) -> y = x0). { intros y Iy. destruct (Req_dec y x0) as [|C]; [assumption|]. exfalso. pose proof (dev_gap (x0 :: xs) y x0 Iy (or_introl eq_refl) C) as G. rewrite Z in G. assert (0 < (y - x0) * (y - x0)) by (apply Rsqr_pos_lt; lra). lra. }
    assert (B' : Forall (fun x => x0 <= x <= x0) (x0 :: xs)) by (apply Forall_forall; intros y Iy; rewrite (Eq y Iy); lra). inversion B as [|? ? B0 _]; subst.
    destruct (stat_mean_R _ _ x0 x0 X F Lne B' ltac:(lra) ltac:(lra) ltac:(lra) ltac:(lia)) as (m & Fm & Bm & _). assert (m = x0) by lra. subst m.
    apply (Hit a0 x0 x0); auto; [now left|rewrite Rminus_diag_eq by reflexivity; rewrite rnd_0, Rabs_R0; exact T30|rewrite Rminus_diag_eq, Rabs_R0 by reflexivity; lra].
  - (* some gap *)
    assert (Dg : / 8000000000000000000 <= dev xs).
    { destruct (some_close (fun x => (x - avg xs) * (x - avg xs)) xs Xne) as (x & Ix & _). assert (Ex : exists y, In y xs /\ y <> x).
      { destruct (Forall_Exists_dec (fun y => y = x) (fun y => Req_EM_T y x) xs) as [A|A]; [|apply Exists_exists in A; exact A]. exfalso. apply Z. rewrite Forall_forall in A.
        assert (Av : avg xs = x). { assert (G : forall zs, (forall y, In y zs -> y = x) -> sumR zs = IZR (Z.of_nat (length zs)) * x). { induction zs as [|z zs IH]; intro H; [cbn; ring|]. cbn [sumR fold_right length]. unfold sumR in IH. rewrite (H z) by now left. rewrite IH by (intros; apply H; now right). rewrite Nat2Z.inj_succ, succ_IZR. ring. }
          unfold avg. rewrite (G xs A). field. fold n. lra. }
        unfold dev. rewrite Av. assert (G : forall zs, (forall y, In y zs -> y = x) -> sumR (map (fun x1 => (x1 - x) * (x1 - x)) zs) = 0). { induction zs as [|z zs IH]; intro H; [reflexivity|]. cbn [map sumR fold_right]. unfold sumR in IH. rewrite (H z) by now left. rewrite IH by (intros; apply H; now right). ring. }
        apply G. exact A. }
      destruct Ex as (y & Iy & Ny). apply Rle_trans with (2 := dev_gap xs y x Iy Ix Ny). destruct (Gap y x Iy Ix) as [C|C]; [contradiction|]. assert (H : / 2000000000 * / 2000000000 <= Rabs (y - x) * Rabs (y - x)) by (apply Rmult_le_compat; lra).
      rewrite <- Rabs_mult, Rabs_pos_eq in H by apply Rle_0_sqr. lra. }
    (* lower bound of the threshold *)
    set (Q := dev xs) in *. pose proof tiny_small as Ts. assert (EP : n * ((eps * P) * (eps * P)) <= / 9444732965739290427392). { replace (n * ((eps * P) * (eps * P))) with (eps * eps * (n * (P * P))) by ring. rewrite eps_val. apply Rle_trans with (/ 9007199254740992 * / 9007199254740992 * 8589934592); [apply Rmult_le_compat_l; lra|lra]. }
    assert (NE : 0 <= 3 * n * eps <= / 100). { split; [repeat apply Rmult_le_pos; lra|]. assert (n * eps <= 2048 * / 1000000) by (apply Rmult_le_compat; lra). lra. }
    assert (NT : n * (4 * tiny) <= / 1000000000000000000000000000000000000000000000000000000000000) by (apply Rle_trans with (2048 * (4 * / 1000000000000000000000000000000000000000000000000000000000000000000000000000000)); [apply Rmult_le_compat; lra|lra]).
    assert (Lv1 : 44 / 100 * Q <= v). { apply Rle_trans with (2 := Lv). assert (99 / 100 * (Q / 2) <= (1 - 3 * n * eps) * (Q / 2)) by (apply Rmult_le_compat_r; lra). replace (n * (50 * (eps * P) * (eps * P) + 4 * tiny)) with (50 * (n * ((eps * P) * (eps * P))) + n * (4 * tiny)) by ring. lra. }
    assert (Qn : 0 < Q / n) by (apply Rmult_lt_0_compat; [lra|apply Rinv_0_lt_compat; lra]).
    assert (Qlow : / 20000000000000000000000 <= Q / n). { apply Rle_trans with (/ 8000000000000000000 * / 2048); [lra|]. apply Rmult_le_compat; try lra. apply Rinv_le_contravar; lra. }
    assert (Lw1 : 43 / 100 * (Q / n) <= w). { apply Rle_trans with (2 := Lw). assert (G : 44 / 100 * (Q / n) <= v / (n - 1)). { unfold Rdiv at 3. apply Rle_trans with (44 / 100 * Q * / (n - 1)); [|apply Rmult_le_compat_r; [apply Rlt_le, Rinv_0_lt_compat; lra|exact Lv1]]. unfold Rdiv at 2. rewrite <- Rmult_assoc. apply Rmult_le_compat_l; [lra|]. apply Rinv_le_contravar; lra. }
      assert (99 / 100 * (v / (n - 1)) <= (1 - eps) * (v / (n - 1))) by (apply Rmult_le_compat_r; lra). lra. }
    set (r := sqrt (Q / n)). assert (R0 : 0 <= r) by apply sqrt_pos. assert (RR : r * r = Q / n) by (apply sqrt_sqrt; lra).
    assert (Rlow : / 200000000000 <= r). { unfold r. rewrite <- (sqrt_Rsqr (/ 200000000000)) by lra. apply sqrt_le_1_alt. unfold Rsqr. lra. }
    assert (Sw : 65 / 100 * r <= sqrt w). { rewrite <- (sqrt_Rsqr (65 / 100 * r)) by lra. apply sqrt_le_1_alt. unfold Rsqr. replace (65 / 100 * r * (65 / 100 * r)) with (4225 / 10000 * (r * r)) by field. rewrite RR. lra. }
    assert (Lsd : 64 / 100 * r <= sd). { apply Rle_trans with (2 := Ls). assert (999 / 1000 * sqrt w <= (1 - eps) * sqrt w) by (apply Rmult_le_compat_r; lra). lra. }
    assert (Lth : 19 / 10 * r <= thr). { apply Rle_trans with (2 := Lt). assert (999 / 1000 * (3 * sd) <= (1 - eps) * (3 * sd)) by (apply Rmult_le_compat_r; lra). lra. }
    (* a time near the mean *)
    destruct (some_close (fun x => (x - avg xs) * (x - avg xs)) xs Xne) as (x & Ix & Hx). fold (dev xs) in Hx. fold Q n in Hx.
    assert (Rx : Rabs (x - avg xs) <= r). { rewrite <- (sqrt_Rsqr_abs (x - avg xs)). apply sqrt_le_1_alt. unfold Rsqr. apply Rmult_le_reg_l with n; [lra|]. replace (n * (Q / n)) with Q by (field; lra). exact Hx. }
    destruct (stat_mean_R l xs 0 X X F Lne B ltac:(lra) ltac:(lra) ltac:(lra) ltac:(lia)) as (m & Fm & Bm & Dm).
    assert (Dm' : Rabs (m - avg xs) <= / 2 * r). { apply Rle_trans with (1 := Dm). rewrite Le. fold n. replace (n * (3 * eps * X)) with (3 * (eps * P)) by (unfold P; ring). rewrite <- (Rabs_pos_eq (/ 2 * r)) by lra. assert (0 <= eps * P) by (apply Rmult_le_pos; lra). rewrite <- (Rabs_pos_eq (3 * (eps * P))) by lra.
      apply Rsqr_le_abs_0. unfold Rsqr. replace (/ 2 * r * (/ 2 * r)) with (/ 4 * (r * r)) by field. rewrite RR. apply Rmult_le_reg_l with n; [lra|]. replace (n * (/ 4 * (Q / n))) with (Q / 4) by (field; lra). replace (n * (3 * (eps * P) * (3 * (eps * P)))) with (9 * (n * ((eps * P) * (eps * P)))) by ring. lra. }
    assert (Ib : exists a, In (a, x) (combine l xs) /\ fval a x). { clear -F Ix. induction F as [|a y l xs Fy F IH]; [contradiction|]. destruct Ix as [->|Ix]; [exists a; split; [now left|exact Fy]|]. destruct (IH Ix) as (b & Ib & Fb). exists b. split; [now right|exact Fb]. }
    destruct Ib as (a & Ia & Fa). assert (Bx : 0 <= x <= X) by (rewrite Forall_forall in B; now apply B). assert (XM : Rabs (x - m) <= 3 / 2 * r) by (apply Rabs_le_inv in Rx, Dm'; apply Rabs_le; lra).
    apply (Hit a x m); auto; [|apply Rabs_le; lra]. pose proof (rnd_err (3 / 2 * r) _ ltac:(lra) XM) as Re. assert (eps * (3 / 2 * r) <= / 1000000 * (3 / 2 * r)) by (apply Rmult_le_compat_r; lra). apply Rabs_le_inv in Re, XM. apply Rabs_le. lra.
Qed.

(** ** Durations as floats *)
Definition max_secs : N := 1048576.   (* 2^20 seconds, 12 days *)
Definition sec (d : N) : R := rnd (IZR (Z.of_N (d / NANOS)) + rnd (IZR (Z.of_N (d mod NANOS)) / 1000000000)).
Lemma nanos_split d : IZR (Z.of_N d) / 1000000000 = IZR (Z.of_N (d / NANOS)) + IZR (Z.of_N (d mod NANOS)) / 1000000000.
Proof.
  pose proof (N.div_mod d NANOS ltac:(discriminate)) as H. rewrite H at 1. rewrite N2Z.inj_add, N2Z.inj_mul, plus_IZR, mult_IZR. change (Z.of_N NANOS) with 1000000000%Z. field.
Qed.
Lemma nanos_frac d : 0 <= IZR (Z.of_N (d mod NANOS)) / 1000000000 <= 1.
Proof.
  pose proof (N.mod_lt d NANOS ltac:(discriminate)) as H. set (q := (d mod NANOS)%N) in *. clearbody q. unfold NANOS in H. assert (0 <= IZR (Z.of_N q) <= 1000000000) by (split; apply IZR_le; lia). split; [apply Rmult_le_pos; lra|]. lra.
Qed.
Lemma nanos_rnd d : 0 <= rnd (IZR (Z.of_N (d mod NANOS)) / 1000000000) <= 1.
Proof.
  pose proof (nanos_frac d) as [A B]. split; [now apply rnd_nonneg|]. rewrite <- (rnd_format 1) by (apply (format_int 1); lia). now apply rnd_le.
Qed.
Lemma fval_sec d : (d / NANOS <= max_secs)%N -> fval (as_secs_f64 d) (sec d).
Proof.
  intro H. unfold max_secs in H. unfold as_secs_f64, sec. assert (M : (d mod NANOS < NANOS)%N) by (apply N.mod_lt; discriminate). pose proof (nanos_frac d) as A. pose proof (nanos_rnd d) as A'. pose proof top_big as TB. pose proof top_1 as T1.
  set (z := (d / NANOS)%N) in *. set (q := (d mod NANOS)%N) in *. clearbody z q. unfold NANOS in M.
  assert (F2 : fval (f_of_u64 NANOS) 1000000000) by (apply (fval_int NANOS); unfold NANOS; lia).
  assert (H1 : Rabs (IZR (Z.of_N q) / 1000000000) <= 1) by (rewrite Rabs_pos_eq; lra).
  assert (F1 : fval (f_of_u64 q) (IZR (Z.of_N q))) by (apply fval_int; lia).
  assert (E1 : 1000000000 <> 0) by lra.
  assert (E2 : 1 <= 8 * top) by lra.
  pose proof (fval_div _ _ _ _ F1 F2 E1 (big_bound _ _ (Rle_trans _ _ _ H1 E2) TB)) as Fd.
  assert (S0 : 0 <= IZR (Z.of_N z) <= 2097152) by (split; apply IZR_le; lia). set (fr := rnd (IZR (Z.of_N q) / 1000000000)) in *.
  assert (H2 : Rabs (IZR (Z.of_N z) + fr) <= 8 * top). { rewrite Rabs_pos_eq by lra. apply Rle_trans with 2097153; [lra|]. unfold top. rewrite <- IZR_Zpower by lia. change (radix2 ^ 64)%Z with 18446744073709551616%Z. lra. }
  apply fval_add; [apply fval_int; lia|exact Fd|]. apply (big_bound _ _ H2 TB).
Qed.
Lemma sec_mono a b : (a <= b)%N -> sec a <= sec b.
Proof.
  intro H. apply rnd_le. pose proof (nanos_rnd a) as [A0 A1]. pose proof (nanos_rnd b) as [B0 B1]. pose proof (N.div_mod a NANOS ltac:(discriminate)) as Da. pose proof (N.div_mod b NANOS ltac:(discriminate)) as Db. pose proof (N.div_le_mono a b NANOS ltac:(discriminate) H) as Q.
  set (za := (a / NANOS)%N) in *. set (zb := (b / NANOS)%N) in *. set (qa := (a mod NANOS)%N) in *. set (qb := (b mod NANOS)%N) in *. clearbody za zb qa qb. destruct (N.eq_dec za zb) as [E|E].
  - subst zb. apply Rplus_le_compat_l. apply rnd_le. apply Rmult_le_compat_r; [lra|]. apply IZR_le. unfold NANOS in *. lia.
  - assert (IZR (Z.of_N za) + 1 <= IZR (Z.of_N zb)) by (rewrite <- (plus_IZR _ 1); apply IZR_le; lia). lra.
Qed.
Lemma sec_whole t : (t <= max_secs)%N -> sec (t * NANOS) = IZR (Z.of_N t).
Proof.
  intro H. unfold max_secs in H. unfold sec. rewrite N.div_mul, N.mod_mul by discriminate. cbn [Z.of_N]. replace (0 / 1000000000) with 0 by field. rewrite rnd_0, Rplus_0_r. apply rnd_format, format_int. lia.
Qed.
Lemma sec_nonneg d : 0 <= sec d.
Proof. apply rnd_nonneg. pose proof (nanos_rnd d). assert (0 <= IZR (Z.of_N (d / NANOS))) by (apply IZR_le, N2Z.is_nonneg). lra. Qed.
Lemma sec_close d t : (d <= t * NANOS)%N -> (1 <= t <= max_secs)%N -> Rabs (sec d - IZR (Z.of_N d) / 1000000000) <= 3 * eps * IZR (Z.of_N t).
Proof.
  intros H T. unfold max_secs in T. set (X := IZR (Z.of_N t)). assert (X1 : 1 <= X) by (apply IZR_le; lia). pose proof eps_small as [E0 E1]. pose proof tiny_1 as T1. pose proof (nanos_frac d) as A. pose proof (nanos_rnd d) as B. rewrite nanos_split.
  assert (H1 : Rabs (IZR (Z.of_N (d mod NANOS)) / 1000000000) <= 1) by (rewrite Rabs_pos_eq; lra). pose proof (rnd_err 1 _ ltac:(lra) H1) as R1.
  assert (S0 : 0 <= IZR (Z.of_N (d / NANOS)) <= X). { split; apply IZR_le; [apply N2Z.is_nonneg|]. apply N2Z.inj_le. rewrite <- (N.div_mul t NANOS) by discriminate. apply N.div_le_mono; [discriminate|exact H]. }
  unfold sec. set (fr := rnd (IZR (Z.of_N (d mod NANOS)) / 1000000000)) in *. set (q := IZR (Z.of_N (d mod NANOS)) / 1000000000) in *. set (z := IZR (Z.of_N (d / NANOS))) in *.
  assert (H2 : Rabs (z + fr) <= 2 * X) by (rewrite Rabs_pos_eq; lra). pose proof (rnd_err (2 * X) _ ltac:(lra) H2) as R2. assert (eps * 1 <= eps * X) by (apply Rmult_le_compat_l; lra). apply Rabs_le_inv in R1, R2. apply Rabs_le. lra.
Qed.
Lemma sec_gap a b t : (a <= t * NANOS)%N -> (b <= t * NANOS)%N -> (1 <= t <= 131072)%N -> a = b \/ / 2000000000 <= Rabs (sec a - sec b).
Proof.
  intros A B T. destruct (N.eq_dec a b) as [|N]; [now left|right]. pose proof (sec_close a t A ltac:(unfold max_secs; lia)) as Ca. pose proof (sec_close b t B ltac:(unfold max_secs; lia)) as Cb. set (X := IZR (Z.of_N t)) in *. assert (X1 : X <= 131072) by (apply IZR_le; lia).
  assert (EX : eps * X <= / 68719476736) by (rewrite eps_val; apply Rle_trans with (/ 9007199254740992 * 131072); [apply Rmult_le_compat_l; lra|lra]). rewrite Rmult_assoc in Ca, Cb.
  destruct (N.lt_total a b) as [L|[L|L]]; [|contradiction|].
  - assert (IZR (Z.of_N a) + 1 <= IZR (Z.of_N b)) by (rewrite <- (plus_IZR _ 1); apply IZR_le; lia). apply Rabs_le_inv in Ca, Cb. rewrite Rabs_left1; lra.
  - assert (IZR (Z.of_N b) + 1 <= IZR (Z.of_N a)) by (rewrite <- (plus_IZR _ 1); apply IZR_le; lia). apply Rabs_le_inv in Ca, Cb. rewrite Rabs_pos_eq; lra.
Qed.
Lemma nearest_sec d : (d <= max_secs * NANOS)%N -> ZnearestE (sec d * 1000000000) = Z.of_N d.
Proof.
  intro H. apply Znearest_imp. pose proof (sec_close d max_secs H ltac:(unfold max_secs; lia)) as C. change (IZR (Z.of_N max_secs)) with 1048576 in C. rewrite eps_val in C. replace (sec d * 1000000000 - IZR (Z.of_N d)) with ((sec d - IZR (Z.of_N d) / 1000000000) * 1000000000) by field.
  apply Rabs_le_inv in C. apply Rabs_lt. lra.
Qed.
Lemma from_secs_R a x : fval a x -> 0 <= x <= 9000000000000000000 -> exists r, from_secs_f64 a = Ok r /\ Z.of_N r = ZnearestE (x * 1000000000).
Proof.
  intros (b & <- & Fb & <-) [H0 H1]. destruct b as [s|s| |s m e Hb]; cbn in Fb; try discriminate.
  - exists 0%N. split; [reflexivity|]. cbn [B2R]. rewrite Rmult_0_l. symmetry. apply Znearest_imp. rewrite Rminus_0_r, Rabs_R0. lra.
  - destruct s. { exfalso. cbn [B2R] in H0. match type of H0 with _ <= ?t => assert (t < 0) by (apply F2R_lt_0; cbn; lia) end. lra. }
    assert (V : B2R (B754_finite false m e Hb : bf64) = IZR (Zpos m) * bpow radix2 e) by reflexivity. rewrite V in *. pose proof (half_even_nearest (NANOS * Npos m) e) as E. cbn [B2SF from_secs_f64].
    replace (IZR (Z.of_N (NANOS * Npos m)) * bpow radix2 e) with (IZR (Zpos m) * bpow radix2 e * 1000000000) in E by (rewrite N2Z.inj_mul, mult_IZR; change (Z.of_N NANOS) with 1000000000%Z; change (Z.of_N (Npos m)) with (Zpos m); ring).
    exists (half_even (NANOS * Npos m) e). split; [|exact E]. cbv zeta. rewrite (proj2 (N.ltb_lt _ _)); [reflexivity|]. apply N2Z.inj_lt. rewrite E. apply Z.le_lt_trans with 9000000000000000000000000000%Z; [|reflexivity].
    rewrite <- (Znearest_imp (fun n => negb (Z.even n)) 9000000000000000000000000000 9000000000000000000000000000%Z) by (rewrite Rminus_diag_eq, Rabs_R0 by reflexivity; lra). apply (@Zrnd_le ZnearestE (valid_rnd_N _)). lra.
Qed.
