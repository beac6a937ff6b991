(** Mean and variance of the number of bits that random positions set, and the logarithm around its mean. *)
From Coq Require Import Lia Reals Lra List Arith Bool.
From Verif Require Import Spec_Rate Spec_CountAvg P_Rate P_Common.
Import ListNotations.
Open Scope R_scope.

Lemma seq_shift m t : (0 < m)%nat -> forall l f d, avg_seq m t l (fun s => f s + d) = avg_seq m t l f + d.
Proof.
  intro M0. induction t as [|t IH]; intros l f d; [reflexivity|]. cbn [avg_seq]. rewrite (avg_ext m _ (fun i => avg_seq m t (i :: l) f + d)) by (intros; apply IH). rewrite avg_plus, avg_const by exact M0. reflexivity.
Qed.
Lemma seq_plus m t : forall l f g, avg_seq m t l (fun s => f s + g s) = avg_seq m t l f + avg_seq m t l g.
Proof. induction t as [|t IH]; intros l f g; [reflexivity|]. cbn [avg_seq]. rewrite <- avg_plus. apply avg_ext. intros i _. apply IH. Qed.
Lemma ones_sum m l : INR (ones m l) = sum_below m (fun i => ind (mem i l)).
Proof. unfold ones. now rewrite <- cnt_filter, cnt_sum. Qed.
Lemma ones_le m l : (ones m l <= m)%nat.
Proof. unfold ones. rewrite <- cnt_filter. apply cnt_le. Qed.
Lemma ones_len m l : (ones m l <= length l)%nat.
Proof. unfold ones. rewrite <- cnt_filter. apply cnt_mem_le. Qed.
Lemma avg_ones m t : (0 < m)%nat -> avg_seq m t [] (fun l => INR (ones m l)) = INR m * (1 - untouched m t).
Proof.
  intro M0. rewrite (seq_ext m t [] _ (fun l => sum_below m (fun i => ind (mem i l)))); [|constructor|intros; apply ones_sum]. rewrite seq_sum.
  rewrite (sum_ext m _ (fun _ => 1 - untouched m t)); [apply sum_const|]. intros i Hi. rewrite seq_mem by exact Hi. cbn [mem existsb ind]. ring.
Qed.

(** ** Two positions *)
Definition free (i : nat) (l : list nat) : R := 1 - ind (mem i l).
Lemma free_cons i j l : free i (j :: l) = (1 - ind (Nat.eqb i j)) * free i l.
Proof. unfold free. cbn [mem existsb]. fold (mem i l). destruct (Nat.eqb i j); cbn [orb ind]; ring. Qed.
Lemma seq_pair m i j t : (i < m)%nat -> (j < m)%nat -> i <> j -> forall l, avg_seq m t l (fun s => free i s * free j s) = free i l * free j l * (1 - 2 * / INR m) ^ t.
Proof.
  intros Hi Hj Ne. destruct (m_inv m ltac:(lia)) as (M0 & _ & MM). induction t as [|t IH]; intro l; cbn [avg_seq]; [cbn; ring|].
  set (c := free i l * free j l * (1 - 2 * / INR m) ^ t).
  rewrite (avg_ext m _ (fun x => c + ((- c) * ind (Nat.eqb i x) + (- c) * ind (Nat.eqb j x)))).
  - rewrite avg_plus, avg_const, avg_plus, !avg_scal by lia. unfold avg. rewrite !sum_eqb by assumption. unfold c. cbn [pow]. unfold Rdiv. ring.
  - intros x _. rewrite IH, !free_cons. unfold c. destruct (Nat.eqb_spec i x), (Nat.eqb_spec j x); cbn [ind]; try ring. congruence.
Qed.
Lemma seq_free m i t : (i < m)%nat -> avg_seq m t [] (free i) = untouched m t.
Proof.
  intro Hi. unfold free. rewrite (seq_ext m t [] _ (fun s => -1 * ind (mem i s) + 1)); [|constructor|intros; ring]. rewrite seq_shift, seq_scal, seq_mem by lia. cbn [mem existsb ind]. ring.
Qed.
Lemma free_sq i l : free i l * free i l = free i l.
Proof. unfold free. destruct (mem i l); cbn [ind]; ring. Qed.
Lemma pair_le m t : (2 <= m)%nat -> (1 - 2 * / INR m) ^ t <= untouched m t * untouched m t.
Proof.
  intro Hm. destruct (m_inv m ltac:(lia)) as (M0 & _ & MM). unfold untouched. rewrite <- Rpow_mult_distr. assert (0 < / INR m) by (apply Rinv_0_lt_compat; lra).
  apply pow_incr. split; [|nra]. assert (2 <= INR m) by (apply (le_INR 2); exact Hm). assert (/ INR m <= / 2) by (apply Rinv_le_contravar; lra). lra.
Qed.
(** The variance is at most that of independent bits. *)
Lemma avg_square m t : (2 <= m)%nat -> let u := untouched m t in
  avg_seq m t [] (fun l => (INR m * (1 - u) - INR (ones m l)) * (INR m * (1 - u) - INR (ones m l))) <= INR m * (u * (1 - u)).
Proof.
  intros Hm u. destruct (m_inv m ltac:(lia)) as (M0 & _ & MM).
  assert (E : forall l, INR m - INR (ones m l) = sum_below m (fun i => free i l)).
  { intro l. rewrite ones_sum. unfold free. rewrite (sum_ext m (fun i => 1 - ind (mem i l)) (fun i => 1 + (-1) * ind (mem i l))) by (intros; ring). rewrite sum_plus, sum_scal, sum_const. ring. }
  set (P := (1 - 2 * / INR m) ^ t).
  assert (Q : avg_seq m t [] (fun l => sum_below m (fun i => sum_below m (fun j => free i l * free j l))) = INR m * (u + (INR m - 1) * P)).
  { rewrite seq_sum. rewrite (sum_ext m _ (fun _ => u + (INR m - 1) * P)); [apply sum_const|]. intros i Hi. rewrite seq_sum.
    rewrite (sum_ext m _ (fun j => P + (u - P) * ind (Nat.eqb i j))).
    - rewrite sum_plus, sum_const, sum_scal, sum_eqb by exact Hi. ring.
    - intros j Hj. destruct (Nat.eqb_spec i j) as [->|Ne]; cbn [ind].
      + rewrite (seq_ext m t [] _ (free j)); [|constructor|intros; apply free_sq]. rewrite seq_free by exact Hj. unfold u. ring.
      + rewrite seq_pair by assumption. unfold P, free. cbn [mem existsb ind]. ring. }
  rewrite (seq_ext m t [] _ (fun l => sum_below m (fun i => sum_below m (fun j => free i l * free j l)) + (2 * (INR m * u) * INR (ones m l) + (INR m * u * (INR m * u) - 2 * (INR m * u) * INR m)))); [|constructor|].
  - rewrite seq_plus, Q, seq_shift, seq_scal, avg_ones by lia. fold u. pose proof (pair_le m t Hm) as PL. fold P u in PL.
    assert (1 <= INR m) by (apply (le_INR 1); lia). assert (INR m * ((INR m - 1) * P) <= INR m * ((INR m - 1) * (u * u))) by (apply Rmult_le_compat_l; [lra|]; apply Rmult_le_compat_l; lra). nra.
  - intros l _. assert (S2 : sum_below m (fun i => sum_below m (fun j => free i l * free j l)) = (INR m - INR (ones m l)) * (INR m - INR (ones m l))).
    { rewrite E. rewrite (sum_ext m _ (fun i => sum_below m (fun j => free j l) * free i l)) by (intros; rewrite sum_scal; ring). rewrite sum_scal. reflexivity. }
    rewrite S2. ring.
Qed.

(** ** The logarithm around the mean *)
Lemma ln_quadratic r : / 4 <= r -> - ln r <= 1 - r + 6 / 5 * ((r - 1) * (r - 1)).
Proof.
  intro Hr. set (phi := fun x => 1 - x + 6 / 5 * ((x - 1) * (x - 1)) + ln x). set (phi' := fun x => (x - 1) * (12 / 5 - / x)).
  assert (D : forall x, 0 < x -> derivable_pt_lim phi x (phi' x)).
  { intros x Hx. unfold phi, phi'. replace ((x - 1) * (12 / 5 - / x)) with (0 - 1 + 6 / 5 * ((1 - 0) * (x - 1) + (x - 1) * (1 - 0)) + / x) by (field; lra).
    apply (derivable_pt_lim_plus (fun x => 1 - x + 6 / 5 * ((x - 1) * (x - 1))) ln); [|now apply derivable_pt_lim_ln].
    apply (derivable_pt_lim_plus (fun x => 1 - x) (fun x => 6 / 5 * ((x - 1) * (x - 1)))).
    - apply (derivable_pt_lim_minus (fun _ => 1) (fun x => x)); [apply derivable_pt_lim_const|apply derivable_pt_lim_id].
    - apply (derivable_pt_lim_scal (fun x => (x - 1) * (x - 1))). apply (derivable_pt_lim_mult (fun x => x - 1) (fun x => x - 1)); apply (derivable_pt_lim_minus (fun x => x) (fun _ => 1)); try apply derivable_pt_lim_id; apply derivable_pt_lim_const. }
  assert (P1 : phi 1 = 0) by (unfold phi; rewrite ln_1; ring). assert (G : 0 <= phi r); [|unfold phi in G; lra].
  destruct (Rtotal_order r 1) as [Lt|[->|Gt]]; [|lra|].
  - destruct (Rle_dec (5 / 12) r) as [A|A].
    + destruct (MVT_cor2 phi phi' r 1 Lt) as (c & Ec & Hc); [intros; apply D; lra|]. rewrite P1 in Ec. assert (/ c <= 12 / 5) by (replace (12 / 5) with (/ (5 / 12)) by field; apply Rinv_le_contravar; lra). assert (phi' c <= 0) by (unfold phi'; nra). nra.
    + assert (P4 : 0 <= phi (/ 4)). { unfold phi. rewrite ln_Rinv by lra. replace 4 with (2 * 2) by ring. rewrite ln_mult by lra. pose proof P_RateFloat.ln2_num. lra. }
      destruct (Req_dec r (/ 4)) as [->|Ne]; [exact P4|]. destruct (MVT_cor2 phi phi' (/ 4) r ltac:(lra)) as (c & Ec & Hc); [intros; apply D; lra|].
      assert (12 / 5 <= / c) by (replace (12 / 5) with (/ (5 / 12)) by field; apply Rinv_le_contravar; lra). assert (0 <= phi' c) by (unfold phi'; nra). nra.
  - destruct (MVT_cor2 phi phi' 1 r ltac:(lra)) as (c & Ec & Hc); [intros; apply D; lra|]. rewrite P1 in Ec. assert (/ c <= 1) by (rewrite <- Rinv_1; apply Rinv_le_contravar; lra). assert (0 <= phi' c) by (unfold phi'; nra). nra.
Qed.
Lemma ln_tangent y u : 0 < y -> 0 < u -> ln y <= ln u + (y - u) / u.
Proof.
  intros Hy Hu. assert (Q : 0 < y / u) by (apply Rdiv_lt_0_compat; lra). assert (H : ln (y / u) <= y / u - 1). { pose proof (exp_ge_1 (ln (y / u))) as E. rewrite exp_ln in E by exact Q. lra. }
  unfold Rdiv in H at 1. rewrite ln_mult, ln_Rinv in H by (try apply Rinv_0_lt_compat; lra). replace ((y - u) / u) with (y / u - 1) by (field; lra). lra.
Qed.
Lemma untouched_ln m t : (2 <= m)%nat -> 0 < untouched m t /\ INR t / INR m <= - ln (untouched m t) <= INR t / (INR m - 1).
Proof.
  intro Hm. assert (M2 : 2 <= INR m) by (apply (le_INR 2); exact Hm). pose proof (untouched_ge m t ltac:(lia)) as G. pose proof (untouched_le m t ltac:(lia)) as L.
  assert (P : 0 < untouched m t) by (apply Rlt_le_trans with (2 := G); apply exp_pos). split; [exact P|]. split.
  - assert (ln (untouched m t) <= ln (exp (- (INR t / INR m)))); [|rewrite ln_exp in *; lra]. destruct L as [L|L]; [left; now apply ln_increasing|rewrite L; lra].
  - assert (ln (exp (- (INR t / (INR m - 1)))) <= ln (untouched m t)); [|rewrite ln_exp in *; lra]. destruct G as [G|G]; [left; apply ln_increasing; [apply exp_pos|exact G]|rewrite G; lra].
Qed.

(** ** The estimate *)
Definition est (m k x : nat) : R := - (INR m / INR k * ln (1 - INR x / INR m)).
Lemma estimate_lower m k n e d : (2 <= m)%nat -> (1 <= k)%nat -> (forall x, (x < m)%nat -> (x <= k * n)%nat -> est m k x - d <= e x) ->
  ((m <= k * n)%nat -> INR m / INR k * (- ln (untouched m (k * n)) + 1) - d <= e m) -> INR n - d <= ideal_estimate m k n e.
Proof.
  intros Hm Hk He Hf. set (t := (k * n)%nat) in *. destruct (untouched_ln m t Hm) as (U0 & UL & _). set (u := untouched m t) in *. set (M := INR m) in *. set (K := INR k) in *.
  assert (M2 : 2 <= M) by (apply (le_INR 2); exact Hm). assert (K1 : 1 <= K) by (apply (le_INR 1); exact Hk). assert (K0 : 0 < / K) by (apply Rinv_0_lt_compat; lra).
  assert (Ui : 0 < / u) by (apply Rinv_0_lt_compat; lra).
  set (a := M / K * (- ln u - (1 - u) / u) - d). set (b := / (K * u)).
  apply Rle_trans with (avg_seq m t [] (fun l => b * INR (ones m l) + a)).
  - rewrite seq_shift, seq_scal, avg_ones by lia. fold u M. unfold a, b. replace (/ (K * u) * (M * (1 - u)) + (M / K * (- ln u - (1 - u) / u) - d)) with (M / K * - ln u - d) by (field; lra).
    assert (INR n <= M / K * - ln u); [|lra]. apply Rle_trans with (M / K * (INR t / M)).
    + right. unfold t. rewrite mult_INR. fold K. field. lra.
    + apply Rmult_le_compat_l; [|exact UL]. apply Rlt_le, Rdiv_lt_0_compat; lra.
  - unfold ideal_estimate. fold t. apply seq_le; [constructor|]. intros l _ Hl. cbn [length] in Hl. rewrite Nat.add_0_r in Hl. pose proof (ones_le m l) as O1. pose proof (ones_len m l) as O2. rewrite Hl in O2.
    generalize dependent (ones m l). intros x O1 O2. assert (MK : 0 < M / K) by (apply Rdiv_lt_0_compat; lra). destruct (Nat.eq_dec x m) as [->|Ne].
    + apply Rle_trans with (2 := Hf O2). unfold a, b. fold M. replace (/ (K * u) * M + (M / K * (- ln u - (1 - u) / u) - d)) with (M / K * (- ln u - (1 - u) / u + / u) - d) by (field; lra). replace (- ln u - (1 - u) / u + / u) with (- ln u + 1) by (field; lra). apply Rle_refl.
    + apply Rle_trans with (2 := He x ltac:(lia) O2). unfold est, a, b. fold M K. set (X := INR x). assert (Xm : X < M) by (apply lt_INR; lia). assert (X0 : 0 <= X) by apply pos_INR.
      assert (Y : 0 < 1 - X / M). { apply Rmult_lt_reg_r with M; [lra|]. replace ((1 - X / M) * M) with (M - X) by (field; lra). lra. }
      pose proof (ln_tangent (1 - X / M) u Y U0) as T. assert (M / K * ln (1 - X / M) <= M / K * (ln u + (1 - X / M - u) / u)) by (apply Rmult_le_compat_l; lra).
      replace (/ (K * u) * X + (M / K * (- ln u - (1 - u) / u) - d)) with (- (M / K * (ln u + (1 - X / M - u) / u)) - d) by (field; lra). lra.
Qed.
(** As long as at most three quarters of the bits can be set. *)
Lemma estimate_upper m k n e d : (2 <= m)%nat -> (1 <= k)%nat -> (4 * (k * n) <= 3 * m)%nat -> (forall x, (x <= k * n)%nat -> e x <= est m k x + d) ->
  let u := untouched m (k * n) in ideal_estimate m k n e <= INR n + INR n / (INR m - 1) + 6 / 5 * ((1 - u) / (INR k * u)) + d.
Proof.
  intros Hm Hk H4 He u. set (t := (k * n)%nat) in *. destruct (untouched_ln m t Hm) as (U0 & _ & UU). pose proof (untouched_bounds m t ltac:(lia)) as UB. fold u in U0, UU, UB. set (M := INR m) in *. set (K := INR k) in *.
  assert (M2 : 2 <= M) by (apply (le_INR 2); exact Hm). assert (K1 : 1 <= K) by (apply (le_INR 1); exact Hk). assert (K0 : 0 < / K) by (apply Rinv_0_lt_compat; lra).
  assert (Ui : 0 < / u) by (apply Rinv_0_lt_compat; lra). assert (MK : 0 < M / K) by (apply Rdiv_lt_0_compat; lra).
  set (a := M / K * (- ln u - (1 - u) / u) + d). set (b := / (K * u)). set (c := 6 / 5 * / (M * K * (u * u))). assert (C0 : 0 <= c) by (unfold c; apply Rmult_le_pos; [lra|]; apply Rlt_le, Rinv_0_lt_compat, Rmult_lt_0_compat; apply Rmult_lt_0_compat; lra).
  apply Rle_trans with (avg_seq m t [] (fun l => c * ((M * (1 - u) - INR (ones m l)) * (M * (1 - u) - INR (ones m l))) + (b * INR (ones m l) + a))).
  - unfold ideal_estimate. fold t. apply seq_le; [constructor|]. intros l _ Hl. cbn [length] in Hl. rewrite Nat.add_0_r in Hl. pose proof (ones_len m l) as O2. rewrite Hl in O2.
    generalize dependent (ones m l). intros x O2. apply Rle_trans with (1 := He x O2). unfold est, a, b, c. fold M K. set (X := INR x).
    assert (X4 : 4 * X <= 3 * M). { unfold X, M. replace 4 with (INR 4) by (cbn; lra). replace 3 with (INR 3) by (cbn; lra). rewrite <- !mult_INR. apply le_INR. lia. }
    assert (Y : / 4 <= 1 - X / M). { apply Rmult_le_reg_r with M; [lra|]. replace ((1 - X / M) * M) with (M - X) by (field; lra). lra. } set (y := 1 - X / M) in *.
    assert (R4 : / 4 <= y / u). { apply Rmult_le_reg_r with u; [lra|]. replace (y / u * u) with y by (field; lra). nra. }
    pose proof (ln_quadratic (y / u) R4) as Q. unfold Rdiv in Q at 1. rewrite ln_mult, ln_Rinv in Q by lra.
    assert (M / K * - ln y <= M / K * (- ln u + (1 - y / u + 6 / 5 * ((y / u - 1) * (y / u - 1))))) by (apply Rmult_le_compat_l; lra).
    apply Rle_trans with (M / K * (- ln u + (1 - y / u + 6 / 5 * ((y / u - 1) * (y / u - 1)))) + d); [lra|]. right. unfold y. field. lra.
  - rewrite seq_plus, seq_scal, seq_shift, seq_scal, avg_ones by lia. fold u M. pose proof (avg_square m t Hm) as V. cbv zeta in V. fold u M in V. apply Rmult_le_compat_l with (r := c) in V; [|exact C0].
    apply Rle_trans with (c * (M * (u * (1 - u))) + (b * (M * (1 - u)) + a)); [lra|]. unfold a, b, c.
    replace (6 / 5 * / (M * K * (u * u)) * (M * (u * (1 - u))) + (/ (K * u) * (M * (1 - u)) + (M / K * (- ln u - (1 - u) / u) + d))) with (M / K * - ln u + 6 / 5 * ((1 - u) / (K * u)) + d) by (field; lra).
    assert (M / K * - ln u <= INR n + INR n / (M - 1)); [|lra]. apply Rle_trans with (M / K * (INR t / (M - 1))); [apply Rmult_le_compat_l; lra|]. right. unfold t. rewrite mult_INR. fold K. field. lra.
Qed.
Lemma exp_075 : 46 / 100 <= exp (- (762 / 1000)).
Proof.
  replace (- (762 / 1000)) with (INR 32 * (- (762 / 32000))) by (cbn; lra). rewrite <- exp_pow. apply Rle_trans with ((1 + - (762 / 32000)) ^ 32); [cbn; lra|]. apply pow_incr. split; [lra|apply exp_ge_1].
Qed.
(** With 64 bits or more: within 2.2 / k of the number of entries. *)
Lemma estimate_upper_num m k n e d : (64 <= m)%nat -> (1 <= k)%nat -> (4 * (k * n) <= 3 * m)%nat -> (forall x, (x <= k * n)%nat -> e x <= est m k x + d) ->
  ideal_estimate m k n e <= INR n + 22 / 10 * / INR k + d.
Proof.
  intros Hm Hk H4 He. pose proof (estimate_upper m k n e d ltac:(lia) Hk H4 He) as H. cbv zeta in H. set (t := (k * n)%nat) in *. set (u := untouched m t) in *. set (M := INR m) in *. set (K := INR k) in *.
  assert (M2 : 64 <= M) by (replace 64 with (INR 64) by (cbn; lra); apply le_INR; exact Hm). assert (K1 : 1 <= K) by (apply (le_INR 1); exact Hk). assert (K0 : 0 < / K) by (apply Rinv_0_lt_compat; lra).
  assert (T4 : 4 * (K * INR n) <= 3 * M). { unfold K, M. rewrite <- mult_INR. replace 4 with (INR 4) by (cbn; lra). replace 3 with (INR 3) by (cbn; lra). rewrite <- !mult_INR. apply le_INR. exact H4. }
  assert (N1 : INR n / (M - 1) <= 762 / 1000 * / K). { apply Rmult_le_reg_r with (K * (M - 1)); [apply Rmult_lt_0_compat; lra|]. replace (INR n / (M - 1) * (K * (M - 1))) with (K * INR n) by (field; lra). replace (762 / 1000 * / K * (K * (M - 1))) with (762 / 1000 * (M - 1)) by (field; lra). lra. }
  assert (U : 46 / 100 <= u). { apply Rle_trans with (1 := exp_075). apply Rle_trans with (2 := untouched_ge m t ltac:(lia)). apply exp_le. apply Ropp_le_contravar. fold M. apply Rmult_le_reg_r with (M - 1); [lra|]. replace (INR t / (M - 1) * (M - 1)) with (INR t) by (field; lra). unfold t. rewrite mult_INR. fold K. lra. }
  assert (Q : (1 - u) / (K * u) <= 118 / 100 * / K). { apply Rmult_le_reg_r with (K * u); [apply Rmult_lt_0_compat; lra|]. replace ((1 - u) / (K * u) * (K * u)) with (1 - u) by (field; lra). replace (118 / 100 * / K * (K * u)) with (118 / 100 * u) by (field; lra). lra. }
  lra.
Qed.
