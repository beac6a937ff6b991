(** C112: the size and the speed that bench prints. *)
From Coq Require Import Lia Reals Lra List ZArith Permutation.
Import ListNotations.
From Flocq Require Import Core BinarySingleNaN.
From Verif Require Import M_Base M_Float M_Lines M_Cli M_Bench M_Timing M_Report M_RefLibm Spec_Bits Spec_Real Spec_Bench P_Base P_Float P_FloatDiv P_Stats P_Bench P_V2Size P_V2Sat P_Text P_Real P_Timing P_CachedHash Prop_Timing Prop_Bench Ex_Base Ex_V1.
Open Scope N_scope.

(** ** Size *)
(** Full statement: as many lines are queried as the test size says. The number printed is only an upper bound. *)
Lemma mutate_length d c l : forall i, length (mutate_lines d c i l) = length l.
Proof. induction l as [|e l IH]; intro i; [reflexivity|]. cbn [mutate_lines length]. now rewrite IH. Qed.
Theorem C112_queried a shuffle es d c : Permutation es (shuffle es) -> len (mutate_lines d c 0 (bench_test a shuffle es)) = N.min (printed_test_size a es) (len es).
Proof. intro P. unfold len. rewrite mutate_length. unfold bench_test. rewrite firstn_length, <- (Permutation_length P). fold (printed_test_size a es). lia. Qed.
Theorem C112_size_refuted : exists d stdin a es rates, draws_ok d /\ (forall pr, bench_entries pr hsum (bz_from_bytes 1048576) 0 [] (lines stdin) = Ok es) /\
  (forall pr wy w, cmd_bench pr ref_libm wy hsum d (fun l => l) w stdin a = Ok (BDone rates)) /\ len (bench_test a (fun l => l) es) < printed_test_size a es.
Proof.
  exists dr2, (da ++ [10]), {| ba_size_mb := 1; ba_test_size := Some 1000; ba_runs := 1; ba_fp_tol := p_half; ba_version := 1; ba_fpp := p001; ba_opt := 0; ba_file := None |}, [da]. eexists.
  split; [intros c i j; reflexivity|]. split; [intros []; vm_compute; reflexivity|]. split; [intros [] wy w; vm_compute; reflexivity|]. vm_compute. reflexivity.
Qed.

(** ** Speed *)
Open Scope R_scope.
(** Queries per second of one condition, and of all together. *)
Definition speed (n d : N) : R := IZR (Z.of_N n) * 1000000000 / IZR (Z.of_N d).
Definition overall (n : N) (ds : list N) : R := IZR (Z.of_nat (length ds)) * IZR (Z.of_N n) * 1000000000 / sumR (map (fun d => IZR (Z.of_N d)) ds).
Lemma tiny4 : bpow radix2 (-1000) <= / 4000000000000.
Proof. apply Rle_trans with (1 := P_Timing.tiny_small). apply Rinv_le_contravar; lra. Qed.
Lemma sec_rel d : (1 <= d <= max_secs * NANOS)%N -> Rabs (sec d - IZR (Z.of_N d) / 1000000000) <= (2 * eps + eps * eps) * (IZR (Z.of_N d) / 1000000000).
Proof.
  intros [D1 D2]. rewrite nanos_split. pose proof (nanos_frac d) as A. pose proof (nanos_rnd d) as B. pose proof eps_small as [E0 E1]. unfold sec.
  assert (Z0 : 0 <= IZR (Z.of_N (d / NANOS))) by (apply IZR_le, N2Z.is_nonneg).
  assert (T : / 1000000000 <= IZR (Z.of_N (d / NANOS)) + IZR (Z.of_N (d mod NANOS)) / 1000000000). { rewrite <- nanos_split. assert (1 <= IZR (Z.of_N d)) by (apply IZR_le; lia). lra. }
  pose proof tiny4 as Ti.
  assert (Q : Rabs (rnd (IZR (Z.of_N (d mod NANOS)) / 1000000000) - IZR (Z.of_N (d mod NANOS)) / 1000000000) <= eps * (IZR (Z.of_N (d mod NANOS)) / 1000000000)).
  { destruct (N.eq_dec (d mod NANOS) 0) as [E|E]; [rewrite E; cbn [Z.of_N]; replace (0 / 1000000000) with 0 by field; rewrite rnd_0; rewrite Rminus_0_r, Rabs_R0; lra|].
    assert (1 <= IZR (Z.of_N (d mod NANOS))) by (apply IZR_le; clear - E; revert E; generalize (d mod NANOS)%N; intros; lia). rewrite <- (Rabs_pos_eq (IZR (Z.of_N (d mod NANOS)) / 1000000000)) at 3 by lra. apply rnd_rel. rewrite Rabs_pos_eq by lra. lra. }
  set (z := IZR (Z.of_N (d / NANOS))) in *. set (q := IZR (Z.of_N (d mod NANOS)) / 1000000000) in *. set (fr := rnd q) in *. clearbody z q fr. apply Rabs_le_inv in Q.
  assert (G : z + q - eps * q <= z + fr <= z + q + eps * q) by lra. assert (Eq : 0 <= eps * q <= eps * (z + q)) by (split; [apply Rmult_le_pos; lra|apply Rmult_le_compat_l; lra]).
  assert (Half : eps * (z + q) <= / 2 * (z + q)) by (apply Rmult_le_compat_r; lra).
  assert (R2 : Rabs (rnd (z + fr) - (z + fr)) <= eps * (z + fr)) by (rewrite <- (Rabs_pos_eq (z + fr)) at 3 by lra; apply rnd_rel; rewrite Rabs_pos_eq; lra).
  assert (M : eps * (z + fr) <= eps * (z + q + eps * (z + q))) by (apply Rmult_le_compat_l; lra). apply Rabs_le_inv in R2. apply Rabs_le. replace ((2 * eps + eps * eps) * (z + q)) with (eps * (z + q) + eps * (z + q + eps * (z + q))) by ring. lra.
Qed.
Lemma qps_value n d : (n <= 8589934592)%N -> (1 <= d <= max_secs * NANOS)%N -> exists x, fval (qps n d) x /\ 0 <= x /\ Rabs (x - speed n d) <= 4 * eps * speed n d.
Proof.
  intros Hn Hd. pose proof eps_small as [E0 E1]. set (T := IZR (Z.of_N d) / 1000000000). assert (D1 : 1 <= IZR (Z.of_N d)) by (apply IZR_le; lia). assert (T0 : / 1000000000 <= T) by (unfold T; lra).
  pose proof (sec_rel d Hd) as S. fold T in S. assert (Sp : speed n d = IZR (Z.of_N n) / T) by (unfold speed, T; field; lra). rewrite Sp. set (a := IZR (Z.of_N n)) in *. assert (A0 : 0 <= a <= 8589934592) by (split; apply IZR_le; lia).
  assert (Fs : fval (as_secs_f64 d) (sec d)). { apply fval_sec. rewrite <- (N.div_mul max_secs NANOS) by discriminate. apply N.div_le_mono; [discriminate|lia]. }
  assert (Fn : fval (f_of_u64 n) a) by (apply fval_int; lia).
  set (s := sec d) in *. clearbody s. clear Sp. assert (Ee : 2 * eps + eps * eps <= / 100000) by (assert (eps * eps <= / 1000000 * eps) by (apply Rmult_le_compat_r; lra); lra). assert (Em : (2 * eps + eps * eps) * T <= / 100000 * T) by (apply Rmult_le_compat_r; lra).
  apply Rabs_le_inv in S. assert (S0 : 99 / 100 * T <= s <= 101 / 100 * T) by lra. assert (Sp0 : 0 < s) by lra.
  assert (Q0 : 0 <= a / s) by (apply Rmult_le_pos; [lra|]; left; apply Rinv_0_lt_compat; lra).
  assert (Qs : a / s <= 16 * 1000000000 * 1000000000). { apply (Rmult_le_reg_r s); [lra|]. replace (a / s * s) with a by (field; lra). assert (16 * 1000000000 * 1000000000 * (99 / 100 * / 1000000000) <= 16 * 1000000000 * 1000000000 * s) by (apply Rmult_le_compat_l; lra). lra. }
  assert (Big : Rabs (a / s) <= bpow radix2 1023). { rewrite Rabs_pos_eq by exact Q0. apply Rle_trans with (bpow radix2 64); [|apply bpow_le; lia]. rewrite <- IZR_Zpower by lia. change (radix2 ^ 64)%Z with 18446744073709551616%Z. lra. }
  exists (rnd (a / s)). split; [exact (fval_div _ _ _ _ Fn Fs ltac:(lra) Big)|]. split; [now apply rnd_nonneg|].
  destruct (N.eq_dec n 0) as [Z|Z]. { assert (a = 0) as -> by (unfold a; rewrite Z; reflexivity). unfold Rdiv. rewrite !Rmult_0_l, rnd_0, Rminus_0_r, Rabs_R0. lra. }
  assert (A1 : 1 <= a) by (apply IZR_le; lia). assert (V : 0 < a / T) by (apply Rdiv_lt_0_compat; lra).
  (* a / s between (1 +- 3 eps) a / T *)
  assert (W : (1 - 21 / 10 * eps) * (a / T) <= a / s <= (1 + 25 / 10 * eps) * (a / T)).
  { assert (Sq : a / s = a / T * (T / s)) by (field; lra). rewrite Sq. assert (R : 1 - 21 / 10 * eps <= T / s <= 1 + 25 / 10 * eps).
    { assert (Ez : eps * eps <= / 100 * eps) by (apply Rmult_le_compat_r; lra). assert (Sl : (1 - 201 / 100 * eps) * T <= s) by (assert ((2 * eps + eps * eps) * T <= 201 / 100 * eps * T) by (apply Rmult_le_compat_r; lra); lra). assert (Su : s <= (1 + 201 / 100 * eps) * T) by (assert ((2 * eps + eps * eps) * T <= 201 / 100 * eps * T) by (apply Rmult_le_compat_r; lra); lra).
      split; apply (Rmult_le_reg_r s); try lra; replace (T / s * s) with T by (field; lra).
      - apply Rle_trans with ((1 - 21 / 10 * eps) * ((1 + 201 / 100 * eps) * T)); [apply Rmult_le_compat_l; lra|]. replace ((1 - 21 / 10 * eps) * ((1 + 201 / 100 * eps) * T)) with ((1 - 9 / 100 * eps - 4221 / 1000 * (eps * eps)) * T) by field. rewrite <- (Rmult_1_l T) at 2. apply Rmult_le_compat_r; [lra|]. assert (0 <= eps * eps) by (apply Rmult_le_pos; lra). lra.
      - apply Rle_trans with ((1 + 25 / 10 * eps) * ((1 - 201 / 100 * eps) * T)); [|apply Rmult_le_compat_l; lra]. replace ((1 + 25 / 10 * eps) * ((1 - 201 / 100 * eps) * T)) with ((1 + 49 / 100 * eps - 5025 / 1000 * (eps * eps)) * T) by field. rewrite <- (Rmult_1_l T) at 1. apply Rmult_le_compat_r; [lra|]. assert (eps * eps <= / 1000000 * eps) by (apply Rmult_le_compat_r; lra). lra. }
    rewrite !(Rmult_comm _ (a / T)). split; apply Rmult_le_compat_l; lra. }
  set (v := a / T) in *. set (x := a / s) in *. assert (X1 : / 2 * v <= x) by (assert (21 / 10 * eps * v <= / 2 * v) by (apply Rmult_le_compat_r; lra); lra).
  assert (Lo : bpow radix2 (-1000) <= Rabs x). { rewrite Rabs_pos_eq by exact Q0. apply Rle_trans with (/ 4000000000000); [exact tiny4|]. apply Rle_trans with (1 / (101 / 100 * 2000000)); [lra|].
    unfold x. apply Rle_trans with (1 / s). { apply Rmult_le_compat_l; [lra|]. apply Rinv_le_contravar; [lra|]. apply Rle_trans with (101 / 100 * T); [lra|]. apply Rmult_le_compat_l; [lra|]. unfold T. destruct Hd as [_ Hd]. change (max_secs * NANOS)%N with 1048576000000000%N in Hd. assert (IZR (Z.of_N d) <= 1048576000000000) by (apply IZR_le; lia). lra. }
    apply Rmult_le_compat_r; [left; apply Rinv_0_lt_compat; lra|lra]. }
  pose proof (rnd_rel x Lo) as Rr. rewrite (Rabs_pos_eq x) in Rr by exact Q0. assert (Ex : eps * x <= 11 / 10 * eps * v). { apply Rle_trans with (eps * ((1 + 25 / 10 * eps) * v)); [apply Rmult_le_compat_l; lra|]. replace (11 / 10 * eps * v) with (eps * (11 / 10 * v)) by ring. apply Rmult_le_compat_l; [lra|]. apply Rmult_le_compat_r; lra. }
  assert (0 < eps * v) by (apply Rmult_lt_0_compat; lra). apply Rabs_le_inv in Rr. apply Rabs_le. lra.
Qed.
Lemma sum_inverse l : Forall (fun t => 0 < t) l -> 0 <= sumR l /\ 0 <= sumR (map Rinv l) /\ IZR (Z.of_nat (length l)) * IZR (Z.of_nat (length l)) <= sumR l * sumR (map Rinv l).
Proof.
  induction 1 as [|t l Ht F (A & B & IH)]; [cbn; lra|]. change (sumR (t :: l)) with (t + sumR l). change (sumR (map Rinv (t :: l))) with (/ t + sumR (map Rinv l)). pose proof (Rinv_0_lt_compat t Ht) as Hi.
  cbn [length]. rewrite Nat2Z.inj_succ, succ_IZR. set (k := IZR (Z.of_nat (length l))) in *. assert (K : 0 <= k) by (apply IZR_le; lia). set (S := sumR l) in *. set (I := sumR (map Rinv l)) in *. clearbody k S I. split; [lra|]. split; [lra|].
  replace ((t + S) * (/ t + I)) with (1 + (t * I + S * / t) + S * I) by (field; lra). set (x := t * I). set (y := S * / t). assert (X : 0 <= x) by (apply Rmult_le_pos; lra). assert (Y : 0 <= y) by (apply Rmult_le_pos; lra). assert (XY : x * y = S * I) by (unfold x, y; field; lra).
  assert (G : 2 * k <= x + y). { apply Rsqr_incr_0_var; [|lra]. unfold Rsqr. clearbody x y. clear - IH XY. assert (0 <= (x - y) * (x - y)) by (apply Rle_0_sqr). nra. }
  clearbody x y. lra.
Qed.
(** Full statement: the average speed is the number of queries divided by the time they took. It is at least that, but for rounding. *)
Lemma speeds_mean n ds : ds <> [] -> Forall (fun d => 1 <= d)%N ds -> overall n ds <= avg (map (speed n) ds).
Proof.
  intros Ne F. assert (F' : Forall (fun t => 0 < t) (map (fun d => IZR (Z.of_N d)) ds)) by (apply Forall_map; revert F; apply Forall_impl; intros d Hd; apply (IZR_lt 0); lia).
  destruct (sum_inverse _ F') as (_ & _ & A). rewrite map_length in A. unfold overall, avg. rewrite map_length. set (k := IZR (Z.of_nat (length ds))) in *. assert (K : 1 <= k) by (apply (IZR_le 1); destruct ds; [contradiction|cbn [length]; lia]).
  assert (Sm : sumR (map (speed n) ds) = IZR (Z.of_N n) * 1000000000 * sumR (map Rinv (map (fun d => IZR (Z.of_N d)) ds))). { clear. induction ds as [|d ds IH]; [cbn; ring|]. cbn [map sumR fold_right]. fold (sumR (map (speed n) ds)). fold (sumR (map Rinv (map (fun d => IZR (Z.of_N d)) ds))). rewrite IH. unfold speed, Rdiv. ring. }
  rewrite Sm. assert (Sp : 0 < sumR (map (fun d => IZR (Z.of_N d)) ds)). { clear - Ne F'. destruct ds as [|d ds]; [contradiction|]. cbn [map] in *. inversion F' as [|? ? Hd Hr]; subst. change (0 < IZR (Z.of_N d) + sumR (map (fun d => IZR (Z.of_N d)) ds)). pose proof (proj1 (sum_inverse _ Hr)). lra. }
  set (S := sumR (map (fun d => IZR (Z.of_N d)) ds)) in *. set (I := sumR (map Rinv (map (fun d => IZR (Z.of_N d)) ds))) in *. clearbody S I k. set (a := IZR (Z.of_N n) * 1000000000). assert (A0 : 0 <= a) by (apply Rmult_le_pos; [apply (IZR_le 0); lia|lra]). replace (k * IZR (Z.of_N n) * 1000000000 / S) with (a * (k / S)) by (unfold a; field; lra). replace (a * I / k) with (a * (I / k)) by (field; lra). apply Rmult_le_compat_l; [exact A0|].
  apply (Rmult_le_reg_r (S * k)); [apply Rmult_lt_0_compat; lra|]. replace (k / S * (S * k)) with (k * k) by (field; lra). replace (I / k * (S * k)) with (S * I) by (field; lra). exact A.
Qed.
Theorem C112_average n ds X : ds <> [] -> (length ds <= 1000)%nat -> (n <= 8589934592)%N -> Forall (fun d => 1 <= d <= max_secs * NANOS)%N ds -> 1 <= X -> Forall (fun d => speed n d <= X) ds ->
  exists m, fval (stat_mean (map (qps n) ds)) m /\ 0 <= m /\ Rabs (m - avg (map (speed n) ds)) <= (4 + 6 * IZR (Z.of_nat (length ds))) * eps * X /\ overall n ds - (4 + 6 * IZR (Z.of_nat (length ds))) * eps * X <= m.
Proof.
  intros Ne Hl Hn F X1 B. pose proof eps_small as [E0 E1].
  assert (G : exists xs, Forall2 fval (map (qps n) ds) xs /\ length xs = length ds /\ Forall (fun x => 0 <= x <= 2 * X /\ x <= 10000000000000000000) xs /\ Rabs (sumR xs - sumR (map (speed n) ds)) <= IZR (Z.of_nat (length ds)) * (4 * eps * X)).
  { clear Ne Hl. induction ds as [|d ds IH]; [exists []; cbn; repeat split; try constructor; rewrite Rminus_0_r, Rabs_R0; lra|]. inversion F as [|? ? Hd Fd]; subst. inversion B as [|? ? Bd Bds]; subst. destruct (IH Fd Bds) as (xs & A1 & A2 & A3 & A4). destruct (qps_value n d Hn Hd) as (x & Q1 & Q2 & Q3).
    exists (x :: xs). split; [constructor; assumption|]. split; [cbn; now rewrite A2|].
    assert (V0 : 0 <= speed n d). { unfold speed. apply Rmult_le_pos; [apply Rmult_le_pos; [apply (IZR_le 0); lia|lra]|]. left. apply Rinv_0_lt_compat. apply (IZR_lt 0). lia. }
    assert (V1 : speed n d <= 8589934592 * 1000000000). { unfold speed. assert (D1 : 1 <= IZR (Z.of_N d)) by (apply (IZR_le 1); lia). assert (N1 : IZR (Z.of_N n) <= 8589934592) by (apply IZR_le; lia). assert (N0 : 0 <= IZR (Z.of_N n)) by (apply (IZR_le 0); lia).
      apply (Rmult_le_reg_r (IZR (Z.of_N d))); [lra|]. replace (IZR (Z.of_N n) * 1000000000 / IZR (Z.of_N d) * IZR (Z.of_N d)) with (IZR (Z.of_N n) * 1000000000) by (field; lra). apply Rle_trans with (8589934592 * 1000000000 * 1); [lra|]. apply Rmult_le_compat_l; lra. }
    assert (W : 4 * eps * speed n d <= 4 * eps * X) by (apply Rmult_le_compat_l; lra). assert (W2 : 4 * eps * speed n d <= / 100 * speed n d) by (apply Rmult_le_compat_r; lra). apply Rabs_le_inv in Q3, A4. split; [constructor; [lra|exact A3]|].
    change (sumR (x :: xs)) with (x + sumR xs). change (sumR (map (speed n) (d :: ds))) with (speed n d + sumR (map (speed n) ds)). cbn [length]. rewrite Nat2Z.inj_succ, succ_IZR, Rmult_plus_distr_r. apply Rabs_le. lra. }
  destruct G as (xs & A1 & A2 & A3 & A4). set (Y := Rmin (2 * X) 10000000000000000000).
  assert (Y1 : 1 <= Y <= 2 * X) by (split; [apply Rmin_glb; lra|apply Rmin_l]). assert (Y2 : Y <= top). { apply Rle_trans with 10000000000000000000; [apply Rmin_r|]. unfold top. rewrite <- IZR_Zpower by lia. change (radix2 ^ 64)%Z with 18446744073709551616%Z. lra. }
  destruct (stat_mean_R (map (qps n) ds) xs 0 Y Y A1) as (m & Fm & Bm & Dm); [destruct ds; [contradiction|discriminate]|revert A3; apply Forall_impl; intros x Hx; split; [lra|apply Rmin_glb; lra]|lra|lra|split; lra|rewrite map_length; lia|].
  exists m. split; [exact Fm|]. split; [exact (proj1 Bm)|]. rewrite map_length in Dm. set (k := IZR (Z.of_nat (length ds))) in *. assert (K : 1 <= k) by (apply (IZR_le 1); destruct ds; [contradiction|cbn [length]; lia]).
  assert (C1 : k * (3 * eps * Y) <= 6 * k * eps * X). { replace (6 * k * eps * X) with (k * (3 * eps * (2 * X))) by ring. apply Rmult_le_compat_l; [lra|]. apply Rmult_le_compat_l; lra. }
  assert (C2 : Rabs (avg xs - avg (map (speed n) ds)) <= 4 * eps * X). { unfold avg. rewrite map_length, A2. fold k. replace (sumR xs / k - sumR (map (speed n) ds) / k) with ((sumR xs - sumR (map (speed n) ds)) * / k) by (field; lra). rewrite Rabs_mult, (Rabs_pos_eq (/ k)) by (left; apply Rinv_0_lt_compat; lra).
    apply (Rmult_le_reg_r k); [lra|]. rewrite Rmult_assoc, Rinv_l, Rmult_1_r by lra. lra. }
  assert (C3 : Rabs (m - avg (map (speed n) ds)) <= (4 + 6 * k) * eps * X). { replace ((4 + 6 * k) * eps * X) with (4 * eps * X + 6 * k * eps * X) by ring. apply Rabs_le_inv in Dm, C2. apply Rabs_le. lra. }
  split; [exact C3|]. assert (Fo : Forall (fun d => 1 <= d)%N ds) by (revert F; apply Forall_impl; intros d Hd; lia). pose proof (speeds_mean n ds Ne Fo) as O. apply Rabs_le_inv in C3. lra.
Qed.
(** What is printed: a whole number. *)
Theorem C112_printed n ds X : ds <> [] -> (length ds <= 1000)%nat -> (n <= 8589934592)%N -> Forall (fun d => 1 <= d <= max_secs * NANOS)%N ds -> 1 <= X -> Forall (fun d => speed n d <= X) ds ->
  exists z : Z, fval (avg_qps n ds) (IZR z) /\ let e := / 2 + (4 + 6 * IZR (Z.of_nat (length ds))) * eps * X in Rabs (IZR z - avg (map (speed n) ds)) <= e /\ overall n ds - e <= IZR z.
Proof.
  intros Ne Hl Hn F X1 B. destruct (C112_average n ds X Ne Hl Hn F X1 B) as (m & Fm & Pm & Dm & Om). exists (Zfloor (m + / 2)). split; [exact (fval_round _ _ Fm Pm)|]. cbv zeta. pose proof (Zfloor_lb (m + / 2)) as L. pose proof (Zfloor_ub (m + / 2)) as U.
  set (E := _ * eps * X) in *. clearbody E. set (z := IZR (Zfloor (m + / 2))) in *. clearbody z. apply Rabs_le_inv in Dm. split; [apply Rabs_le|]; lra.
Qed.
(** It can be much more: nine conditions of one second and one of 1000 seconds, 1000 queries each. Ten thousand queries took 1009 seconds, less than ten per
    second; 900 are printed. *)
Definition slow_end : list N := (repeat 1000000000 9 ++ [1000000000000])%N.
Theorem C112_average_refuted : exists n ds, length ds = 10%nat /\ avg_qps n ds = f_of_u64 900 /\ overall n ds < 10.
Proof. exists 1000%N, slow_end. split; [reflexivity|]. split; [vm_compute; reflexivity|]. unfold overall, slow_end. cbn [app repeat length map sumR fold_right Z.of_nat Pos.of_succ_nat Pos.succ Z.of_N]. lra. Qed.
(** A time of zero, which a coarse clock can give, in the first condition: not a number is printed, however fast the others were. *)
Theorem C112_zero_refuted : exists n ds, length ds = 10%nat /\ avg_qps n (0%N :: ds) = S754_nan.
Proof. exists 1000%N, slow_end. split; vm_compute; reflexivity. Qed.
Theorem C112_zero n : (1 <= n < two64)%N -> qps n 0 = S754_infinity false.
Proof.
  intros Hn. assert (N1 : 1 <= rnd (IZR (Z.of_N n))) by (apply rnd_ge_1; lia).
  destruct (fval_pos_finite _ _ (fval_of_u64 n (proj2 Hn))) as (m & e & E); [lra|]. unfold qps. change (as_secs_f64 0) with (f_of_u64 0). exact (div_zero _ _ _ E).
Qed.
Print Assumptions C112_queried.
Print Assumptions C112_size_refuted.
Print Assumptions C112_average.
Print Assumptions C112_printed.
Print Assumptions C112_average_refuted.
Print Assumptions C112_zero.
Print Assumptions C112_zero_refuted.
(** Ten conditions of a thousand queries: nine of a millisecond, one of three. *)
Example C112_example : let ds := (repeat 1000000 9 ++ [3000000])%N in let X := 1000000 in
  ds <> [] /\ (length ds <= 1000)%nat /\ Forall (fun d => 1 <= d <= max_secs * NANOS)%N ds /\ 1 <= X /\ Forall (fun d => speed 1000 d <= X) ds /\
  avg_qps 1000 ds = f_of_u64 933333 /\ 833333 < overall 1000 ds < 833334.
Proof.
  cbv zeta. split; [discriminate|]. split; [cbn; lia|]. split; [cbn [repeat app]; repeat constructor; vm_compute; discriminate|]. split; [lra|]. split; [cbn [repeat app]; repeat constructor; unfold speed; cbn [Z.of_N]; lra|].
  split; [vm_compute; reflexivity|]. unfold overall. cbn [app repeat length map sumR fold_right Z.of_nat Pos.of_succ_nat Pos.succ Z.of_N]. lra.
Qed.
