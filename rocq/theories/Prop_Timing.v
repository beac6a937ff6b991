(** The time reported by [benchmark] (C79). *)
From Coq Require Import Lia Reals Lra List ZArith.
Import ListNotations.
From Flocq Require Import Core BinarySingleNaN.
From Verif Require Import M_Base M_Float M_Bench M_Timing Spec_Real Spec_Bench P_Base P_Float P_FloatDiv P_Stats P_Bench P_V2Size P_V2Sat P_Text P_Timing.
Open Scope R_scope.

(** ** The threshold *)
Lemma thr_R l xs X : Forall2 fval l xs -> (2 <= length l <= 2048)%nat -> 1 <= X -> Forall (fun x => 0 <= x <= X) xs -> IZR (Z.of_nat (length xs)) * X <= 131072 -> exists t, fval (f_mul f_three (stat_std_dev l)) t.
Proof.
  intros F Hl X1 B H. destruct (variance_R l xs 131072 X F Hl X1 B H ltac:(lra)) as (v & w & Fw & Bw & _).
  pose proof (fval_sqrt _ _ Fw (proj1 Bw)) as Fsd. pose proof (sqrt_pos w) as Q0. pose proof (rnd_nonneg _ Q0) as Sd0. set (sd := rnd (sqrt w)) in *.
  assert (SB : sqrt w <= bpow radix2 31). { rewrite <- (sqrt_Rsqr (bpow radix2 31)) by apply bpow_ge_0. apply sqrt_le_1_alt. unfold Rsqr. rewrite <- bpow_plus. apply (proj2 Bw). }
  pose proof (rnd_bound 31 (sqrt w) ltac:(lia) ltac:(rewrite Rabs_pos_eq; lra)) as Bsd. fold sd in Bsd. rewrite Rabs_pos_eq in Bsd by exact Sd0.
  assert (F3 : fval f_three 3) by exact (fval_int 3 ltac:(lia)). assert (B3 : Rabs (3 * sd) <= bpow radix2 33). { rewrite Rabs_pos_eq by lra. change 33%Z with (2 + 31)%Z. rewrite bpow_plus. change (bpow radix2 2) with 4. pose proof (bpow_ge_0 radix2 31). lra. }
  exists (rnd (3 * sd)). apply (fval_mul _ _ _ _ F3 Fsd (big_bound _ _ B3 ltac:(apply bpow_le; lia))).
Qed.
Lemma top_big' X : X <= top -> X <= bpow radix2 1000.
Proof. intro H. apply Rle_trans with (1 := H). apply bpow_le. lia. Qed.
(** What lies between two kept values is kept. *)
Lemma keep_mid m mr th tr a b c x y z X : fval m mr -> fval th tr -> fval a x -> fval b y -> fval c z -> x <= y <= z -> 0 <= x -> z <= X -> 0 <= mr <= X -> X <= top ->
  bench_keep m th a = true -> bench_keep m th c = true -> bench_keep m th b = true.
Proof.
  intros Fm Ft Fa Fb Fc O X0 ZX Mr XT Ka Kc. unfold bench_keep in *. assert (G : forall w, 0 <= w <= X -> Rabs (w - mr) <= bpow radix2 1023) by (intros w W; apply (big_bound _ X); [apply Rabs_le; lra|now apply top_big']).
  pose proof (f_leb_R _ _ _ _ (fval_abs _ _ (fval_sub _ _ _ _ Fa Fm (G x ltac:(lra)))) Ft Ka) as Ra. pose proof (f_leb_R _ _ _ _ (fval_abs _ _ (fval_sub _ _ _ _ Fc Fm (G z ltac:(lra)))) Ft Kc) as Rc.
  apply (R_f_leb _ _ _ _ (fval_abs _ _ (fval_sub _ _ _ _ Fb Fm (G y ltac:(lra)))) Ft). assert (rnd (x - mr) <= rnd (y - mr)) by (apply rnd_le; lra). assert (rnd (y - mr) <= rnd (z - mr)) by (apply rnd_le; lra). apply Rabs_le_inv in Ra, Rc. apply Rabs_le. lra.
Qed.
(** ** Lists of durations *)
Lemma secs_fval ts : Forall (fun d => (d <= max_secs * NANOS)%N) ts -> Forall2 fval (map as_secs_f64 ts) (map sec ts).
Proof.
  induction 1 as [|d ts H _ IH]; cbn [map]; constructor; [|exact IH]. apply fval_sec. rewrite <- (N.div_mul max_secs NANOS) by discriminate. apply N.div_le_mono; [discriminate|exact H].
Qed.
Lemma secs_range ts t : (t <= max_secs)%N -> Forall (fun d => (d <= t * NANOS)%N) ts -> Forall (fun x => 0 <= x <= IZR (Z.of_N t)) (map sec ts).
Proof.
  intros T. induction 1 as [|d ts H _ IH]; cbn [map]; constructor; [|exact IH]. split; [apply sec_nonneg|]. rewrite <- (sec_whole t T). now apply sec_mono.
Qed.
Lemma filter_map_ {A B} (f : A -> B) p (l : list A) : filter p (map f l) = map f (filter (fun x => p (f x)) l).
Proof. induction l as [|x l IH]; [reflexivity|]. cbn [map filter]. destruct (p (f x)); cbn [map]; now rewrite IH. Qed.
Lemma bounds_of (l : list N) : l <> [] -> exists lo hi, In lo l /\ In hi l /\ Forall (fun d => (lo <= d <= hi)%N) l.
Proof.
  induction l as [|a l IH]; [contradiction|]. intros _. destruct l as [|b l]; [exists a, a; cbn; repeat split; auto; constructor; [lia|constructor]|].
  destruct (IH ltac:(discriminate)) as (lo & hi & Il & Ih & F). exists (N.min a lo), (N.max a hi). split; [|split].
  - destruct (N.min_spec a lo) as [[_ ->]|[_ ->]]; [now left|now right].
  - destruct (N.max_spec a hi) as [[_ ->]|[_ ->]]; [now right|now left].
  - constructor; [lia|]. eapply Forall_impl; [|exact F]. cbn beta. intros; lia.
Qed.
Definition total (ts : list N) : N := fold_right N.add 0%N ts.
Lemma sum_secs ts t : (1 <= t <= max_secs)%N -> Forall (fun d => (d <= t * NANOS)%N) ts -> Rabs (sumR (map sec ts) - IZR (Z.of_N (total ts)) / 1000000000) <= IZR (Z.of_nat (length ts)) * (3 * eps * IZR (Z.of_N t)).
Proof.
  intros T. induction 1 as [|d ts H _ IH]; [cbn; replace (0 - 0 / 1000000000) with 0 by field; rewrite Rabs_R0; lra|].
  cbn [map sumR fold_right total length]. fold (total ts). fold (sumR (map sec ts)). pose proof (sec_close d t H T) as C. rewrite N2Z.inj_add, plus_IZR, Nat2Z.inj_succ, succ_IZR.
  set (e := 3 * eps * IZR (Z.of_N t)) in *. apply Rabs_le_inv in C, IH. apply Rabs_le. lra.
Qed.
Definition kept_of (ts : list N) : list N :=
  let l := map as_secs_f64 ts in filter (fun d => bench_keep (stat_mean l) (f_mul f_three (stat_std_dev l)) (as_secs_f64 d)) ts.
Lemma bench_many ts : length ts <> 1%nat -> bench_time ts = from_secs_f64 (stat_mean (map as_secs_f64 (kept_of ts))).
Proof.
  intro H. unfold kept_of. cbv zeta. rewrite <- filter_map_. destruct ts as [|a [|b ts]]; [reflexivity|cbn in H; lia|reflexivity].
Qed.
Lemma bench_one d : (d <= max_secs * NANOS)%N -> bench_time [d] = Ok d.
Proof.
  intro H. cbn [bench_time map]. pose proof (secs_fval [d] ltac:(constructor; [exact H|constructor])) as F. inversion F as [|? ? ? ? F1 _]; subst.
  assert (B : 0 <= sec d <= 9000000000000000000). { split; [apply sec_nonneg|]. apply Rle_trans with (sec (max_secs * NANOS)); [now apply sec_mono|]. rewrite sec_whole by (unfold max_secs; lia). change (IZR (Z.of_N max_secs)) with 1048576. lra. }
  destruct (from_secs_R _ _ F1 B) as (r & E & Z). rewrite E. f_equal. rewrite nearest_sec in Z by exact H. now apply N2Z.inj.
Qed.
Lemma nearest_le x y : x <= y -> (ZnearestE x <= ZnearestE y)%Z.
Proof. apply (@Zrnd_le ZnearestE (valid_rnd_N _)). Qed.
(** The mean of durations, rounded to nanoseconds. *)
Lemma mean_of ts t : ts <> [] -> (1 <= t <= max_secs)%N -> Forall (fun d => (d <= t * NANOS)%N) ts -> (len ts <= 9007199254740992)%N ->
  exists r m, from_secs_f64 (stat_mean (map as_secs_f64 ts)) = Ok r /\ fval (stat_mean (map as_secs_f64 ts)) m /\ 0 <= m <= IZR (Z.of_N t) /\ Z.of_N r = ZnearestE (m * 1000000000) /\
    Rabs (m - avg (map sec ts)) <= IZR (Z.of_N (len ts)) * (3 * eps * IZR (Z.of_N t)) /\ exists lo hi, In lo ts /\ In hi ts /\ (lo <= r <= hi)%N.
Proof.
  intros Hn T B L. assert (B' : Forall (fun d => (d <= max_secs * NANOS)%N) ts) by (eapply Forall_impl; [|exact B]; cbn beta; unfold NANOS; intros; lia).
  destruct (bounds_of ts Hn) as (lo & hi & Il & Ih & F). pose proof (secs_fval ts B') as Fv. assert (X1 : 1 <= IZR (Z.of_N t) <= 1048576) by (unfold max_secs in T; split; apply IZR_le; lia).
  assert (XT : IZR (Z.of_N t) <= top) by (apply Rle_trans with 1048576; [lra|]; unfold top; rewrite <- IZR_Zpower by lia; change (radix2 ^ 64)%Z with 18446744073709551616%Z; lra).
  assert (Fb : Forall (fun x => sec lo <= x <= sec hi) (map sec ts)) by (apply Forall_map; eapply Forall_impl; [|exact F]; cbn beta; intros d [D1 D2]; split; now apply sec_mono).
  rewrite Forall_forall in B, B'. assert (Hi : sec hi <= IZR (Z.of_N t)) by (rewrite <- (sec_whole t) by apply T; apply sec_mono, B, Ih). pose proof (sec_nonneg lo) as L0.
  assert (Ln : map as_secs_f64 ts <> []) by (destruct ts; [contradiction|discriminate]). assert (Ll : (N.of_nat (length (map as_secs_f64 ts)) <= 9007199254740992)%N) by (rewrite map_length; exact L).
  destruct (stat_mean_R _ _ (sec lo) (sec hi) (IZR (Z.of_N t)) Fv Ln Fb L0 Hi ltac:(lra) Ll) as (m & Fm & Bm & Em). assert (M9 : 0 <= m <= 9000000000000000000) by lra.
  destruct (from_secs_R _ _ Fm M9) as (r & E & Z). exists r, m. split; [exact E|]. split; [exact Fm|]. split; [lra|]. split; [exact Z|]. split; [rewrite map_length in Em; unfold len; rewrite nat_N_Z; exact Em|].
  exists lo, hi. split; [exact Il|]. split; [exact Ih|]. pose proof (nearest_sec lo (B' _ Il)) as Nl. pose proof (nearest_sec hi (B' _ Ih)) as Nh. split; apply N2Z.inj_le; rewrite Z; [rewrite <- Nl|rewrite <- Nh]; apply nearest_le; apply Rmult_le_compat_r; lra.
Qed.
Lemma kept_in ts d : In d (kept_of ts) -> In d ts.
Proof. intro H. apply filter_In in H. apply H. Qed.
Lemma filter_le {A} p (l : list A) : (length (filter p l) <= length l)%nat.
Proof. induction l as [|x l IH]; [apply Nat.le_refl|]. cbn [filter]. destruct (p x); cbn [length]; lia. Qed.

(** * C79 Measured times *)
(** With no runs there is nothing to average. *)
Theorem C79_no_runs : bench_time [] = Panic.
Proof. reflexivity. Qed.
(** A single run reports the measured time, to the nanosecond, up to twelve days. *)
Theorem C79_single d : (d <= 1048576 * 1000000000)%N -> bench_time [d] = Ok d /\ time_it_once d = Ok d.
Proof. intro H. split; exact (bench_one d H). Qed.
(** A reported time is never shorter than the fastest run nor longer than the slowest. *)
Theorem C79_between ts r : Forall (fun d => d <= 1048576 * 1000000000)%N ts -> (len ts < 2 ^ 32)%N -> bench_time ts = Ok r ->
  exists a b, In a ts /\ In b ts /\ (a <= r <= b)%N.
Proof.
  intros B L H. destruct (Nat.eq_dec (length ts) 1) as [E|E].
  - destruct ts as [|d [|? ?]]; try discriminate. inversion B as [|? ? Bd _]; subst. rewrite (bench_one d Bd) in H. injection H as <-. exists d, d. repeat split; try (now left); lia.
  - rewrite (bench_many ts E) in H. destruct (kept_of ts) as [|k ks] eqn:K; [discriminate|]. rewrite <- K in H.
    assert (Bk : Forall (fun d => (d <= max_secs * NANOS)%N) (kept_of ts)) by (apply Forall_forall; intros d I; rewrite Forall_forall in B; apply B, kept_in, I).
    pose proof (filter_le (fun d => bench_keep (stat_mean (map as_secs_f64 ts)) (f_mul f_three (stat_std_dev (map as_secs_f64 ts))) (as_secs_f64 d)) ts) as Lk. fold (kept_of ts) in Lk.
    destruct (mean_of (kept_of ts) max_secs ltac:(rewrite K; discriminate) ltac:(unfold max_secs; lia) Bk ltac:(unfold len in *; lia)) as (r' & m & E' & _ & _ & _ & _ & lo & hi & Il & Ih & R).
    rewrite E' in H. injection H as ->. exists lo, hi. split; [now apply kept_in|]. split; [now apply kept_in|exact R].
Qed.
(** A positive number of runs, none of them too long, always gives a time. It is, to the nanosecond, the mean of the runs that
    took from [lo] to [hi]; the others are discarded. *)
Theorem C79_runs ts t : ts <> [] -> (1 <= t)%N -> Forall (fun d => d <= t * 1000000000)%N ts -> (len ts * len ts * len ts * t * t <= 2 ^ 33)%N ->
  exists r lo hi, bench_time ts = Ok r /\
    let ks := filter (fun d => (lo <=? d) && (d <=? hi))%N ts in ks <> [] /\ (total ks <= len ks * (r + 1) /\ len ks * r <= total ks + len ks)%N.
Proof.
  intros Hn T B HX. change (2 ^ 33)%N with 8589934592%N in HX. assert (N1 : (1 <= len ts)%N) by (unfold len; destruct ts; [contradiction|cbn [length]; lia]).
  assert (TT : (t * t <= 8589934592)%N). { apply N.le_trans with (2 := HX). rewrite <- N.mul_assoc. rewrite <- (N.mul_1_l (t * t)) at 1. apply N.mul_le_mono_r. rewrite <- (N.mul_1_l 1). apply N.mul_le_mono; [|exact N1]. rewrite <- (N.mul_1_l 1). now apply N.mul_le_mono. }
  assert (T1 : (t <= 131072)%N). { destruct (N.le_gt_cases t 131072) as [|C]; [assumption|]. exfalso. assert (131072 * 131072 < t * t)%N by (apply N.mul_lt_mono; exact C). lia. }
  assert (Tm : (1 <= t <= max_secs)%N) by (unfold max_secs; lia). assert (B' : Forall (fun d => (d <= max_secs * NANOS)%N) ts) by (eapply Forall_impl; [|exact B]; cbn beta; unfold NANOS, max_secs; intros; lia).
  destruct (Nat.eq_dec (length ts) 1) as [E|E].
  - destruct ts as [|d [|? ?]]; try discriminate. inversion B' as [|? ? Bd _]; subst. exists d, d, d. split; [exact (bench_one d Bd)|]. cbn [filter]. rewrite N.leb_refl. cbn [andb]. split; [discriminate|]. change (total [d]) with (d + 0)%N. change (len [d]) with 1%N. lia.
  - assert (N2 : (2 <= length ts)%nat) by (unfold len in N1; lia). pose proof (secs_fval ts B') as Fv. pose proof (secs_range ts t (proj2 Tm) B) as Rg. set (X := IZR (Z.of_N t)) in *. assert (X1 : 1 <= X <= 131072) by (split; apply IZR_le; lia).
    assert (NX : (len ts * len ts * (t * t) <= 17179869184)%N).
    { apply N.le_trans with (len ts * len ts * len ts * t * t)%N; [|lia]. replace (len ts * len ts * len ts * t * t)%N with (len ts * (len ts * len ts * (t * t)))%N by ring. rewrite <- (N.mul_1_l (len ts * len ts * (t * t))) at 1. now apply N.mul_le_mono_r. }
    assert (Nt : (len ts * t <= 131072)%N). { destruct (N.le_gt_cases (len ts * t) 131072) as [|C]; [assumption|]. exfalso. assert (131072 * 131072 < (len ts * t) * (len ts * t))%N by (apply N.mul_lt_mono; exact C). replace ((len ts * t) * (len ts * t))%N with (len ts * len ts * (t * t))%N in * by ring. lia. }
    assert (Nl : (len ts <= 2048)%N). { destruct (N.le_gt_cases (len ts) 2048) as [|C]; [assumption|]. exfalso. assert (2048 * 2048 * 2048 < len ts * len ts * len ts)%N by (repeat apply N.mul_lt_mono; exact C). assert (len ts * len ts * len ts <= len ts * len ts * len ts * t * t)%N by (replace (len ts * len ts * len ts * t * t)%N with ((len ts * len ts * len ts) * (t * t))%N by ring; generalize (len ts * len ts * len ts)%N; intro q; rewrite <- (N.mul_1_r q) at 1; apply N.mul_le_mono_l; rewrite <- (N.mul_1_l 1); now apply N.mul_le_mono). lia. }
    set (l := map as_secs_f64 ts) in *. set (xs := map sec ts) in *. assert (Ll : length l = length ts) by apply map_length. assert (Lx : length xs = length ts) by apply map_length. assert (Ln : IZR (Z.of_nat (length xs)) = IZR (Z.of_N (len ts))) by (rewrite Lx; unfold len; now rewrite nat_N_Z).
    assert (K : kept_of ts <> []).
    { intro C. apply (kept l xs X Fv ltac:(lia) (proj1 X1) Rg).
      - rewrite Ln. unfold X. rewrite <- !mult_IZR, <- !N2Z.inj_mul. apply IZR_le. lia.
      - intros x y Ix Iy. apply in_map_iff in Ix. destruct Ix as (a & <- & Ia). apply in_map_iff in Iy. destruct Iy as (b & <- & Ib). rewrite Forall_forall in B. destruct (sec_gap a b t (B a Ia) (B b Ib) ltac:(lia)) as [->|G]; [now left|now right].
      - pose proof (filter_map_ as_secs_f64 (bench_keep (stat_mean l) (f_mul f_three (stat_std_dev l))) ts) as FM. fold l in FM. rewrite FM. change (map as_secs_f64 (kept_of ts) = []). now rewrite C. }
    assert (Bk : Forall (fun d => (d <= t * NANOS)%N) (kept_of ts)) by (apply Forall_forall; intros d I; rewrite Forall_forall in B; apply B, kept_in, I).
    assert (Lk : (length (kept_of ts) <= length ts)%nat) by apply filter_le. assert (Lk2 : (1 <= len (kept_of ts) <= len ts)%N) by (unfold len; destruct (kept_of ts); [contradiction|cbn [length] in *; lia]).
    destruct (mean_of (kept_of ts) t K Tm Bk ltac:(lia)) as (r & m & Er & Fm & Bm & Zr & Em & _). fold X in Bm, Em.
    destruct (bounds_of (kept_of ts) K) as (lo & hi & Il & Ih & Fk). exists r, lo, hi. split; [now rewrite (bench_many ts E)|]. cbv zeta.
    destruct (thr_R l xs X Fv ltac:(unfold len in Nl; lia) (proj1 X1) Rg ltac:(rewrite Ln; unfold X; rewrite <- mult_IZR, <- N2Z.inj_mul; apply IZR_le; lia)) as (tr & Ft).
    destruct (mean_of ts t Hn Tm B ltac:(lia)) as (_ & mm & _ & Fmm & Bmm & _). fold l in Fmm. fold X in Bmm.
    assert (XT : X <= top) by (apply Rle_trans with 1048576; [lra|]; unfold top; rewrite <- IZR_Zpower by lia; change (radix2 ^ 64)%Z with 18446744073709551616%Z; lra).
    assert (FE : filter (fun d => (lo <=? d) && (d <=? hi))%N ts = kept_of ts).
    { unfold kept_of at 1. cbv zeta. fold l. apply filter_ext_in. intros d Id. destruct (bench_keep (stat_mean l) (f_mul f_three (stat_std_dev l)) (as_secs_f64 d)) eqn:Kd.
      - assert (I : In d (kept_of ts)) by (apply filter_In; split; [exact Id|exact Kd]). rewrite Forall_forall in Fk. specialize (Fk d I). apply andb_true_iff. split; apply N.leb_le; apply Fk.
      - apply andb_false_iff. destruct (N.leb_spec lo d) as [L1|]; [|now left]. destruct (N.leb_spec d hi) as [L2|]; [|now right]. exfalso. apply filter_In in Il. apply filter_In in Ih. destruct Il as [Il Kl], Ih as [Ih Kh].
        assert (Fx : forall e, In e ts -> fval (as_secs_f64 e) (sec e)). { intros e Ie. pose proof (secs_fval [e] ltac:(constructor; [rewrite Forall_forall in B'; exact (B' e Ie)|constructor])) as G. now inversion G. }
        assert (Hx : sec hi <= X) by (unfold X; rewrite <- (sec_whole t) by apply Tm; apply sec_mono; rewrite Forall_forall in B; exact (B hi Ih)).
        rewrite (keep_mid _ mm _ tr _ _ _ (sec lo) (sec d) (sec hi) X Fmm Ft (Fx lo Il) (Fx d Id) (Fx hi Ih)) in Kd; [discriminate|split; now apply sec_mono|apply sec_nonneg|exact Hx|exact Bmm|exact XT|exact Kl|exact Kh]. }
    rewrite FE. split; [exact K|]. pose proof (sum_secs (kept_of ts) t Tm Bk) as Sm. fold X in Sm. unfold avg in Em. rewrite map_length in Em. assert (Lz : IZR (Z.of_nat (length (kept_of ts))) = IZR (Z.of_N (len (kept_of ts)))) by (unfold len; now rewrite nat_N_Z). rewrite Lz in Em, Sm.
    set (n := IZR (Z.of_N (len (kept_of ts)))) in *. set (s := IZR (Z.of_N (total (kept_of ts)))) in *. set (sm := sumR (map sec (kept_of ts))) in *.
    assert (Hn1 : 1 <= n) by (apply IZR_le; lia). assert (HnX : n * X <= 131072) by (unfold n, X; rewrite <- mult_IZR, <- N2Z.inj_mul; apply IZR_le; transitivity (Z.of_N (len ts * t)); [apply N2Z.inj_le; apply N.mul_le_mono_r, Lk2|lia]).
    assert (Hr : Rabs (IZR (Z.of_N r) - m * 1000000000) <= / 2) by (rewrite Zr, Rabs_minus_sym; apply Znearest_half).
    assert (En : 0 <= n * (3 * eps * X) <= / 22000000000). { rewrite eps_val. split; [repeat apply Rmult_le_pos; lra|]. replace (n * (3 * / 9007199254740992 * X)) with (3 * / 9007199254740992 * (n * X)) by ring. apply Rle_trans with (3 * / 9007199254740992 * 131072); [apply Rmult_le_compat_l; lra|lra]. }
    assert (G : Rabs (n * IZR (Z.of_N r) - s) <= n).
    { assert (G1 : Rabs (n * m - sm) <= n * (n * (3 * eps * X))). { replace (n * m - sm) with (n * (m - sm / n)) by (field; lra). rewrite Rabs_mult, (Rabs_pos_eq n) by lra. apply Rmult_le_compat_l; [lra|exact Em]. }
      assert (G2 : Rabs (n * IZR (Z.of_N r) - n * m * 1000000000) <= n * / 2). { replace (n * IZR (Z.of_N r) - n * m * 1000000000) with (n * (IZR (Z.of_N r) - m * 1000000000)) by ring. rewrite Rabs_mult, (Rabs_pos_eq n) by lra. apply Rmult_le_compat_l; [lra|exact Hr]. }
      assert (n * (n * (3 * eps * X)) <= n * / 22000000000) by (apply Rmult_le_compat_l; lra). set (nm := n * m) in *. set (nr := n * IZR (Z.of_N r)) in *. set (w := n * (3 * eps * X)) in *. set (nw := n * w) in *. clearbody nw w nm nr. apply Rabs_le_inv in G1, G2, Sm. apply Rabs_le. lra. }
    apply Rabs_le_inv in G. unfold n, s in G. rewrite <- mult_IZR, <- N2Z.inj_mul in G. split; apply N2Z.inj_le; apply le_IZR.
    + rewrite N.mul_add_distr_l, N.mul_1_r, N2Z.inj_add, plus_IZR. lra.
    + rewrite N2Z.inj_add, plus_IZR. lra.
Qed.
Print Assumptions C79_between.
Print Assumptions C79_runs.
(** The bound on the times is needed: three runs of 34 days, one of them a nanosecond longer, and all three are discarded as
    outliers. *)
Theorem C79_refuted : exists ts, ts <> [] /\ bench_time ts = Panic.
Proof. exists [2975656974766506; 2975656974766506; 2975656974766507]%N. split; [discriminate|vm_compute; reflexivity]. Qed.
Print Assumptions C79_refuted.
(** Fifty runs, the default of the command, of up to 262 seconds each are covered by [C79_runs]. *)
Example C79_runs_default (ts : list N) : length ts = 50%nat -> Forall (fun d => d <= 262 * 1000000000)%N ts -> exists r, bench_time ts = Ok r.
Proof.
  intros L B. destruct (C79_runs ts 262) as (r & lo & hi & E & _); [intros ->; discriminate|lia|exact B|unfold len; rewrite L; vm_compute; discriminate|now exists r].
Qed.
(** One slow run among twelve is discarded, one among ten is not. *)
Example C79_outlier : bench_time (1000000000 :: repeat 1000000 11)%N = Ok 1000000%N /\ bench_time (1000000000 :: repeat 1000000 9)%N = Ok 100900000%N.
Proof. split; vm_compute; reflexivity. Qed.
(** Halves of a nanosecond go either way: the sums in seconds are already rounded. *)
Example C79_small : bench_time [3; 4; 8]%N = Ok 5%N /\ bench_time [3; 4]%N = Ok 3%N /\ bench_time [4; 5]%N = Ok 5%N /\ bench_time [7; 7; 7; 7]%N = Ok 7%N.
Proof. repeat split; vm_compute; reflexivity. Qed.
Example C79_single_day : bench_time [86400123456789]%N = Ok 86400123456789%N.
Proof. apply (C79_single 86400123456789); lia. Qed.
