(** The number of bits that random positions set is rarely far from its mean. *)
From Coq Require Import Lia Reals Lra List Arith Bool.
From Verif Require Import Spec_Rate Spec_CountAvg Spec_Tail P_Rate P_CountAvg.
Import ListNotations.
Open Scope R_scope.

(** Average of a power of the number of unset bits (as if the bits were independent). *)
Lemma zeros_power m b t : (0 < m)%nat -> 0 <= b -> forall l, below m l ->
  avg_seq m t l (fun s => b ^ (m - cnt m (fun i => mem i s))) <= (1 + (b - 1) * untouched m t) ^ (m - cnt m (fun i => mem i l)).
Proof.
  intros M Hb. destruct (m_inv m M) as [P [[A0 A1] Q]]. induction t as [|t IH]; intros l Bl.
  - cbn [avg_seq]. unfold untouched. cbn [pow]. apply Req_le. f_equal. lra.
  - cbn [avg_seq]. set (c := cnt m (fun i => mem i l)). pose proof (cnt_le m (fun i => mem i l)) as Cm. fold c in Cm.
    pose proof (untouched_bounds m t M) as U. set (A := 1 + (b - 1) * untouched m t) in *.
    assert (HA : 0 <= A) by (unfold A; nra).
    set (B := 1 + (b - 1) * untouched m (S t)). pose proof (untouched_bounds m (S t) M) as U'.
    assert (HB : 0 <= B) by (unfold B; nra).
    assert (EB : B = A + (1 - A) / INR m) by (unfold B, A, untouched; cbn [pow]; field; lra).
    assert (S1 : forall i, (i < m)%nat -> avg_seq m t (i :: l) (fun s => b ^ (m - cnt m (fun j => mem j s))) <= A ^ (m - (c + (if mem i l then 0 else 1)))).
    { intros i Hi. apply Rle_trans with (1 := IH (i :: l) ltac:(constructor; assumption)). apply Req_le. f_equal. f_equal. exact (cnt_add m (fun j => mem j l) i Hi). }
    apply Rle_trans with (1 := avg_le m _ _ S1). clear S1 IH. destruct (m - c)%nat as [|z] eqn:Z.
    + assert (c = m) by lia. cbn [pow]. rewrite (avg_ext m _ (fun _ => 1)); [rewrite avg_const by exact M; lra|].
      intros i Hi. replace (m - _)%nat with 0%nat by lia. reflexivity.
    + rewrite (avg_ext m _ (fun i => A ^ z + (A ^ z * (A - 1)) * ind (mem i l))).
      * rewrite avg_plus, avg_const, avg_scal, cnt_avg by exact M. fold c. pose proof (pow_tangent A B z HA HB) as T.
        apply Rle_trans with (2 := T). apply Req_le. rewrite EB. assert (Ec : INR c = INR m - INR (S z)) by (rewrite <- Z, minus_INR by lia; lra).
        rewrite Ec. cbn [pow]. field. lra.
      * intros i Hi. destruct (mem i l); cbn [ind].
        -- replace (m - (c + 0))%nat with (S z) by lia. cbn [pow]. ring.
        -- replace (m - (c + 1))%nat with z by lia. ring.
Qed.

Lemma exp_upper_neg s : 0 <= s -> exp (- s) <= 1 - s + s * s / 2.
Proof.
  intros [S|<-]; [|rewrite Ropp_0, exp_0; lra].
  destruct (MVT_cor2 (fun x => exp x - 1 - x - x * x / 2) (fun x => exp x - 1 - x) 0 s S) as (c & E & C).
  { intros c _. replace (exp c - 1 - c) with (exp c - 0 - 1 - c) by ring. repeat apply derivable_pt_lim_minus; [apply derivable_pt_lim_exp|apply derivable_pt_lim_const|apply derivable_pt_lim_id|].
    replace (c) with ((1 * c + c * 1) * / 2) at 2 by field.
    assert (D : derivable_pt_lim (fun x => x * x * / 2) c ((1 * c + c * 1) * / 2 + c * c * 0)).
    { apply (derivable_pt_lim_mult (fun x => x * x) (fun _ => / 2) c); [|apply derivable_pt_lim_const]. apply (derivable_pt_lim_mult id id c); apply derivable_pt_lim_id. }
    replace ((1 * c + c * 1) * / 2 + c * c * 0) with ((1 * c + c * 1) * / 2) in D by ring. exact D. }
  rewrite exp_0 in E. pose proof (exp_ge_1 c). assert (G : 1 + s + s * s / 2 <= exp s) by nra.
  rewrite exp_Ropp. pose proof (exp_pos s). apply Rmult_le_reg_r with (exp s); [lra|]. rewrite Rinv_l by lra.
  apply Rle_trans with ((1 - s + s * s / 2) * (1 + s + s * s / 2)); [nra|]. apply Rmult_le_compat_l; [nra|exact G].
Qed.
Lemma exp_upper_pos s : 0 <= s <= / 2 -> exp s <= 1 + s + s * s.
Proof.
  intros [[S|<-] S2]; [|rewrite exp_0; lra].
  destruct (MVT_cor2 (fun x => 1 + x + x * x - exp x) (fun x => 0 + 1 + (1 * x + x * 1) - exp x) 0 s S) as (c & E & C).
  { intros c _. apply derivable_pt_lim_minus; [|apply derivable_pt_lim_exp]. apply (derivable_pt_lim_plus (fun x => 1 + x) (fun x => x * x)).
    - apply (derivable_pt_lim_plus (fun _ => 1) id); [apply derivable_pt_lim_const|apply derivable_pt_lim_id].
    - apply (derivable_pt_lim_mult id id c); apply derivable_pt_lim_id. }
  rewrite exp_0 in E. assert (G : exp c <= 1 + 2 * c).
  { replace c with (c / 2 + c / 2) at 1 by lra. rewrite exp_plus. pose proof (exp_ge_1 (- (c / 2))) as H. rewrite exp_Ropp in H. pose proof (exp_pos (c / 2)) as P. set (e := exp (c / 2)) in *.
    assert (H' : (1 - c / 2) * e <= 1) by (apply Rmult_le_reg_r with (/ e); [now apply Rinv_0_lt_compat|]; rewrite Rmult_assoc, Rinv_r by lra; lra).
    apply Rmult_le_reg_l with ((1 - c / 2) * (1 - c / 2)); [nra|]. apply Rle_trans with 1; [|nra].
    replace ((1 - c / 2) * (1 - c / 2) * (e * e)) with (((1 - c / 2) * e) * ((1 - c / 2) * e)) by ring.
    assert (0 <= (1 - c / 2) * e) by (apply Rmult_le_pos; lra). nra. }
  nra.
Qed.
Lemma cnt_ones m l : cnt m (fun i => mem i l) = ones m l.
Proof. apply INR_eq. now rewrite cnt_sum, ones_sum. Qed.
(** Chernoff's method: [b = exp s] for one sign of [s] or the other. *)
Lemma zeros_exp m t s : (0 < m)%nat -> avg_seq m t [] (fun l => exp (s * (INR m - INR (ones m l)))) <= exp (INR m * untouched m t * (exp s - 1)).
Proof.
  intro M. rewrite (seq_ext m t [] _ (fun l => exp s ^ (m - cnt m (fun i => mem i l)))); [|constructor|].
  - pose proof (exp_pos s) as P. apply Rle_trans with (1 := zeros_power m (exp s) t M ltac:(lra) [] (Forall_nil _)). pose proof (untouched_bounds m t M) as U.
    rewrite cnt_none by reflexivity. rewrite Nat.sub_0_r. replace (INR m * untouched m t * (exp s - 1)) with (INR m * ((exp s - 1) * untouched m t)) by ring. rewrite <- exp_pow.
    apply pow_incr. split; [nra|]. apply exp_ge_1.
  - intros l _. rewrite cnt_ones, exp_pow, minus_INR by apply ones_le. f_equal. ring.
Qed.
Lemma above_le r x y : 0 <= y -> (r < x -> 1 <= y) -> above r x <= y.
Proof. intros Y H. unfold above. destruct (Rlt_dec r x); [now apply H|exact Y]. Qed.

Lemma many_ones m t d : (2 <= m)%nat -> 0 <= d -> let u := untouched m t in
  avg_seq m t [] (fun l => above (INR m * (1 - u) + d) (INR (ones m l))) <= exp (- (d * d / (2 * INR m * u))).
Proof.
  intros M D u. destruct (untouched_ln m t M) as [U _]. fold u in U. assert (M0 : 0 < INR m) by (apply lt_0_INR; lia).
  set (s := d / (INR m * u)). assert (MU : 0 < INR m * u) by now apply Rmult_lt_0_compat.
  assert (S : 0 <= s) by (apply Rmult_le_pos; [exact D|left; now apply Rinv_0_lt_compat]).
  apply Rle_trans with (avg_seq m t [] (fun l => exp (s * (INR m * u - d)) * exp (- s * (INR m - INR (ones m l))))).
  - apply seq_le; [constructor|]. intros l _ _. rewrite <- exp_plus. apply above_le; [left; apply exp_pos|]. intro H.
    rewrite <- exp_0. apply exp_le. nra.
  - rewrite seq_scal. pose proof (zeros_exp m t (- s) ltac:(lia)) as Z. fold u in Z. pose proof (exp_pos (s * (INR m * u - d))) as E.
    apply Rle_trans with (exp (s * (INR m * u - d)) * exp (INR m * u * (exp (- s) - 1))); [apply Rmult_le_compat_l; lra|].
    rewrite <- exp_plus. apply exp_le. pose proof (exp_upper_neg s S) as G.
    apply Rle_trans with (s * (INR m * u - d) + INR m * u * (- s + s * s / 2)); [apply Rplus_le_compat_l, Rmult_le_compat_l; lra|].
    apply Req_le. unfold s. field. lra.
Qed.
Lemma few_ones m t d : (2 <= m)%nat -> let u := untouched m t in 0 <= d <= INR m * u ->
  avg_seq m t [] (fun l => above (- (INR m * (1 - u) - d)) (- INR (ones m l))) <= exp (- (d * d / (4 * INR m * u))).
Proof.
  intros M u [D D']. destruct (untouched_ln m t M) as [U _]. fold u in U. assert (M0 : 0 < INR m) by (apply lt_0_INR; lia).
  set (s := d / (2 * INR m * u)). assert (MU : 0 < INR m * u) by now apply Rmult_lt_0_compat.
  assert (S : 0 <= s <= / 2).
  { unfold s. split; [apply Rmult_le_pos; [exact D|left; apply Rinv_0_lt_compat; lra]|]. apply Rmult_le_reg_r with (2 * INR m * u); [lra|]. unfold Rdiv. rewrite Rmult_assoc, Rinv_l by lra. lra. }
  apply Rle_trans with (avg_seq m t [] (fun l => exp (- s * (INR m * u + d)) * exp (s * (INR m - INR (ones m l))))).
  - apply seq_le; [constructor|]. intros l _ _. rewrite <- exp_plus. apply above_le; [left; apply exp_pos|]. intro H.
    rewrite <- exp_0. apply exp_le. nra.
  - rewrite seq_scal. pose proof (zeros_exp m t s ltac:(lia)) as Z. fold u in Z. pose proof (exp_pos (- s * (INR m * u + d))) as E.
    apply Rle_trans with (exp (- s * (INR m * u + d)) * exp (INR m * u * (exp s - 1))); [apply Rmult_le_compat_l; lra|].
    rewrite <- exp_plus. apply exp_le. pose proof (exp_upper_pos s S) as G.
    apply Rle_trans with (- s * (INR m * u + d) + INR m * u * (s + s * s)); [apply Rplus_le_compat_l, Rmult_le_compat_l; lra|].
    apply Req_le. unfold s. field. lra.
Qed.

(** ** The false-positive rate *)
Lemma rate_upper_z m k n z : (1 < m)%nat -> (0 < n)%nat -> 0 <= z -> let u := (INR m - 1) * ln 2 / INR n in
  (1 - untouched m (k * n) + z) ^ k <= exp (ln 2 * ((INR k - u) * (INR k - u) / u - u) + 2 * INR k * z).
Proof.
  intros M N Z u. pose proof ln2_pos as L. assert (P : 0 < INR m - 1) by (apply lt_INR in M; change (INR 1) with 1 in M; lra). apply lt_0_INR in N as N'.
  assert (U : 0 < u) by (apply Rmult_lt_0_compat; [apply Rmult_lt_0_compat; assumption|apply Rinv_0_lt_compat, N']).
  set (y := (INR k - u) * ln 2 / u). assert (E : INR k * INR n / (INR m - 1) = ln 2 + y). { unfold y, u. field. repeat split; lra. }
  pose proof (untouched_ge m (k * n) M) as G. rewrite mult_INR, E in G. pose proof (untouched_bounds m (k * n) ltac:(lia)) as B.
  apply Rle_trans with ((1 - exp (- (ln 2 + y)) + z) ^ k); [apply pow_incr; lra|].
  apply Rle_trans with (1 := half_bound y z k ltac:(lra)). apply exp_le, Req_le. unfold y. field. lra.
Qed.
(** A filter designed for [c] entries, at any load up to [c]. *)
Lemma bad_rate m k n c d r : (2 <= m)%nat -> (n <= c)%nat -> (0 < c)%nat -> 0 <= d -> let u := (INR m - 1) * ln 2 / INR c in
  exp (ln 2 * ((INR k - u) * (INR k - u) / u - u) + 2 * INR k * d) <= r -> bad_rate_fraction m k n r <= exp (- (d * d * INR m / 2)).
Proof.
  intros M N C D u H. assert (M0 : 0 < INR m) by (apply lt_0_INR; lia). destruct (untouched_ln m (k * n) M) as [U _]. pose proof (untouched_bounds m (k * n) ltac:(lia)) as U1.
  pose proof (rate_upper_z m k c d ltac:(lia) C D) as G. cbv zeta in G. fold u in G. pose proof (untouched_anti m (k * n) (k * c) ltac:(lia) ltac:(nia)) as UA.
  apply Rle_trans with (avg_seq m (k * n) [] (fun l => above (INR m * (1 - untouched m (k * n)) + INR m * d) (INR (ones m l)))).
  - apply seq_le; [constructor|]. intros l _ _. rewrite query_avg. cbn [all_mem forallb ind]. rewrite Rmult_1_l, cnt_ones. apply above_le; [unfold above; destruct Rlt_dec; lra|]. intro A.
    unfold above. destruct Rlt_dec as [_|B]; [lra|]. exfalso. apply Rnot_lt_le in B.
    assert (B' : INR (ones m l) / INR m <= 1 - untouched m (k * c) + d).
    { apply Rmult_le_reg_r with (INR m); [exact M0|]. unfold Rdiv. rewrite Rmult_assoc, Rinv_l by lra. nra. }
    assert (P0 : 0 <= INR (ones m l) / INR m) by (apply Rmult_le_pos; [apply pos_INR|apply inv_nonneg]).
    pose proof (pow_incr _ _ k (conj P0 B')). lra.
  - apply Rle_trans with (1 := many_ones m (k * n) (INR m * d) M ltac:(apply Rmult_le_pos; lra)). apply exp_le, Ropp_le_contravar.
    replace (INR m * d * (INR m * d) / (2 * INR m * untouched m (k * n))) with (d * d * INR m / 2 * / untouched m (k * n)) by (field; lra).
    assert (1 <= / untouched m (k * n)) by (rewrite <- Rinv_1; apply Rinv_le_contravar; lra). assert (0 <= d * d * INR m / 2) by nra. nra.
Qed.

(** ** A filter of several buckets: bounded differences *)
Lemma seq_nil m t : forall l f, avg_seq m t l f = avg_seq m t [] (fun s => f (s ++ l)).
Proof.
  induction t as [|t IH]; intros l f; [reflexivity|]. cbn [avg_seq]. apply avg_ext. intros i _. rewrite IH, (IH [i]). apply seq_ext; [constructor|]. intros s _. now rewrite <- app_assoc.
Qed.
Lemma seq_add m t u : forall l f, avg_seq m (t + u) l f = avg_seq m t l (fun s => avg_seq m u s f).
Proof. induction t as [|t IH]; intros l f; [reflexivity|]. cbn [Nat.add avg_seq]. apply avg_ext. intros i _. apply IH. Qed.
Lemma count_in_snoc j l i : count_in j (l ++ [i]) = (count_in j l + if Nat.eqb j i then 1 else 0)%nat.
Proof. unfold count_in. rewrite filter_app, app_length. cbn [filter]. destruct (Nat.eqb j i); reflexivity. Qed.
(** Seen from one bucket, only the number of entries there matters. *)
Lemma entries_bucket b m k j g n : (0 < b)%nat -> (0 < m)%nat -> forall es,
  avg_entries b m k n es (fun x => g (bucket_positions j x)) = avg_seq b n [] (fun l => avg_seq m (k * count_in j l) (bucket_positions j es) g).
Proof.
  intros B M. induction n as [|n IH]; intro es; [cbn; now rewrite Nat.mul_0_r|]. cbn [avg_entries avg_seq]. apply avg_ext. intros i _. rewrite (seq_nil b n [i]).
  rewrite (seq_ext m k [] _ (fun q => avg_seq b n [] (fun l => avg_seq m (k * count_in j l) (bucket_positions j ((i, q) :: es)) g))); [|constructor|intros; apply IH].
  rewrite seq_swap. apply seq_ext; [constructor|]. intros l _. rewrite count_in_snoc. unfold bucket_positions. cbn [filter fst]. destruct (Nat.eqb j i).
  - cbn [flat_map snd]. rewrite Nat.mul_add_distr_l, Nat.mul_1_r, (Nat.add_comm _ k), seq_add. symmetry. apply seq_nil.
  - rewrite Nat.add_0_r. now rewrite seq_const.
Qed.
Lemma entries_avg b m k c n : forall es (f : list (nat * list nat) -> nat -> R), avg_entries b m k n es (fun x => avg c (f x)) = avg c (fun j => avg_entries b m k n es (fun x => f x j)).
Proof.
  induction n as [|n IH]; intros es f; [reflexivity|]. cbn [avg_entries]. rewrite <- avg_swap. apply avg_ext. intros i _. rewrite <- seq_avg. apply seq_ext; [constructor|]. intros q _. apply IH.
Qed.
(** The average rate of the filter. *)
Lemma filter_rate_average b m k n : (0 < b)%nat -> (0 < m)%nat -> avg_entries b m k n [] (filter_rate b m k) = ideal_filter_rate b m k n.
Proof.
  intros B M. unfold filter_rate, ideal_filter_rate. rewrite entries_avg, seq_avg. apply avg_ext. intros j _.
  rewrite (entries_bucket b m k j (fun l => avg_seq m k [] (fun q => ind (all_mem q l))) n B M []). reflexivity.
Qed.
Definition sound_entry (k : nat) (e : nat * list nat) : Prop := length (snd e) = k.
Lemma entries_le b m k n : forall es f g, Forall (sound_entry k) es -> (forall x, Forall (sound_entry k) x -> f x <= g x) -> avg_entries b m k n es f <= avg_entries b m k n es g.
Proof.
  induction n as [|n IH]; intros es f g E H; [now apply H|]. cbn [avg_entries]. apply avg_le. intros j _. apply seq_le; [constructor|]. intros q _ Lq. apply IH; [|exact H].
  constructor; [|exact E]. unfold sound_entry. cbn [snd]. cbn [length] in Lq. lia.
Qed.
Lemma entries_nil b m k n : forall es f, avg_entries b m k n es f = avg_entries b m k n [] (fun x => f (x ++ es)).
Proof.
  induction n as [|n IH]; intros es f; [reflexivity|]. cbn [avg_entries]. apply avg_ext. intros j _. apply seq_ext; [constructor|]. intros q _. rewrite IH, (IH [(j, q)]).
  set (F := fun x => f (x ++ (j, q) :: es)). set (G := fun x => _). assert (E : forall x, F x = G x) by (intro x; unfold F, G; now rewrite <- app_assoc).
  clearbody F G. clear IH. revert E. generalize (@nil (nat * list nat)). induction n as [|n IH]; intros e E; [apply E|]. cbn [avg_entries]. apply avg_ext. intros i _. apply seq_ext; [constructor|]. intros p _. now apply IH.
Qed.
Lemma entries_scal b m k c n : forall es f, avg_entries b m k n es (fun x => c * f x) = c * avg_entries b m k n es f.
Proof.
  induction n as [|n IH]; intros es f; [reflexivity|]. cbn [avg_entries]. rewrite <- avg_scal. apply avg_ext. intros i _. rewrite <- seq_scal. apply seq_ext; [constructor|]. intros; apply IH.
Qed.
Lemma entries_plus b m k n : forall es f g, avg_entries b m k n es (fun x => f x + g x) = avg_entries b m k n es f + avg_entries b m k n es g.
Proof.
  induction n as [|n IH]; intros es f g; [reflexivity|]. cbn [avg_entries]. rewrite <- avg_plus. apply avg_ext. intros i _. rewrite <- seq_plus. apply seq_ext; [constructor|]. intros; apply IH.
Qed.
Lemma entries_const b m k c n : (0 < b)%nat -> (0 < m)%nat -> forall es, avg_entries b m k n es (fun _ => c) = c.
Proof.
  intros B M. induction n as [|n IH]; intro es; [reflexivity|]. cbn [avg_entries]. rewrite (avg_ext b _ (fun _ => c)); [now apply avg_const|]. intros i _. rewrite (seq_ext m k [] _ (fun _ => c)); [now apply seq_const|constructor|]. intros; apply IH.
Qed.
Lemma exp_upper x : Rabs x <= / 2 -> exp x <= 1 + x + x * x.
Proof.
  intro H. assert (H' : - / 2 <= x <= / 2) by (unfold Rabs in H; destruct Rcase_abs; lra). destruct (Rle_dec 0 x) as [P|P]; [apply exp_upper_pos; lra|]. pose proof (exp_upper_neg (- x) ltac:(lra)) as G. rewrite Ropp_involutive in G. nra.
Qed.
(** One entry. *)
Lemma one_entry b m k (Y : nat -> list nat -> R) c s : (0 < b)%nat -> (0 < m)%nat -> 0 <= s -> s * c <= / 2 -> (forall i q, length q = k -> 0 <= Y i q <= c) ->
  let mu := avg b (fun i => avg_seq m k [] (Y i)) in avg b (fun i => avg_seq m k [] (fun q => exp (s * Y i q))) <= exp (s * mu + s * s * (c * c / 4)).
Proof.
  intros B M S C H mu.
  assert (H0 : forall i q, length q = (k + @length nat [])%nat -> 0 <= Y i q <= c) by (intros i q Lq; apply H; rewrite Lq; cbn; lia).
  assert (Mu : 0 <= mu <= c).
  { split.
    - rewrite <- (avg_const b 0 B). apply avg_le. intros i _. rewrite <- (seq_const m k 0 M []). apply seq_le; [constructor|]. intros q _ Lq. apply H0, Lq.
    - rewrite <- (avg_const b c B). apply avg_le. intros i _. rewrite <- (seq_const m k c M []). apply seq_le; [constructor|]. intros q _ Lq. apply H0, Lq. }
  rewrite exp_plus. 
  apply Rle_trans with (avg b (fun i => avg_seq m k [] (fun q => exp (s * mu) * ((1 - s * mu + s * s * (mu * mu)) + (s + s * s * (c - 2 * mu)) * Y i q)))).
  - apply avg_le. intros i _. apply seq_le; [constructor|]. intros q _ Lq. destruct (H0 i q Lq) as [Y0 Y1]. replace (s * Y i q) with (s * mu + s * (Y i q - mu)) by ring. rewrite exp_plus.
    apply Rmult_le_compat_l; [left; apply exp_pos|]. set (y := Y i q) in *. apply Rle_trans with (1 + s * (y - mu) + s * (y - mu) * (s * (y - mu))).
    + apply exp_upper. rewrite Rabs_mult, (Rabs_pos_eq s S). apply Rle_trans with (2 := C). apply Rmult_le_compat_l; [exact S|]. apply Rabs_le. lra.
    + assert (y * y <= c * y) by nra. assert (0 <= s * s) by nra. nra.
  - rewrite (avg_ext b _ (fun i => exp (s * mu) * ((1 - s * mu + s * s * (mu * mu)) + (s + s * s * (c - 2 * mu)) * avg_seq m k [] (Y i)))).
    + rewrite avg_scal, avg_plus, avg_const, avg_scal by exact B. fold mu. apply Rmult_le_compat_l; [left; apply exp_pos|].
      apply Rle_trans with (2 := exp_ge_1 _). assert (mu * (c - mu) <= c * c / 4) by (pose proof (Rle_0_sqr (mu - c / 2)) as Q; unfold Rsqr in Q; nra). assert (0 <= s * s) by nra. nra.
    + intros i _. rewrite seq_scal. f_equal. rewrite <- (seq_scal m (s + s * s * (c - 2 * mu))). rewrite (seq_ext m k [] _ (fun q => (s + s * s * (c - 2 * mu)) * Y i q + (1 - s * mu + s * s * (mu * mu)))); [|constructor|intros; ring].
      rewrite seq_shift by exact M. ring.
Qed.
Lemma entries_exp b m k f c s n : (0 < b)%nat -> (0 < m)%nat -> 0 <= s -> s * c <= / 2 ->
  (forall l e r, Forall (sound_entry k) (l ++ e :: r) -> 0 <= f (l ++ e :: r) - f (l ++ r) <= c) ->
  forall es, Forall (sound_entry k) es -> avg_entries b m k n es (fun x => exp (s * f x)) <= exp (s * avg_entries b m k n es f + INR n * (s * s * (c * c / 4))).
Proof.
  intros B M S C H. set (v := s * s * (c * c / 4)). induction n as [|n IH]; intros es E; [cbn [avg_entries INR]; apply exp_le; lra|]. cbn [avg_entries].
  set (F := avg_entries b m k n) in *. 
  assert (D : forall i q, length q = k -> 0 <= F ((i, q) :: es) f - F es f <= c).
  { intros i q Lq. assert (Se : sound_entry k (i, q)) by exact Lq. unfold F. rewrite (entries_nil b m k n ((i, q) :: es)), (entries_nil b m k n es).
    replace (avg_entries b m k n [] (fun x => f (x ++ (i, q) :: es)) - avg_entries b m k n [] (fun x => f (x ++ es))) with (avg_entries b m k n [] (fun x => f (x ++ (i, q) :: es) + -1 * f (x ++ es))) by (rewrite entries_plus, entries_scal; ring).
    assert (G : forall x, Forall (sound_entry k) x -> 0 <= f (x ++ (i, q) :: es) + -1 * f (x ++ es) <= c).
    { intros x Sx. assert (G : 0 <= f (x ++ (i, q) :: es) - f (x ++ es) <= c) by (apply H, Forall_app; split; [exact Sx|now constructor]). lra. }
    split.
    - apply Rle_trans with (avg_entries b m k n [] (fun _ => 0)); [rewrite entries_const by assumption; lra|]. apply entries_le; [constructor|]. intros x Sx. now apply G.
    - apply Rle_trans with (avg_entries b m k n [] (fun _ => c)); [|rewrite entries_const by assumption; lra]. apply entries_le; [constructor|]. intros x Sx. now apply G. }
  apply Rle_trans with (avg b (fun j => avg_seq m k [] (fun q => exp (s * F es f + INR n * v) * exp (s * (F ((j, q) :: es) f - F es f))))).
  - apply avg_le. intros j _. apply seq_le; [constructor|]. intros q _ Lq. assert (Sq : sound_entry k (j, q)) by (unfold sound_entry; cbn [snd]; cbn [length] in Lq; lia).
    apply Rle_trans with (1 := IH ((j, q) :: es) ltac:(constructor; assumption)). rewrite <- exp_plus. apply exp_le. lra.
  - rewrite (avg_ext b _ (fun j => exp (s * F es f + INR n * v) * avg_seq m k [] (fun q => exp (s * (F ((j, q) :: es) f - F es f))))) by (intros; apply seq_scal).
    rewrite avg_scal. pose proof (one_entry b m k (fun j q => F ((j, q) :: es) f - F es f) c s B M S C D) as O. cbv beta zeta in O. fold v in O.
    apply Rle_trans with (exp (s * F es f + INR n * v) * exp (s * avg b (fun i => avg_seq m k [] (fun q => F ((i, q) :: es) f - F es f)) + v)); [apply Rmult_le_compat_l; [left; apply exp_pos|exact O]|].
    rewrite <- exp_plus. apply exp_le. rewrite S_INR.
    assert (Em : avg b (fun i => avg_seq m k [] (fun q => F ((i, q) :: es) f - F es f)) = avg b (fun j => avg_seq m k [] (fun q => F ((j, q) :: es) f)) + - F es f).
    { rewrite <- (avg_const b (- F es f) B), <- avg_plus. apply avg_ext. intros i _. rewrite <- seq_shift by exact M. apply seq_ext; [constructor|]. intros; ring. }
    rewrite Em. lra.
Qed.
Lemma pow_lip a b k : 0 <= a <= b -> b <= 1 -> 0 <= b ^ k - a ^ k <= INR k * (b - a).
Proof.
  intros A B. induction k as [|k IH]; [cbn; lra|]. rewrite S_INR. cbn [pow]. assert (0 <= a ^ k) by (apply pow_le; lra). assert (b ^ k <= 1) by (rewrite <- (pow1 k); apply pow_incr; lra). nra.
Qed.
Lemma mem_app i a b : mem i (a ++ b) = (mem i a || mem i b)%bool.
Proof. apply existsb_app. Qed.
Lemma cnt_le_imp m p q : (forall i, p i = true -> q i = true) -> INR (cnt m p) <= INR (cnt m q).
Proof. intro H. rewrite !cnt_sum. apply sum_le. intros i _. specialize (H i). destruct (p i), (q i); cbn; try lra. all: discriminate (H eq_refl). Qed.
Lemma ones_more m l q r : INR (ones m (l ++ r)) <= INR (ones m (l ++ q ++ r)) <= INR (ones m (l ++ r)) + INR (length q).
Proof.
  rewrite <- !cnt_ones. split.
  - apply cnt_le_imp. intro i. rewrite !mem_app. destruct (mem i l), (mem i q), (mem i r); auto.
  - apply Rle_trans with (INR (cnt m (fun i => mem i (l ++ r))) + INR (cnt m (fun i => mem i q))); [|apply Rplus_le_compat_l, le_INR, cnt_mem_le].
    rewrite !cnt_sum, <- sum_plus. apply sum_le. intros i _. rewrite !mem_app. destruct (mem i l), (mem i q), (mem i r); cbn; lra.
Qed.
Lemma filter_rate_ones b m k es : filter_rate b m k es = avg b (fun j => (INR (ones m (bucket_positions j es)) / INR m) ^ k).
Proof. unfold filter_rate. apply avg_ext. intros j _. rewrite query_avg. cbn [all_mem forallb ind]. rewrite Rmult_1_l, cnt_ones. reflexivity. Qed.
Lemma bucket_app j a c : bucket_positions j (a ++ c) = bucket_positions j a ++ bucket_positions j c.
Proof. unfold bucket_positions. now rewrite filter_app, flat_map_app. Qed.
Lemma sum_one b i : sum_below b (fun j => ind (Nat.eqb j i)) <= 1.
Proof.
  assert (H : sum_below b (fun j => ind (Nat.eqb j i)) = ind (Nat.ltb i b)); [|rewrite H; destruct (Nat.ltb i b); cbn; lra].
  induction b as [|b IH]; [reflexivity|]. cbn [sum_below]. rewrite IH. destruct (Nat.ltb_spec i b), (Nat.eqb_spec b i), (Nat.ltb_spec i (S b)); cbn; try lra; lia.
Qed.
(** One more entry. *)
Lemma filter_rate_step b m k l e r : (0 < b)%nat -> (0 < m)%nat -> Forall (sound_entry k) (l ++ e :: r) ->
  0 <= filter_rate b m k (l ++ e :: r) - filter_rate b m k (l ++ r) <= INR k * INR k / (INR m * INR b).
Proof.
  intros B M E. assert (Le : length (snd e) = k) by (apply Forall_app in E; destruct E as [_ E]; now inversion E). assert (M0 : 0 < INR m) by now apply lt_0_INR. assert (B0 : 0 < INR b) by now apply lt_0_INR.
  rewrite !filter_rate_ones. set (g := fun es j => (INR (ones m (bucket_positions j es)) / INR m) ^ k).
  assert (I : forall j, 0 <= g (l ++ e :: r) j - g (l ++ r) j <= INR k * INR k / INR m * ind (Nat.eqb j (fst e))).
  { intro j. unfold g. rewrite !bucket_app.
    assert (EB : bucket_positions j (e :: r) = (if Nat.eqb j (fst e) then snd e else []) ++ bucket_positions j r) by (unfold bucket_positions; cbn [filter]; destruct (Nat.eqb j (fst e)); reflexivity). rewrite EB. destruct (Nat.eqb j (fst e)); cbn [ind app].
    - destruct (ones_more m (bucket_positions j l) (snd e) (bucket_positions j r)) as [O1 O2]. rewrite Le in O2. set (y := INR (ones m (_ ++ snd e ++ _))) in *. set (x := INR (ones m (_ ++ bucket_positions j r))) in *.
      assert (X0 : 0 <= x) by apply pos_INR. assert (Y1 : y <= INR m) by apply le_INR, ones_le.
      assert (I0 : 0 < / INR m) by now apply Rinv_0_lt_compat. assert (mm : INR m * / INR m = 1) by (apply Rinv_r; lra).
      destruct (pow_lip (x / INR m) (y / INR m) k) as [P1 P2]; [unfold Rdiv; nra|unfold Rdiv; nra|]. split; [exact P1|]. apply Rle_trans with (1 := P2). rewrite Rmult_1_r.
      unfold Rdiv. rewrite Rmult_assoc. apply Rmult_le_compat_l; [apply pos_INR|]. nra.
    - lra. }
  replace (avg b (fun j => (INR (ones m (bucket_positions j (l ++ e :: r))) / INR m) ^ k) - avg b (fun j => (INR (ones m (bucket_positions j (l ++ r))) / INR m) ^ k)) with (avg b (fun j => g (l ++ e :: r) j + -1 * g (l ++ r) j)) by (rewrite avg_plus, avg_scal; unfold g; ring).
  split.
  - apply Rle_trans with (avg b (fun _ => 0)); [rewrite avg_const by exact B; lra|]. apply avg_le. intros j _. specialize (I j). lra.
  - apply Rle_trans with (avg b (fun j => INR k * INR k / INR m * ind (Nat.eqb j (fst e)))); [apply avg_le; intros j _; specialize (I j); lra|].
    rewrite avg_scal. unfold avg. pose proof (sum_one b (fst e)) as S1. assert (I0 : 0 < / INR m) by now apply Rinv_0_lt_compat. assert (I1 : 0 < / INR b) by now apply Rinv_0_lt_compat. pose proof (pos_INR k) as K0.
    replace (INR k * INR k / (INR m * INR b)) with (INR k * INR k / INR m * (1 * / INR b)) by (field; lra). apply Rmult_le_compat_l; [unfold Rdiv; apply Rmult_le_pos; nra|]. apply Rmult_le_compat_r; lra.
Qed.
Lemma bad_filter b m k n c t r : (0 < b)%nat -> (0 < m)%nat -> (1 <= k)%nat -> (n <= c)%nat -> (0 < c)%nat -> let D := INR k * INR k / (INR m * INR b) in 0 <= t -> 4 * t <= INR c * D ->
  ideal_filter_rate b m k n + t <= r -> bad_filter_fraction b m k n r <= exp (- (t * t / (INR c * (D * D)))).
Proof.
  intros B M K N C D T TD R. assert (M0 : 0 < INR m) by now apply lt_0_INR. assert (B0 : 0 < INR b) by now apply lt_0_INR. assert (C0 : 0 < INR c) by now apply lt_0_INR. assert (K0 : 0 < INR k) by (apply lt_0_INR; lia).
  assert (D0 : 0 < D) by (unfold D; apply Rmult_lt_0_compat; [|apply Rinv_0_lt_compat]; now apply Rmult_lt_0_compat).
  assert (CD : 0 < INR c * (D * D)) by (apply Rmult_lt_0_compat; [|apply Rmult_lt_0_compat]; assumption).
  set (s := 2 * t / (INR c * (D * D))). assert (S : 0 <= s) by (unfold s; apply Rmult_le_pos; [lra|left; now apply Rinv_0_lt_compat]).
  assert (SD : s * D <= / 2).
  { replace (s * D) with (2 * t * / (INR c * D)) by (unfold s; field; lra). apply Rmult_le_reg_r with (INR c * D); [now apply Rmult_lt_0_compat|]. rewrite Rmult_assoc, Rinv_l by nra. lra. }
  pose proof (entries_exp b m k (filter_rate b m k) D s n B M S SD (fun l e q => filter_rate_step b m k l e q B M) [] (Forall_nil _)) as E. rewrite filter_rate_average in E by assumption.
  apply Rle_trans with (avg_entries b m k n [] (fun x => exp (- (s * r)) * exp (s * filter_rate b m k x))).
  - apply entries_le; [constructor|]. intros x _. rewrite <- exp_plus. apply above_le; [left; apply exp_pos|]. intro H. rewrite <- exp_0. apply exp_le. nra.
  - rewrite entries_scal. apply Rle_trans with (exp (- (s * r)) * exp (s * ideal_filter_rate b m k n + INR n * (s * s * (D * D / 4)))); [apply Rmult_le_compat_l; [left; apply exp_pos|exact E]|].
    rewrite <- exp_plus. apply exp_le. apply le_INR in N. assert (V : 0 <= s * s * (D * D / 4)) by nra.
    apply Rle_trans with (- (s * t) + INR c * (s * s * (D * D / 4))); [nra|]. apply Req_le. unfold s. field. lra.
Qed.

(** ** The count *)
Lemma bad_count m k n e d v : (64 <= m)%nat -> (1 <= k)%nat -> (4 * (k * n) <= 3 * m)%nat -> 0 <= d -> 20 * d <= INR m -> (forall x, (x <= k * n)%nat -> est m k x - v <= e x <= est m k x + v) ->
  bad_count_fraction m k n e ((5 / 2 * d + 1) / INR k + v) <= exp (- (d * d / (2 * INR m))) + exp (- (d * d / (4 * INR m))).
Proof.
  intros M K L4 D D20 He. destruct (untouched_ln m (k * n) ltac:(lia)) as [U [Ul Uu]]. pose proof (untouched_bounds m (k * n) ltac:(lia)) as U1. set (u := untouched m (k * n)) in *.
  assert (M64 : 64 <= INR m) by (replace 64 with (INR 64) by (rewrite INR_IZR_INZ; reflexivity); now apply le_INR). assert (K1 : 1 <= INR k) by (change 1 with (INR 1); now apply le_INR).
  assert (L : 4 * (INR k * INR n) <= 3 * INR m). { apply le_INR in L4. rewrite !mult_INR in L4. replace (INR 4) with 4 in L4 by (cbn; lra). replace (INR 3) with 3 in L4 by (cbn; lra). exact L4. }
  rewrite mult_INR in Ul, Uu.
  assert (T : INR k * INR n / (INR m - 1) <= 762 / 1000). { apply Rmult_le_reg_r with (INR m - 1); [lra|]. unfold Rdiv. rewrite Rmult_assoc, Rinv_l by lra. lra. }
  assert (U46 : 46 / 100 <= u). { apply Rle_trans with (1 := exp_075). rewrite <- (exp_ln u) by exact U. apply exp_le. lra. }
  set (hi := fun l => above (INR m * (1 - u) + d) (INR (ones m l))). set (lo := fun l => above (- (INR m * (1 - u) - d)) (- INR (ones m l))).
  apply Rle_trans with (avg_seq m (k * n) [] (fun l => hi l + lo l)).
  - apply seq_le; [constructor|]. intros l _ Ll. apply above_le; [unfold hi, lo, above; destruct Rlt_dec, Rlt_dec; lra|]. intro H.
    unfold hi, lo, above. destruct Rlt_dec as [|A]; [destruct Rlt_dec; lra|]. destruct Rlt_dec as [|B]; [lra|]. exfalso. apply Rnot_lt_le in A, B.
    assert (Lx : (ones m l <= k * n)%nat) by (pose proof (ones_len m l); cbn [length] in Ll; lia). specialize (He _ Lx). set (x := ones m l) in *. clearbody x. unfold est in He. set (y := 1 - INR x / INR m) in *.
    assert (Ey : INR x = INR m * (1 - y)) by (unfold y; field; lra). rewrite Ey in A, B.
    assert (Y : - d <= INR m * (y - u) <= d) by nra. clear A B. assert (Y41 : 41 / 100 <= y) by nra.
    pose proof (ln_tangent y u ltac:(lra) U) as T1. pose proof (ln_tangent u y U ltac:(lra)) as T2.
    assert (Ik : 0 < / INR k) by (apply Rinv_0_lt_compat; lra). set (ik := / INR k) in *.
    assert (KK : INR k * ik = 1) by (apply Rinv_r; lra).
    assert (Lower : INR n - 5 / 2 * d * ik <= - (INR m / INR k * ln y)).
    { assert (Q : INR m * ((y - u) / u) <= 5 / 2 * d). { replace (INR m * ((y - u) / u)) with (INR m * (y - u) * / u) by (unfold Rdiv; ring). assert (0 < / u <= 5 / 2) by (split; [now apply Rinv_0_lt_compat|]; apply Rmult_le_reg_r with u; [exact U|]; rewrite Rinv_l by lra; lra). nra. }
      assert (Q1 : INR k * INR n <= INR m * - ln u). { apply Rmult_le_reg_r with (/ INR m); [apply Rinv_0_lt_compat; lra|]. replace (INR m * - ln u * / INR m) with (- ln u) by (field; lra). exact Ul. }
      assert (Q2 : INR k * INR n - 5 / 2 * d <= - (INR m * ln y)) by nra.
      replace (- (INR m / INR k * ln y)) with (- (INR m * ln y) * ik) by (unfold ik; field; lra). replace (INR n - 5 / 2 * d * ik) with ((INR k * INR n - 5 / 2 * d) * ik) by (unfold ik; field; lra).
      apply Rmult_le_compat_r; lra. }
    assert (Upper : - (INR m / INR k * ln y) <= INR n + (5 / 2 * d + 1) * ik).
    { assert (Q : INR m * ((u - y) / y) <= 5 / 2 * d). { replace (INR m * ((u - y) / y)) with (- (INR m * (y - u)) * / y) by (unfold Rdiv; ring). assert (0 < / y <= 5 / 2) by (split; [apply Rinv_0_lt_compat; lra|]; apply Rmult_le_reg_r with y; [lra|]; rewrite Rinv_l by lra; lra). nra. }
      assert (Q1 : INR m * - ln u <= INR k * INR n + 1).
      { apply Rle_trans with (INR m * (INR k * INR n / (INR m - 1))); [apply Rmult_le_compat_l; lra|]. replace (INR m * (INR k * INR n / (INR m - 1))) with (INR k * INR n + INR k * INR n / (INR m - 1)) by (field; lra). lra. }
      assert (Q2 : - (INR m * ln y) <= INR k * INR n + 1 + 5 / 2 * d) by nra.
      replace (- (INR m / INR k * ln y)) with (- (INR m * ln y) * ik) by (unfold ik; field; lra). replace (INR n + (5 / 2 * d + 1) * ik) with ((INR k * INR n + 1 + 5 / 2 * d) * ik) by (unfold ik; field; lra).
      apply Rmult_le_compat_r; lra. }
    assert (G : Rabs (e x - INR n) <= (5 / 2 * d + 1) * ik + v) by (apply Rabs_le; split; nra). unfold Rdiv in H at 1. fold ik in H. lra.
  - rewrite seq_plus. unfold hi, lo. apply Rplus_le_compat.
    + apply Rle_trans with (1 := many_ones m (k * n) d ltac:(lia) D). fold u. apply exp_le, Ropp_le_contravar. apply Rmult_le_compat_l; [nra|]. apply Rinv_le_contravar; nra.
    + apply Rle_trans with (1 := few_ones m (k * n) d ltac:(lia) ltac:(fold u; nra)). fold u. apply exp_le, Ropp_le_contravar. apply Rmult_le_compat_l; [nra|]. apply Rinv_le_contravar; nra.
Qed.
