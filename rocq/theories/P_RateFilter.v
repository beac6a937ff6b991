(** The false-positive rate of a filter split in buckets. *)
From Coq Require Import Lia Reals Lra List Arith Bool.
Import ListNotations.
From Verif Require Import Spec_Rate P_Rate.
Open Scope R_scope.

Lemma count_in_cons q i l : count_in q (i :: l) = (count_in q l + (if Nat.eqb q i then 1 else 0))%nat.
Proof. unfold count_in. cbn. destruct (Nat.eqb q i); cbn; lia. Qed.

Lemma seq_exp b q A B : (q < b)%nat -> forall n l,
  avg_seq b n l (fun s => exp (A + B * INR (count_in q s))) = exp (A + B * INR (count_in q l)) * (1 + (exp B - 1) / INR b) ^ n.
Proof.
  intro Q. assert (Pb : (0 < b)%nat) by lia. induction n as [|n IH]; intro l; [cbn [avg_seq pow]; ring|]. cbn [avg_seq].
  rewrite (avg_ext b _ (fun i => (exp (A + B * INR (count_in q l)) * (1 + (exp B - 1) / INR b) ^ n) * (1 + (exp B - 1) * ind (Nat.eqb i q)))).
  - rewrite avg_scal, avg_plus, avg_const, avg_scal, cnt_avg by exact Pb.
    replace (cnt b (fun i => Nat.eqb i q)) with 1%nat; [cbn [INR pow]; field; apply not_0_INR; lia|].
    pose proof (cnt_add b (fun _ => false) q Q) as E. rewrite (cnt_none b (fun _ => false) ltac:(reflexivity)) in E. cbn in E.
    rewrite <- E. apply cnt_ext. intros. now rewrite orb_false_r.
  - intros i Hi. rewrite IH, count_in_cons, plus_INR. rewrite Nat.eqb_sym. unfold ind. destruct (Nat.eqb i q).
    + cbn [INR]. replace (A + B * (INR (count_in q l) + 1)) with (A + B * INR (count_in q l) + B) by ring. rewrite exp_plus. ring.
    + cbn [INR]. rewrite Rplus_0_r. ring.
Qed.

(** The rate of one bucket is at most exponential in its load. *)
Lemma ideal_exp m k n : (1 < m)%nat -> let K := INR k in
  ideal_rate m k n <= exp (2 * (K * K) / INR m - 2 * K * ln 2 + K * K / (INR m - 1) * INR n).
Proof.
  intros M K. destruct n as [|n].
  - apply Rle_trans with (1 := ideal_upper m k 0 ltac:(lia)). rewrite Nat.mul_0_r. unfold untouched. rewrite pow_O.
    assert (m1 : 1 < INR m) by (apply (lt_INR 1); lia). assert (H0 : 0 <= K / INR m) by (apply Rmult_le_pos; [apply pos_INR|apply inv_nonneg]).
    replace (1 - 1 + INR k / INR m) with (1 - exp (- (ln 2 + - ln 2)) + K / INR m) by (rewrite Rplus_opp_r, Ropp_0, exp_0; unfold K; lra).
    apply Rle_trans with (1 := half_bound (- ln 2) (K / INR m) k ltac:(rewrite Rplus_opp_r, Ropp_0, exp_0; lra)). apply exp_le, Req_le. fold K. cbn [INR]. field. lra.
  - apply Rle_trans with (1 := ideal_upto m k (S n) (S n) M (le_n _) ltac:(lia)). apply exp_le, Req_le. fold K.
    assert (m1 : 1 < INR m) by (apply (lt_INR 1); lia). pose proof ln2_pos. assert (0 < INR (S n)) by (apply lt_0_INR; lia). field. lra.
Qed.

Lemma filter_upper b m k n : (0 < b)%nat -> (1 < m)%nat -> let K := INR k in let B := K * K / (INR m - 1) in
  ideal_filter_rate b m k n <= exp (2 * (K * K) / INR m - 2 * K * ln 2 + INR n / INR b * (exp B - 1)).
Proof.
  intros Pb M K B. unfold ideal_filter_rate. rewrite seq_avg.
  set (A := 2 * (K * K) / INR m - 2 * K * ln 2).
  assert (m1 : 1 < INR m) by (apply (lt_INR 1); lia). assert (b0 : 0 < INR b) by (apply lt_0_INR; lia).
  assert (B0 : 0 <= B) by (unfold B; apply Rmult_le_pos; [apply Rle_0_sqr|apply Rlt_le, Rinv_0_lt_compat; lra]).
  assert (E0 : 0 <= (exp B - 1) / INR b). { apply Rmult_le_pos; [pose proof (exp_ge_1 B); lra|apply inv_nonneg]. }
  apply Rle_trans with (avg b (fun _ => exp (A + INR n / INR b * (exp B - 1)))); [|rewrite avg_const by exact Pb; lra].
  apply avg_le. intros q Q. apply Rle_trans with (avg_seq b n [] (fun s => exp (A + B * INR (count_in q s)))).
  - apply seq_le; [constructor|]. intros s _ _. apply (ideal_exp m k _ M).
  - rewrite (seq_exp b q A B Q). cbn [count_in filter length INR]. unfold count_in. cbn [filter length INR]. rewrite Rmult_0_r, Rplus_0_r, exp_plus.
    apply Rmult_le_compat_l; [apply Rlt_le, exp_pos|]. replace (INR n / INR b * (exp B - 1)) with (INR n * ((exp B - 1) / INR b)) by (field; lra).
    rewrite <- exp_pow. apply pow_incr. split; [lra|apply exp_ge_1].
Qed.

Lemma filter_one m k n : ideal_filter_rate 1 m k n = ideal_rate m k n.
Proof.
  unfold ideal_filter_rate. assert (H : forall t l, (forall i, In i l -> i = 0%nat) ->
    avg_seq 1 t l (fun s => avg 1 (fun q => ideal_rate m k (count_in q s))) = ideal_rate m k (t + length l)).
  { assert (A1 : forall f, avg 1 f = f 0%nat) by (intro f; unfold avg; cbn; field).
    induction t as [|t IH]; intros l Hl; cbn [avg_seq]; rewrite A1.
    - f_equal. unfold count_in. cbn [Nat.add]. induction l as [|x l IHl]; [reflexivity|]. cbn [filter]. rewrite (Hl x (or_introl eq_refl)). change (Nat.eqb 0 0) with true. cbn [length]. now rewrite IHl by (intros; apply Hl; now right).
    - rewrite IH by (intros i [<-|Hi]; auto). f_equal. cbn. lia. }
  rewrite H by (intros i []). f_equal. cbn. lia.
Qed.

Lemma filter_le_1 b m k n : (0 < b)%nat -> (0 < m)%nat -> 0 <= ideal_filter_rate b m k n <= 1.
Proof.
  intros Pb M. unfold ideal_filter_rate. split.
  - apply Rle_trans with (avg_seq b n [] (fun _ => 0)); [rewrite seq_const by exact Pb; lra|]. apply seq_le; [constructor|]. intros s _ _.
    apply Rle_trans with (avg b (fun _ => 0)); [rewrite avg_const by exact Pb; lra|]. apply avg_le. intros i _. apply ideal_le_1, M.
  - apply Rle_trans with (avg_seq b n [] (fun _ => 1)); [|rewrite seq_const by exact Pb; lra]. apply seq_le; [constructor|]. intros s _ _.
    apply Rle_trans with (avg b (fun _ => 1)); [|rewrite avg_const by exact Pb; lra]. apply avg_le. intros i _. apply ideal_le_1, M.
Qed.
