(** The average number of common bits. *)
From Coq Require Import Lia Reals Lra List Arith Bool.
From Verif Require Import Spec_Rate Spec_Common P_Rate P_RateFloat.
Import ListNotations.
Open Scope R_scope.

Lemma cnt_filter m p : cnt m p = length (filter p (seq 0 m)).
Proof.
  induction m as [|m IH]; [reflexivity|]. rewrite seq_S, filter_app, app_length. cbn [cnt filter plus]. rewrite IH. now destruct (p m).
Qed.
Lemma sum_eqb m i : (i < m)%nat -> sum_below m (fun j => ind (Nat.eqb i j)) = 1.
Proof.
  induction m as [|m IH]; [lia|]. intro H. cbn [sum_below]. destruct (Nat.eq_dec i m) as [->|E].
  - rewrite Nat.eqb_refl. cbn [ind]. rewrite (sum_ext m _ (fun _ => 0)); [rewrite sum_const; lra|]. intros j Hj. rewrite (proj2 (Nat.eqb_neq _ _)) by lia. reflexivity.
  - rewrite IH by lia. rewrite (proj2 (Nat.eqb_neq _ _)) by exact E. cbn [ind]. lra.
Qed.
(** Probability that position [i] is touched by [t] random positions. *)
Lemma seq_mem m i t : (i < m)%nat -> forall l, avg_seq m t l (fun s => ind (mem i s)) = 1 - (1 - ind (mem i l)) * untouched m t.
Proof.
  intro Hi. destruct (m_inv m ltac:(lia)) as (M0 & _ & MM). induction t as [|t IH]; intro l; cbn [avg_seq]; [unfold untouched; cbn; lra|].
  rewrite (avg_ext m _ (fun j => (1 - (1 - ind (mem i l)) * untouched m t) + ((1 - ind (mem i l)) * untouched m t) * ind (Nat.eqb i j))).
  - rewrite avg_plus, avg_scal, avg_const by lia. unfold avg at 1. rewrite sum_eqb by exact Hi. unfold untouched. cbn [pow]. unfold Rdiv. ring.
  - intros j _. rewrite IH. cbn [mem existsb]. fold (mem i l). destruct (Nat.eqb i j); cbn [orb ind]; [ring|]. ring.
Qed.
Lemma seq_sum m n t : forall l (f : list nat -> nat -> R), avg_seq m t l (fun s => sum_below n (f s)) = sum_below n (fun j => avg_seq m t l (fun s => f s j)).
Proof.
  induction t as [|t IH]; intros l f; [reflexivity|]. cbn [avg_seq]. rewrite (avg_ext m _ (fun i => sum_below n (fun j => avg_seq m t (i :: l) (fun s => f s j)))) by (intros; apply IH).
  unfold avg. rewrite sum_swap. unfold Rdiv. rewrite Rmult_comm, <- sum_scal. apply sum_ext. intros. apply Rmult_comm.
Qed.
Lemma avg_common m k n n' : (0 < m)%nat -> ideal_common m k n n' INR = INR m * ((1 - untouched m (k * n)) * (1 - untouched m (k * n'))).
Proof.
  intro M0. unfold ideal_common.
  transitivity (avg_seq m (k * n) [] (fun l => sum_below m (fun i => ind (mem i l) * (1 - untouched m (k * n'))))).
  - apply seq_ext; [constructor|]. intros l _. rewrite (seq_ext m (k * n') [] _ (fun l' => sum_below m (fun i => ind (mem i l) * ind (mem i l')))); [|constructor|].
    + rewrite seq_sum. apply sum_ext. intros i Hi. rewrite seq_scal, seq_mem by exact Hi. cbn [mem existsb ind]. ring.
    + intros l' _. unfold common. rewrite <- cnt_filter, cnt_sum. apply sum_ext. intros i _. apply ind_and.
  - rewrite seq_sum. rewrite (sum_ext m _ (fun _ => (1 - untouched m (k * n)) * (1 - untouched m (k * n')))); [apply sum_const|].
    intros i Hi. rewrite (seq_ext m (k * n) [] _ (fun s => (1 - untouched m (k * n')) * ind (mem i s))); [|constructor|intros; ring]. rewrite seq_scal, seq_mem by exact Hi. cbn [mem existsb ind]. ring.
Qed.
Lemma common_le m l l' : (common m l l' <= m)%nat.
Proof. unfold common. rewrite <- cnt_filter. apply cnt_le. Qed.
Lemma ideal_common_le m k n n' e e' : (forall x, (x <= m)%nat -> e x <= e' x) -> ideal_common m k n n' e <= ideal_common m k n n' e'.
Proof. intro H. apply seq_le; [constructor|]. intros l _ _. apply seq_le; [constructor|]. intros l' _ _. apply H, common_le. Qed.
Lemma ideal_common_lin m k n n' c d : (0 < m)%nat -> ideal_common m k n n' (fun x => c * INR x + d) = c * ideal_common m k n n' INR + d.
Proof.
  intro M0. assert (P : forall t l f d, avg_seq m t l (fun s => f s + d) = avg_seq m t l f + d).
  { clear - M0. induction t as [|t IH]; intros l f d; [reflexivity|]. cbn [avg_seq]. rewrite (avg_ext m _ (fun i => avg_seq m t (i :: l) f + d)) by (intros; apply IH). rewrite avg_plus, avg_const by exact M0. reflexivity. }
  unfold ideal_common. rewrite (seq_ext m (k * n) [] _ (fun l => c * avg_seq m (k * n') [] (fun l' => INR (common m l l')) + d)); [rewrite P, seq_scal; reflexivity|constructor|].
  intros l _. rewrite P, seq_scal. reflexivity.
Qed.
(** Enough positions touch half the bits. *)
Lemma untouched_half m t : (0 < m)%nat -> 0.6932 * INR m <= INR t -> untouched m t <= / 2.
Proof.
  intros M0 H. apply Rle_trans with (1 := untouched_le m t M0). assert (Mp : 0 < INR m) by now apply lt_0_INR. pose proof ln2_num.
  assert (0.6932 <= INR t / INR m). { apply Rmult_le_reg_r with (INR m); [lra|]. unfold Rdiv. rewrite Rmult_assoc, Rinv_l by lra. lra. }
  apply Rle_trans with (exp (- ln 2)); [apply exp_le; lra|]. rewrite exp_Ropp, exp_ln by lra. lra.
Qed.
