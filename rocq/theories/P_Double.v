(** Lower bounds of the rates of Spec_Double.v. *)
From Coq Require Import Lia Reals Lra List Arith Bool.
From Verif Require Import Spec_Rate Spec_CountAvg Spec_Double P_Rate P_CountAvg P_Tail.
Import ListNotations.
Open Scope R_scope.

Lemma all_mem_in q l : (forall i, In i q -> In i l) -> all_mem q l = true.
Proof. intro H. apply forallb_forall. intros i Hi. apply mem_In. now apply H. Qed.
Lemma ind_bounds b : 0 <= ind b <= 1.
Proof. destruct b; cbn; lra. Qed.

(** ** The same first remainder *)
Lemma same_first_lower m k x n : (0 < m)%nat -> 1 - untouched m n <= same_first_rate m k x n.
Proof.
  intro M. apply Rle_trans with (avg_seq m n [] (fun ys => avg m (fun y => ind (mem y ys)))).
  - rewrite seq_avg. rewrite <- (avg_const m (1 - untouched m n) M). apply avg_le. intros y Hy. apply Req_le.
    rewrite (seq_ext m n [] _ (fun l => -1 * free y l + 1)); [|constructor|intros; unfold free; ring]. rewrite seq_shift, seq_scal, seq_free by assumption. ring.
  - apply seq_le; [constructor|]. intros ys _ _. apply avg_le. intros y _. destruct (mem y ys) eqn:E; [|apply ind_bounds].
    apply mem_In in E. rewrite all_mem_in; [lra|]. intros i Hi. apply in_flat_map. eauto.
Qed.

(** ** Two remainders *)
Definition peq (p q : nat * nat) : bool := Nat.eqb (fst p) (fst q) && Nat.eqb (snd p) (snd q).
Definition pmem (q : nat * nat) (es : list (nat * nat)) : bool := existsb (peq q) es.
Lemma pmem_In q es : pmem q es = true -> In q es.
Proof.
  intro H. apply existsb_exists in H as (e & I & H). unfold peq in H. apply andb_prop in H as [A B]. apply Nat.eqb_eq in A, B. destruct q, e; cbn in *. now subst.
Qed.
Lemma pairs_le m n : forall es f g, (forall x, f x <= g x) -> avg_pairs m n es f <= avg_pairs m n es g.
Proof. induction n as [|n IH]; intros es f g H; [apply H|]. cbn [avg_pairs]. apply avg_le. intros x _. apply avg_le. intros y _. now apply IH. Qed.
Lemma pairs_avg m c n : forall es (f : list (nat * nat) -> nat -> R), avg_pairs m n es (fun x => avg c (f x)) = avg c (fun j => avg_pairs m n es (fun x => f x j)).
Proof.
  induction n as [|n IH]; intros es f; [reflexivity|]. cbn [avg_pairs]. symmetry. rewrite (avg_swap c m). apply avg_ext. intros x _. rewrite (avg_swap c m). apply avg_ext. intros y _. symmetry. apply IH.
Qed.
Lemma avg_eqb m i : (i < m)%nat -> avg m (fun j => ind (Nat.eqb i j)) = / INR m.
Proof. intro H. unfold avg. rewrite P_Common.sum_eqb by exact H. unfold Rdiv. ring. Qed.
(** The query's pair is not among those of the entries. *)
Lemma pairs_free m n q : (fst q < m)%nat -> (snd q < m)%nat -> forall es, avg_pairs m n es (fun x => 1 - ind (pmem q x)) = (1 - ind (pmem q es)) * (1 - / (INR m * INR m)) ^ n.
Proof.
  intros H1 H2. assert (M : (0 < m)%nat) by lia. destruct (m_inv m M) as [P _]. induction n as [|n IH]; intro es; [cbn; ring|]. cbn [avg_pairs].
  rewrite (avg_ext m _ (fun x => avg m (fun y => (1 - ind (pmem q es)) * (1 - / (INR m * INR m)) ^ n * (1 + (- ind (Nat.eqb (fst q) x)) * ind (Nat.eqb (snd q) y))))).
  - rewrite (avg_ext m _ (fun x => (1 - ind (pmem q es)) * (1 - / (INR m * INR m)) ^ n * (1 + - / INR m * ind (Nat.eqb (fst q) x)))).
    + rewrite avg_scal, avg_plus, avg_const, avg_scal, avg_eqb by assumption. cbn [pow]. field. lra.
    + intros x _. rewrite avg_scal, avg_plus, avg_const, avg_scal, avg_eqb by assumption. ring.
  - intros x _. apply avg_ext. intros y _. rewrite IH. unfold pmem. cbn [existsb]. unfold peq at 1. cbn [fst snd]. destruct (Nat.eqb (fst q) x), (Nat.eqb (snd q) y), (existsb (peq q) es); cbn; ring.
Qed.
Lemma double_lower m k n : (0 < m)%nat -> 1 - (1 - / (INR m * INR m)) ^ n <= double_rate m k n.
Proof.
  intro M. unfold double_rate. rewrite pairs_avg. rewrite <- (avg_const m (1 - (1 - / (INR m * INR m)) ^ n) M). apply avg_le. intros x Hx. rewrite pairs_avg.
  rewrite <- (avg_const m (1 - (1 - / (INR m * INR m)) ^ n) M) at 1. apply avg_le. intros y Hy.
  apply Rle_trans with (avg_pairs m n [] (fun es => ind (pmem (x, y) es))).
  - pose proof (pairs_free m n (x, y) Hx Hy []) as F. cbn [pmem existsb ind] in F.
    assert (S : forall t es, avg_pairs m t es (fun es => ind (pmem (x, y) es)) = 1 - avg_pairs m t es (fun es => 1 - ind (pmem (x, y) es))).
    { clear F. induction t as [|t IH]; intro es; [cbn [avg_pairs]; ring|]. cbn [avg_pairs].
      transitivity (avg m (fun u => 1 + -1 * avg m (fun v => avg_pairs m t ((u, v) :: es) (fun es => 1 - ind (pmem (x, y) es))))); [|rewrite avg_plus, avg_const, avg_scal by exact M; ring].
      apply avg_ext. intros u _. transitivity (avg m (fun v => 1 + -1 * avg_pairs m t ((u, v) :: es) (fun es => 1 - ind (pmem (x, y) es)))); [|rewrite avg_plus, avg_const, avg_scal by exact M; reflexivity].
      apply avg_ext. intros v _. rewrite IH. ring. }
    rewrite S, F. lra.
  - apply pairs_le. intro es. destruct (pmem (x, y) es) eqn:E; [|apply ind_bounds]. apply pmem_In in E. rewrite all_mem_in; [lra|]. intros i Hi. apply in_flat_map. exists (x, y). auto.
Qed.
Lemma seq_count b n a q : (q < b)%nat -> forall l, avg_seq b n l (fun s => a ^ count_in q s) = a ^ count_in q l * (1 - (1 - a) / INR b) ^ n.
Proof.
  intro Q. assert (B : (0 < b)%nat) by lia. destruct (m_inv b B) as [P _]. induction n as [|n IH]; intro l; [cbn; ring|]. cbn [avg_seq].
  rewrite (avg_ext b _ (fun i => a ^ count_in q l * (1 - (1 - a) / INR b) ^ n * (1 + (a - 1) * ind (Nat.eqb q i)))).
  - rewrite avg_scal, avg_plus, avg_const, avg_scal, avg_eqb by assumption. cbn [pow]. field. lra.
  - intros i _. rewrite IH. unfold count_in. cbn [filter]. destruct (Nat.eqb q i); cbn [length pow ind]; ring.
Qed.
Theorem double_filter_lower b m k n : (0 < b)%nat -> (0 < m)%nat -> 1 - (1 - / (INR b * (INR m * INR m))) ^ n <= double_filter_rate b m k n.
Proof.
  intros B M. destruct (m_inv b B) as [Pb _]. destruct (m_inv m M) as [Pm _]. unfold double_filter_rate. rewrite seq_avg. rewrite <- (avg_const b (1 - (1 - / (INR b * (INR m * INR m))) ^ n) B). apply avg_le. intros q Hq.
  apply Rle_trans with (avg_seq b n [] (fun l => -1 * (1 - / (INR m * INR m)) ^ count_in q l + 1)).
  - rewrite seq_shift, seq_scal, seq_count by assumption. change (count_in q []) with 0%nat. cbn [pow]. replace (1 - (1 - (1 - / (INR m * INR m))) / INR b) with (1 - / (INR b * (INR m * INR m))) by (field; lra). lra.
  - apply seq_le; [constructor|]. intros l _ _. apply Rle_trans with (2 := double_lower m k (count_in q l) M). lra.
Qed.
(** About [n] divided by the number of pairs. *)
Lemma power_lower z n : 0 < z -> z <= 1 -> let x := INR n * z in x - x * x / 2 <= 1 - (1 - z) ^ n.
Proof.
  intros Z Z1 x. assert (H : (1 - z) ^ n <= exp (- x)). { replace (- x) with (INR n * - z) by (unfold x; ring). rewrite <- exp_pow. apply pow_incr. pose proof (exp_ge_1 (- z)). lra. }
  assert (X : 0 <= x) by (unfold x; apply Rmult_le_pos; [apply pos_INR|lra]). pose proof (exp_upper_neg x X). lra.
Qed.
