(** Bounds on the ideal false-positive rate. *)
From Coq Require Import Reals List Arith Lia Lra Bool.
From Verif Require Import Spec_Rate.
Import ListNotations.
Open Scope R_scope.

Lemma sum_ext m f g : (forall i, (i < m)%nat -> f i = g i) -> sum_below m f = sum_below m g.
Proof. induction m as [|m IH]; intro H; [reflexivity|]. cbn [sum_below]. rewrite IH by (intros; apply H; lia). f_equal. apply H. lia. Qed.
Lemma sum_le m f g : (forall i, (i < m)%nat -> f i <= g i) -> sum_below m f <= sum_below m g.
Proof. induction m as [|m IH]; intro H; cbn [sum_below]; [lra|]. apply Rplus_le_compat; [apply IH; intros; apply H; lia|apply H; lia]. Qed.
Lemma sum_plus m f g : sum_below m (fun i => f i + g i) = sum_below m f + sum_below m g.
Proof. induction m as [|m IH]; cbn [sum_below]; [lra|]. rewrite IH. lra. Qed.
Lemma sum_scal m c f : sum_below m (fun i => c * f i) = c * sum_below m f.
Proof. induction m as [|m IH]; cbn [sum_below]; [lra|]. rewrite IH. lra. Qed.
Lemma sum_const m c : sum_below m (fun _ => c) = INR m * c.
Proof. induction m as [|m IH]; [cbn; lra|]. cbn [sum_below]. rewrite IH, S_INR. lra. Qed.
Lemma sum_swap a b (f : nat -> nat -> R) : sum_below a (fun i => sum_below b (f i)) = sum_below b (fun j => sum_below a (fun i => f i j)).
Proof. induction a as [|a IH]; cbn [sum_below]; [rewrite sum_const; lra|]. rewrite IH, <- sum_plus. reflexivity. Qed.

Lemma avg_ext m f g : (forall i, (i < m)%nat -> f i = g i) -> avg m f = avg m g.
Proof. intro H. unfold avg. rewrite (sum_ext m f g H). reflexivity. Qed.
Lemma inv_nonneg m : 0 <= / INR m.
Proof. destruct m as [|m]; [cbn; rewrite Rinv_0; lra|]. apply Rlt_le, Rinv_0_lt_compat, lt_0_INR. lia. Qed.
Lemma avg_le m f g : (forall i, (i < m)%nat -> f i <= g i) -> avg m f <= avg m g.
Proof. intro H. unfold avg, Rdiv. apply Rmult_le_compat_r; [apply inv_nonneg|apply sum_le, H]. Qed.
Lemma avg_plus m f g : avg m (fun i => f i + g i) = avg m f + avg m g.
Proof. unfold avg. rewrite sum_plus. unfold Rdiv. lra. Qed.
Lemma avg_scal m c f : avg m (fun i => c * f i) = c * avg m f.
Proof. unfold avg. rewrite sum_scal. unfold Rdiv. lra. Qed.
Lemma avg_const m c : (0 < m)%nat -> avg m (fun _ => c) = c.
Proof. intro H. unfold avg. rewrite sum_const. apply lt_0_INR in H. field. lra. Qed.
Lemma avg_swap a b (f : nat -> nat -> R) : avg a (fun i => avg b (f i)) = avg b (fun j => avg a (fun i => f i j)).
Proof.
  unfold avg, Rdiv. rewrite (sum_ext a _ (fun i => / INR b * sum_below b (f i))) by (intros; lra).
  rewrite (sum_ext b _ (fun j => / INR a * sum_below a (fun i => f i j))) by (intros; lra). rewrite !sum_scal, sum_swap. lra.
Qed.

Definition below (m : nat) (l : list nat) : Prop := Forall (fun i => (i < m)%nat) l.
Lemma seq_le m t : forall l f g, below m l -> (forall s, below m s -> length s = (t + length l)%nat -> f s <= g s) -> avg_seq m t l f <= avg_seq m t l g.
Proof.
  induction t as [|t IH]; intros l f g B H; cbn [avg_seq]; [apply H; [exact B|reflexivity]|]. apply avg_le. intros i Hi. apply IH; [constructor; assumption|].
  intros s Bs Ls. apply H; [exact Bs|]. rewrite Ls. cbn [length]. lia.
Qed.
Lemma seq_ext m t l f g : below m l -> (forall s, below m s -> f s = g s) -> avg_seq m t l f = avg_seq m t l g.
Proof. intros B H. apply Rle_antisym; apply seq_le; auto; intros s Bs _; rewrite (H s Bs); lra. Qed.
Lemma seq_scal m c t : forall l f, avg_seq m t l (fun s => c * f s) = c * avg_seq m t l f.
Proof. induction t as [|t IH]; intros l f; cbn [avg_seq]; [reflexivity|]. rewrite <- avg_scal. apply avg_ext. intros. apply IH. Qed.
Lemma seq_const m t c : (0 < m)%nat -> forall l, avg_seq m t l (fun _ => c) = c.
Proof. intro M. induction t as [|t IH]; intro l; cbn [avg_seq]; [reflexivity|]. rewrite (avg_ext m _ (fun _ => c)) by (intros; apply IH). apply avg_const, M. Qed.
Lemma seq_avg m n t : forall l (f : list nat -> nat -> R), avg_seq m t l (fun s => avg n (f s)) = avg n (fun j => avg_seq m t l (fun s => f s j)).
Proof.
  induction t as [|t IH]; intros l f; cbn [avg_seq]; [reflexivity|]. rewrite (avg_ext m _ (fun i => avg n (fun j => avg_seq m t (i :: l) (fun s => f s j)))) by (intros; apply IH).
  apply avg_swap.
Qed.
Lemma seq_swap m n t u l l' (f : list nat -> list nat -> R) :
  avg_seq m t l (fun s => avg_seq n u l' (f s)) = avg_seq n u l' (fun q => avg_seq m t l (fun s => f s q)).
Proof.
  revert l' f. induction u as [|u IH]; intros l' f; cbn [avg_seq]; [reflexivity|].
  rewrite seq_avg. apply avg_ext. intros j _. apply IH.
Qed.

(** Number of positions below [m] that are in [l]. *)
Fixpoint cnt (m : nat) (p : nat -> bool) : nat := match m with O => 0 | S k => cnt k p + (if p k then 1 else 0) end.
Lemma cnt_ext m p q : (forall i, (i < m)%nat -> p i = q i) -> cnt m p = cnt m q.
Proof. induction m as [|m IH]; intro H; [reflexivity|]. cbn [cnt]. rewrite IH by (intros; apply H; lia). rewrite (H m) by lia. reflexivity. Qed.
Lemma cnt_sum m p : INR (cnt m p) = sum_below m (fun i => ind (p i)).
Proof. induction m as [|m IH]; [reflexivity|]. cbn [cnt sum_below]. rewrite plus_INR, IH. unfold ind. destruct (p m); cbn; lra. Qed.
Lemma cnt_avg m p : avg m (fun i => ind (p i)) = INR (cnt m p) / INR m.
Proof. unfold avg. rewrite cnt_sum. reflexivity. Qed.
Lemma cnt_le m p : (cnt m p <= m)%nat.
Proof. induction m as [|m IH]; cbn [cnt]; [lia|]. destruct (p m); lia. Qed.
Lemma cnt_none m p : (forall i, (i < m)%nat -> p i = false) -> cnt m p = 0%nat.
Proof. induction m as [|m IH]; intro H; [reflexivity|]. cbn [cnt]. rewrite IH by (intros; apply H; lia). rewrite H by lia. reflexivity. Qed.
Lemma cnt_zero m p : cnt m p = 0%nat -> forall i, (i < m)%nat -> p i = false.
Proof.
  induction m as [|m IH]; intros H i Hi; [lia|]. cbn [cnt] in H. destruct (p m) eqn:E; [lia|]. destruct (Nat.eq_dec i m) as [->|N]; [exact E|]. apply IH; lia.
Qed.
(** One more position in the set. *)
Lemma cnt_add m p i : (i < m)%nat -> cnt m (fun j => Nat.eqb j i || p j) = (cnt m p + (if p i then 0 else 1))%nat.
Proof.
  induction m as [|m IH]; intro H; [lia|]. cbn [cnt]. destruct (Nat.eq_dec i m) as [->|N].
  - rewrite Nat.eqb_refl. cbn [orb]. rewrite (cnt_ext m _ p); [destruct (p m); lia|]. intros j Hj. destruct (Nat.eqb_spec j m); [lia|reflexivity].
  - rewrite IH by lia. destruct (Nat.eqb_spec m i); [lia|]. cbn [orb]. lia.
Qed.
Lemma cnt_del m p i : (i < m)%nat -> cnt m p = (cnt m (fun j => p j && negb (Nat.eqb j i)) + (if p i then 1 else 0))%nat.
Proof.
  induction m as [|m IH]; intro H; [lia|]. cbn [cnt]. destruct (Nat.eq_dec i m) as [->|N].
  - rewrite Nat.eqb_refl, andb_false_r. rewrite (cnt_ext m p (fun j => p j && negb (Nat.eqb j m))); [lia|]. intros j Hj. destruct (Nat.eqb_spec j m); [lia|]. now rewrite andb_true_r.
  - rewrite IH at 1 by lia. destruct (Nat.eqb_spec m i); [lia|]. cbn [negb]. rewrite andb_true_r. lia.
Qed.
Lemma cnt_mem_le m l : (cnt m (fun i => mem i l) <= length l)%nat.
Proof.
  induction l as [|a l IH]; [rewrite cnt_none; [lia|reflexivity]|]. change (cnt m (fun i => (Nat.eqb i a || mem i l)%bool) <= S (length l))%nat. destruct (lt_dec a m) as [H|H].
  - rewrite (cnt_add m (fun i => mem i l) a H). destruct (mem a l); lia.
  - rewrite (cnt_ext m _ (fun i => mem i l)); [lia|]. intros i Hi. destruct (Nat.eqb_spec i a); [lia|reflexivity].
Qed.

(** The queries that hit a set of [c] positions out of [m]. *)
Lemma ind_and a b : ind (a && b) = ind a * ind b.
Proof. destruct a, b; unfold ind; cbn; lra. Qed.
Lemma query_avg m k l : forall q0, avg_seq m k q0 (fun q => ind (all_mem q l)) = ind (all_mem q0 l) * (INR (cnt m (fun i => mem i l)) / INR m) ^ k.
Proof.
  induction k as [|k IH]; intro q0; cbn [avg_seq pow]; [lra|]. rewrite (avg_ext m _ (fun i => (ind (all_mem q0 l) * (INR (cnt m (fun i => mem i l)) / INR m) ^ k) * ind (mem i l))).
  - rewrite avg_scal, cnt_avg. lra.
  - intros i _. rewrite IH. cbn [all_mem forallb]. fold (all_mem q0 l). rewrite ind_and. lra.
Qed.

(** Jensen's inequality for powers. *)
Lemma pow_tangent a x k : 0 <= a -> 0 <= x -> a ^ S k + INR (S k) * a ^ k * (x - a) <= x ^ S k.
Proof.
  intros A X. induction k as [|k IH]; [cbn; lra|]. pose proof (pow_le a k A) as P. pose proof (pow_le x k X) as Q.
  apply Rmult_le_compat_l with (r := x) in IH; [|exact X]. change (x * x ^ S k) with (x ^ S (S k)) in IH. apply Rle_trans with (2 := IH). rewrite !S_INR. cbn [pow].
  assert (0 <= (INR k + 1) * a ^ k * ((x - a) * (x - a))). { apply Rmult_le_pos; [apply Rmult_le_pos; [pose proof (pos_INR k); lra|exact P]|apply Rle_0_sqr]. }
  nra.
Qed.
Lemma jensen m k f : (0 < m)%nat -> (forall i, (i < m)%nat -> 0 <= f i) -> (avg m f) ^ k <= avg m (fun i => f i ^ k).
Proof.
  intros M F. destruct k as [|k]; [cbn [pow]; rewrite avg_const by exact M; lra|].
  assert (A : 0 <= avg m f). { rewrite <- (avg_const m 0 M). apply avg_le, F. }
  apply Rle_trans with (avg m (fun i => (avg m f) ^ S k + INR (S k) * (avg m f) ^ k * (f i - avg m f))).
  - rewrite avg_plus, avg_scal, avg_const by exact M. rewrite (avg_ext m (fun i => f i - avg m f) (fun i => f i + (- avg m f))) by (intros; lra).
    rewrite avg_plus, avg_const by exact M. lra.
  - apply avg_le. intros i Hi. apply pow_tangent; [exact A|apply F, Hi].
Qed.

(** Lower bound: the mean number of set bits after [t] positions. *)
Definition untouched (m t : nat) : R := (1 - / INR m) ^ t.
Lemma m_inv m : (0 < m)%nat -> 0 < INR m /\ 0 <= 1 - / INR m < 1 /\ INR m * / INR m = 1.
Proof.
  intro H. assert (1 <= INR m) by (apply (le_INR 1); lia). assert (P : 0 < INR m) by lra. pose proof (Rinv_0_lt_compat _ P). assert (/ INR m <= / 1) by (apply Rinv_le_contravar; lra).
  rewrite Rinv_1 in H2. repeat split; try lra. apply Rinv_r. lra.
Qed.
Lemma untouched_bounds m t : (0 < m)%nat -> 0 <= untouched m t <= 1.
Proof.
  intro H. destruct (m_inv m H) as [_ [[A B] _]]. unfold untouched. split; [apply pow_le, A|]. apply Rle_trans with (1 ^ t); [apply pow_incr; lra|rewrite pow1; lra].
Qed.
Lemma lower_gen m k t : (0 < m)%nat -> forall l, below m l ->
  (1 - (1 - INR (cnt m (fun i => mem i l)) / INR m) * untouched m t) ^ k <= avg_seq m t l (fun s => (INR (cnt m (fun i => mem i s)) / INR m) ^ k).
Proof.
  intro M. destruct (m_inv m M) as [P [[A B] Q]]. induction t as [|t IH]; intros l Bl.
  - cbn [avg_seq]. unfold untouched. cbn [pow]. apply Req_le. f_equal. lra.
  - cbn [avg_seq]. set (c := cnt m (fun i => mem i l)).
    assert (E : forall i, (i < m)%nat -> INR (cnt m (fun j => mem j (i :: l))) = INR c + (1 - ind (mem i l))).
    { intros i Hi. change (cnt m (fun j => mem j (i :: l))) with (cnt m (fun j => (Nat.eqb j i || mem j l)%bool)). rewrite (cnt_add m (fun j => mem j l) i Hi). fold c. rewrite plus_INR. unfold ind. destruct (mem i l); cbn; lra. }
    assert (C : 0 <= INR c / INR m <= 1).
    { split; [apply Rmult_le_pos; [apply pos_INR|lra]|]. apply Rmult_le_reg_r with (INR m); [exact P|]. unfold Rdiv. rewrite Rmult_assoc, Rinv_l by lra. rewrite Rmult_1_r, Rmult_1_l. apply le_INR, cnt_le. }
    pose proof (untouched_bounds m t M) as U. pose proof (untouched_bounds m (S t) M) as U'.
    set (g := fun i => 1 - (1 - (INR c + (1 - ind (mem i l))) / INR m) * untouched m t).
    apply Rle_trans with (avg m (fun i => g i ^ k)).
    + apply Rle_trans with ((avg m g) ^ k).
      * apply Req_le. f_equal. unfold g. rewrite (avg_ext m _ (fun i => (1 - (1 - (INR c + 1) / INR m) * untouched m t) + (- / INR m * untouched m t) * ind (mem i l))) by (intros; unfold Rdiv; lra).
        rewrite avg_plus, avg_const, avg_scal, cnt_avg by exact M. fold c. unfold untouched. cbn [pow]. unfold Rdiv. lra.
      * apply jensen; [exact M|]. intros i Hi. unfold g. rewrite <- E by exact Hi.
        assert (0 <= INR (cnt m (fun j => mem j (i :: l))) / INR m <= 1).
        { split; [apply Rmult_le_pos; [apply pos_INR|lra]|]. apply Rmult_le_reg_r with (INR m); [exact P|]. unfold Rdiv. rewrite Rmult_assoc, Rinv_l by lra. rewrite Rmult_1_r, Rmult_1_l. apply le_INR, cnt_le. }
        nra.
    + apply avg_le. intros i Hi. unfold g. rewrite <- E by exact Hi. apply IH. constructor; assumption.
Qed.
Theorem ideal_lower m k n : (0 < m)%nat -> (1 - untouched m (k * n)) ^ k <= ideal_rate m k n.
Proof.
  intro M. unfold ideal_rate. apply Rle_trans with (avg_seq m (k * n) [] (fun l => (INR (cnt m (fun i => mem i l)) / INR m) ^ k)).
  - apply Rle_trans with (2 := lower_gen m k (k * n) M [] (Forall_nil _)). rewrite cnt_none by reflexivity. cbn [INR]. apply Req_le. f_equal. unfold Rdiv. lra.
  - apply seq_le; [constructor|]. intros s _ _. rewrite query_avg. cbn [all_mem forallb]. unfold ind. lra.
Qed.

(** Upper bound: a set of positions is covered with at most the probability of independent bits. *)
Lemma bernoulli b d j : 0 <= b -> 0 <= d -> b ^ S j + INR (S j) * d * b ^ j <= (b + d) ^ S j.
Proof. intros B D. pose proof (pow_tangent b (b + d) j B ltac:(lra)) as H. replace (b + d - b) with d in H by lra. lra. Qed.
Definition miss (m : nat) (q l : list nat) : nat := cnt m (fun i => mem i q && negb (mem i l)).
Lemma mem_In i l : mem i l = true <-> In i l.
Proof. unfold mem. rewrite existsb_exists. split; [intros (x & H & E); apply Nat.eqb_eq in E; now subst|]. intro H. exists i. split; [exact H|apply Nat.eqb_refl]. Qed.
Lemma miss_zero m q l : below m q -> miss m q l = 0%nat -> all_mem q l = true.
Proof.
  intros B Z. unfold all_mem. apply forallb_forall. intros i Hi. pose proof (cnt_zero m _ Z i) as C. cbv beta in C. unfold below in B. rewrite Forall_forall in B.
  specialize (C (B i Hi)). rewrite (proj2 (mem_In i q) Hi) in C. cbn [andb] in C. now apply negb_false_iff in C.
Qed.
Lemma upper_cover m t q : (0 < m)%nat -> below m q -> forall l, avg_seq m t l (fun s => ind (all_mem q s)) <= (1 - untouched m t) ^ miss m q l.
Proof.
  intros M Bq. destruct (m_inv m M) as [P [[A B] Q]]. induction t as [|t IH]; intro l.
  - cbn [avg_seq]. unfold untouched. cbn [pow]. replace (1 - 1) with 0 by lra. destruct (miss m q l) as [|j] eqn:E.
    + cbn [pow]. unfold ind. destruct (all_mem q l); lra.
    + rewrite pow_ne_zero by lia. unfold ind. destruct (all_mem q l) eqn:F; [|lra]. exfalso.
      assert (miss m q l = 0%nat); [|lia]. apply cnt_none. intros i _. destruct (mem i q) eqn:G; [|reflexivity]. apply mem_In in G. unfold all_mem in F. rewrite forallb_forall in F. rewrite (F i G). reflexivity.
  - cbn [avg_seq]. pose proof (untouched_bounds m t M) as U. set (b := 1 - untouched m t) in *. set (j := miss m q l).
    assert (E : forall i, (i < m)%nat -> j = (miss m q (i :: l) + (if mem i q && negb (mem i l) then 1 else 0))%nat).
    { intros i Hi. unfold j, miss. rewrite (cnt_del m _ i Hi) at 1. f_equal. apply cnt_ext. intros x _. cbn [mem existsb]. fold (mem x l). rewrite negb_orb. destruct (mem x q), (mem x l), (Nat.eqb x i); reflexivity. }
    destruct j as [|j'] eqn:Ej.
    + rewrite <- (avg_const m ((1 - untouched m (S t)) ^ 0) M). cbn [pow]. apply avg_le. intros i Hi. apply Rle_trans with (1 := IH (i :: l)). specialize (E i Hi).
      replace (miss m q (i :: l)) with 0%nat by lia. cbn [pow]. lra.
    + apply Rle_trans with (avg m (fun i => b ^ S j' + (b ^ j' - b ^ S j') * ind (mem i q && negb (mem i l)))).
      * apply avg_le. intros i Hi. apply Rle_trans with (1 := IH (i :: l)). fold b. specialize (E i Hi). unfold ind. destruct (mem i q && negb (mem i l)).
        -- replace (miss m q (i :: l)) with j' by lia. lra.
        -- replace (miss m q (i :: l)) with (S j') by lia. lra.
      * rewrite avg_plus, avg_const, avg_scal, cnt_avg by exact M. fold (miss m q l). fold j. rewrite Ej.
        replace (1 - untouched m (S t)) with (b + (1 - b) / INR m) by (unfold b, untouched; cbn [pow]; unfold Rdiv; lra).
        apply Rle_trans with (2 := bernoulli b ((1 - b) / INR m) j' ltac:(unfold b; lra) ltac:(apply Rmult_le_pos; [unfold b; lra|lra])).
        apply Req_le. cbn [pow]. unfold Rdiv. ring.
Qed.
Lemma upper_query m k b : (0 < m)%nat -> 0 <= b <= 1 -> forall t q, below m q -> (length q + t <= k)%nat ->
  avg_seq m t q (fun s => b ^ cnt m (fun i => mem i s)) <= b ^ cnt m (fun i => mem i q) * (b + INR k / INR m) ^ t.
Proof.
  intros M B. destruct (m_inv m M) as [P _]. assert (I0 : 0 <= INR k / INR m) by (apply Rmult_le_pos; [apply pos_INR|apply inv_nonneg]).
  induction t as [|t IH]; intros q Bq Lq; cbn [avg_seq]; [cbn [pow]; lra|]. set (c := cnt m (fun i => mem i q)). set (w := (b + INR k / INR m) ^ t).
  assert (W : 0 <= w) by (apply pow_le; lra). assert (Bc : 0 <= b ^ c) by (apply pow_le; lra).
  apply Rle_trans with (avg m (fun i => b ^ S c * w + (b ^ c - b ^ S c) * w * ind (mem i q))).
  - apply avg_le. intros i Hi. apply Rle_trans with (1 := IH (i :: q) ltac:(constructor; assumption) ltac:(cbn [length]; lia)). fold w.
    change (cnt m (fun j => mem j (i :: q))) with (cnt m (fun j => (Nat.eqb j i || mem j q)%bool)). rewrite (cnt_add m (fun j => mem j q) i Hi). fold c. unfold ind. destruct (mem i q).
    + replace (c + 0)%nat with c by lia. lra.
    + replace (c + 1)%nat with (S c) by lia. lra.
  - rewrite avg_plus, avg_const, avg_scal, cnt_avg by exact M. fold c. change ((b + INR k / INR m) ^ S t) with ((b + INR k / INR m) * w). cbn [pow].
    assert (Ck : INR c / INR m <= INR k / INR m). { unfold Rdiv. apply Rmult_le_compat_r; [apply inv_nonneg|]. apply le_INR. pose proof (cnt_mem_le m q). unfold c. lia. }
    assert (C0 : 0 <= INR c / INR m) by (apply Rmult_le_pos; [apply pos_INR|apply inv_nonneg]).
    assert (0 <= b ^ c * w) by (apply Rmult_le_pos; assumption). set (x := INR c / INR m) in *. set (y := INR k / INR m) in *.
    replace (b * b ^ c * w + (b ^ c - b * b ^ c) * w * x) with (b ^ c * w * (b + (1 - b) * x)) by ring.
    replace (b ^ c * ((b + y) * w)) with (b ^ c * w * (b + y)) by ring. apply Rmult_le_compat_l; [assumption|]. nra.
Qed.
Theorem ideal_upper m k n : (0 < m)%nat -> ideal_rate m k n <= (1 - untouched m (k * n) + INR k / INR m) ^ k.
Proof.
  intro M. unfold ideal_rate. rewrite seq_swap. pose proof (untouched_bounds m (k * n) M) as U.
  apply Rle_trans with (avg_seq m k [] (fun q => (1 - untouched m (k * n)) ^ cnt m (fun i => mem i q))).
  - apply seq_le; [constructor|]. intros q Bq _. apply Rle_trans with (1 := upper_cover m (k * n) q M Bq []). apply Req_le. f_equal. apply cnt_ext. intros i _. cbn [mem existsb negb]. apply andb_true_r.
  - apply Rle_trans with (1 := upper_query m k (1 - untouched m (k * n)) M ltac:(lra) k [] (Forall_nil _) ltac:(cbn [length]; lia)).
    rewrite (cnt_none m) by reflexivity. cbn [pow]. lra.
Qed.
(** Queries and insertions in two sets of bits are independent. *)
Lemma cached_product c m k n : (0 < c)%nat -> (0 < m)%nat -> ideal_cached_rate c m k n = ideal_rate c 1 n * ideal_rate m k n.
Proof.
  intros C M. unfold ideal_cached_rate, ideal_rate. replace (1 * n)%nat with n by lia.
  rewrite (seq_ext c n [] _ (fun lc => avg_seq m (k * n) [] (fun l => avg_seq m k [] (fun q => ind (all_mem q l))) * avg_seq c 1 [] (fun qc => ind (all_mem qc lc)))).
  - rewrite seq_scal. lra.
  - constructor.
  - intros lc _. rewrite (seq_ext m (k * n) [] _ (fun l => avg_seq c 1 [] (fun qc => ind (all_mem qc lc)) * avg_seq m k [] (fun q => ind (all_mem q l)))).
    + rewrite seq_scal. lra.
    + constructor.
    + intros l _. rewrite (seq_ext c 1 [] _ (fun qc => avg_seq m k [] (fun q => ind (all_mem q l)) * ind (all_mem qc lc))).
      * rewrite seq_scal. lra.
      * constructor.
      * intros qc _. rewrite (seq_ext m k [] _ (fun q => ind (all_mem qc lc) * ind (all_mem q l))); [rewrite seq_scal; lra|constructor|]. intros q _. apply ind_and.
Qed.

(** Comparison with the usual formula. *)
Lemma exp_ge_1 x : 1 + x <= exp x.
Proof. destruct (Req_dec x 0) as [->|H]; [rewrite exp_0; lra|]. left. apply exp_ineq1, H. Qed.
Lemma exp_pow x k : exp x ^ k = exp (INR k * x).
Proof. induction k as [|k IH]; [cbn; rewrite Rmult_0_l, exp_0; reflexivity|]. rewrite S_INR. cbn [pow]. rewrite IH, <- exp_plus. f_equal. lra. Qed.
Lemma exp_le x y : x <= y -> exp x <= exp y.
Proof. intros [H| ->]; [left; now apply exp_increasing|lra]. Qed.
Lemma untouched_le m t : (0 < m)%nat -> untouched m t <= exp (- (INR t / INR m)).
Proof.
  intro M. destruct (m_inv m M) as [P [[A B] Q]]. unfold untouched. replace (- (INR t / INR m)) with (INR t * (- / INR m)) by (unfold Rdiv; lra).
  rewrite <- exp_pow. apply pow_incr. split; [exact A|]. pose proof (exp_ge_1 (- / INR m)). lra.
Qed.
Lemma untouched_ge m t : (1 < m)%nat -> exp (- (INR t / (INR m - 1))) <= untouched m t.
Proof.
  intro M. assert (P : 0 < INR m - 1) by (apply lt_INR in M; change (INR 1) with 1 in M; lra). unfold untouched.
  replace (- (INR t / (INR m - 1))) with (INR t * (- / (INR m - 1))) by (unfold Rdiv; lra). rewrite <- exp_pow. apply pow_incr. split; [left; apply exp_pos|].
  rewrite exp_Ropp. pose proof (exp_ge_1 (/ (INR m - 1))) as E. replace (1 - / INR m) with (/ (1 + / (INR m - 1))) by (field; lra).
  apply Rinv_le_contravar; [|exact E]. pose proof (Rinv_0_lt_compat _ P). lra.
Qed.
Lemma formula_lower m k n : (0 < m)%nat -> formula_rate (INR m) k (INR n) <= ideal_rate m k n.
Proof.
  intro M. apply Rle_trans with (2 := ideal_lower m k n M). unfold formula_rate. pose proof (untouched_le m (k * n) M) as U. rewrite mult_INR in U.
  apply pow_incr. destruct (m_inv m M) as [P _]. split; [|lra]. assert (exp (- (INR k * INR n / INR m)) <= exp 0); [|rewrite exp_0 in H; lra].
  apply exp_le. assert (0 <= INR k * INR n / INR m); [|lra]. apply Rmult_le_pos; [apply Rmult_le_pos; apply pos_INR|apply inv_nonneg].
Qed.
(** The bound [1 - exp (- (ln 2 + y)) + z <= exp (y + 2 z) / 2], to the power [k]. *)
Lemma half_bound y z k : 0 <= 1 - exp (- (ln 2 + y)) + z -> (1 - exp (- (ln 2 + y)) + z) ^ k <= exp (INR k * (y + 2 * z - ln 2)).
Proof.
  intro H. rewrite <- exp_pow. apply pow_incr. split; [exact H|]. unfold Rminus at 2. rewrite exp_plus. rewrite (exp_Ropp (ln 2)), exp_ln by lra.
  replace (- (ln 2 + y)) with (- ln 2 + - y) by lra. rewrite exp_plus, (exp_Ropp (ln 2)), exp_ln by lra.
  pose proof (exp_ge_1 (y + 2 * z)). pose proof (exp_ge_1 (- y)). lra.
Qed.
Lemma ln2_pos : 0 < ln 2.
Proof. rewrite <- ln_1. apply ln_increasing; lra. Qed.
Lemma formula_upper m k n : 0 < m -> 0 < n -> let u := m * ln 2 / n in
  formula_rate m k n <= exp (ln 2 * ((INR k - u) * (INR k - u) / u - u)).
Proof.
  intros M N u. pose proof ln2_pos as L. assert (U : 0 < u) by (apply Rmult_lt_0_compat; [apply Rmult_lt_0_compat; assumption|apply Rinv_0_lt_compat, N]).
  set (y := (INR k - u) * ln 2 / u). assert (E : INR k * n / m = ln 2 + y). { unfold y, u. field. repeat split; lra. }
  unfold formula_rate. rewrite E. replace (1 - exp (- (ln 2 + y))) with (1 - exp (- (ln 2 + y)) + 0) by lra. apply Rle_trans with (exp (INR k * (y + 2 * 0 - ln 2))).
  - apply half_bound. rewrite <- E. assert (exp (- (INR k * n / m)) <= exp 0); [|rewrite exp_0 in H; lra]. apply exp_le.
    assert (0 <= INR k * n / m); [|lra]. apply Rmult_le_pos; [apply Rmult_le_pos; [apply pos_INR|lra]|]. apply Rlt_le, Rinv_0_lt_compat, M.
  - apply exp_le, Req_le. unfold y. field. lra.
Qed.
Lemma rate_upper m k n : (1 < m)%nat -> (0 < n)%nat -> let u := (INR m - 1) * ln 2 / INR n in
  (1 - untouched m (k * n) + INR k / INR m) ^ k <= exp (ln 2 * ((INR k - u) * (INR k - u) / u - u) + 2 * (INR k * INR k) / INR m).
Proof.
  intros M N u. pose proof ln2_pos as L. assert (P : 0 < INR m - 1) by (apply lt_INR in M; change (INR 1) with 1 in M; lra). apply lt_0_INR in N as N'.
  assert (U : 0 < u) by (apply Rmult_lt_0_compat; [apply Rmult_lt_0_compat; assumption|apply Rinv_0_lt_compat, N']).
  set (y := (INR k - u) * ln 2 / u). assert (E : INR k * INR n / (INR m - 1) = ln 2 + y). { unfold y, u. field. repeat split; lra. }
  pose proof (untouched_ge m (k * n) M) as G. rewrite mult_INR, E in G. pose proof (untouched_bounds m (k * n) ltac:(lia)) as B.
  assert (Z : 0 <= INR k / INR m) by (apply Rmult_le_pos; [apply pos_INR|apply inv_nonneg]).
  apply Rle_trans with ((1 - exp (- (ln 2 + y)) + INR k / INR m) ^ k); [apply pow_incr; lra|].
  apply Rle_trans with (1 := half_bound y (INR k / INR m) k ltac:(lra)). apply exp_le, Req_le. unfold y. field. lra.
Qed.
Lemma untouched_anti m a b : (0 < m)%nat -> (a <= b)%nat -> untouched m b <= untouched m a.
Proof.
  intros M H. replace b with (a + (b - a))%nat by lia. unfold untouched. rewrite pow_add. pose proof (untouched_bounds m a M) as A. pose proof (untouched_bounds m (b - a) M) as B.
  unfold untouched in A, B. nra.
Qed.
(** At any load up to [c]. *)
Lemma ideal_upto m k n c : (1 < m)%nat -> (n <= c)%nat -> (0 < c)%nat -> let u := (INR m - 1) * ln 2 / INR c in
  ideal_rate m k n <= exp (ln 2 * ((INR k - u) * (INR k - u) / u - u) + 2 * (INR k * INR k) / INR m).
Proof.
  intros M N C u. apply Rle_trans with (2 := rate_upper m k c M C). apply Rle_trans with (1 := ideal_upper m k n ltac:(lia)). apply pow_incr.
  pose proof (untouched_anti m (k * n) (k * c) ltac:(lia) ltac:(nia)). pose proof (untouched_bounds m (k * n) ltac:(lia)).
  assert (0 <= INR k / INR m) by (apply Rmult_le_pos; [apply pos_INR|apply inv_nonneg]). lra.
Qed.
Lemma ideal_le_1 m k n : (0 < m)%nat -> 0 <= ideal_rate m k n <= 1.
Proof.
  intro M. split.
  - apply Rle_trans with (2 := ideal_lower m k n M). apply pow_le. pose proof (untouched_bounds m (k * n) M). lra.
  - unfold ideal_rate. apply Rle_trans with (avg_seq m (k * n) [] (fun _ => 1)); [|rewrite seq_const by exact M; lra]. apply seq_le; [constructor|]. intros l _ _.
    apply Rle_trans with (avg_seq m k [] (fun _ => 1)); [|rewrite seq_const by exact M; lra]. apply seq_le; [constructor|]. intros q _ _. unfold ind. destruct (all_mem q l); lra.
Qed.
