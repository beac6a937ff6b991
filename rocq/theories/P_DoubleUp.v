(** Upper bound of the rates of Spec_Double.v: an entry that hits two positions of the query is rare, since two positions of an
    entry are independent up to the common divisor of the difference of their numbers with the number of bits. *)
From Coq Require Import Lia Reals Lra List Arith Bool ZArith.
From Verif Require Import Spec_Rate Spec_CountAvg Spec_Double P_Rate P_CountAvg P_RateFilter P_Tail P_Double.
Import ListNotations.
Open Scope R_scope.

(** ** Counting solutions *)
Lemma cnt_split a b p : cnt (a + b) p = (cnt a p + cnt b (fun i => p (a + i)%nat))%nat.
Proof. induction b as [|b IH]; [cbn [cnt]; rewrite Nat.add_0_r; lia|]. rewrite Nat.add_succ_r. cbn [cnt]. rewrite IH. lia. Qed.
Lemma cnt_one m p : (forall i j, (i < m)%nat -> (j < m)%nat -> p i = true -> p j = true -> i = j) -> (cnt m p <= 1)%nat.
Proof.
  induction m as [|m IH]; intro H; [cbn; lia|]. cbn [cnt]. destruct (p m) eqn:E; [|rewrite Nat.add_0_r; apply IH; intros; apply H; lia || assumption].
  rewrite cnt_none; [lia|]. intros i Hi. destruct (p i) eqn:E'; [|reflexivity]. assert (i = m) by (apply H; lia || assumption). lia.
Qed.
Lemma cnt_block d p : (0 < d)%nat -> forall g, (forall i j, (i <= j)%nat -> (j < g * d)%nat -> p i = true -> p j = true -> Nat.divide d (j - i)) -> (cnt (g * d) p <= g)%nat.
Proof.
  intros D. induction g as [|g IH]; intro H; [cbn; lia|]. replace (S g * d)%nat with (g * d + d)%nat by lia. rewrite cnt_split.
  assert (cnt (g * d) p <= g)%nat by (apply IH; intros; apply H; nia || assumption).
  assert (cnt d (fun i => p (g * d + i)%nat) <= 1)%nat; [|lia]. apply cnt_one.
  assert (G : forall i j, (i <= j)%nat -> (j < d)%nat -> p (g * d + i)%nat = true -> p (g * d + j)%nat = true -> i = j).
  { intros i j Hij Hj A B. destruct (H (g * d + i)%nat (g * d + j)%nat ltac:(lia) ltac:(lia) A B) as [z Hz]. destruct z; nia. }
  intros i j Hi Hj A B. destruct (Nat.le_ge_cases i j); [now apply G|symmetry; now apply G].
Qed.
Lemma cong m a b : (0 < m)%nat -> (a mod m = b mod m)%nat -> exists q, (Z.of_nat a - Z.of_nat b = Z.of_nat m * q)%Z.
Proof.
  intros M H. exists (Z.of_nat (a / m) - Z.of_nat (b / m))%Z. pose proof (Nat.div_mod a m ltac:(lia)). pose proof (Nat.div_mod b m ltac:(lia)). rewrite H in *. set (r := (b mod m)%nat) in *. set (u := (a / m)%nat) in *. set (v := (b / m)%nat) in *. clearbody r u v. nia.
Qed.
Lemma cong_back m a b q : (0 < m)%nat -> (Z.of_nat a - Z.of_nat b = Z.of_nat m * q)%Z -> (a mod m = b mod m)%nat.
Proof.
  intros M H. apply Nat2Z.inj. rewrite !Nat2Z.inj_mod. replace (Z.of_nat a) with (Z.of_nat b + q * Z.of_nat m)%Z by lia. apply Z.mod_add. lia.
Qed.
Lemma solutions m i i' A B : (0 < m)%nat -> (i < i')%nat -> (cnt m (fun y => Nat.eqb ((A + i * y) mod m) ((B + i' * y) mod m)) <= Nat.gcd (i' - i) m)%nat.
Proof.
  intros M I. set (D := (i' - i)%nat). set (g := Nat.gcd D m). assert (G0 : g <> 0%nat) by (unfold g; intro E; apply Nat.gcd_eq_0_r in E; lia).
  destruct (Nat.gcd_divide_r D m) as [m' Em]. destruct (Nat.gcd_divide_l D m) as [D' ED]. fold g in Em, ED.
  assert (Cop : Nat.gcd m' D' = 1%nat).
  { rewrite Nat.gcd_comm. pose proof (Nat.gcd_div_gcd D m g G0 eq_refl) as Q. rewrite Em, ED, !Nat.div_mul in Q by exact G0. exact Q. }
  assert (M' : (0 < m')%nat) by (destruct m'; lia).
  replace (cnt m) with (cnt (g * m')) by (f_equal; lia). apply cnt_block; [exact M'|]. intros y z Hyz _ Hy Hz. apply Nat.eqb_eq in Hy, Hz.
  destruct (cong m _ _ M Hy) as [q1 Q1]. destruct (cong m _ _ M Hz) as [q2 Q2].
  apply (Nat.gauss m' D' (z - y)%nat); [|exact Cop]. apply (Nat.mul_divide_cancel_l _ _ g G0).
  assert (E : (Z.of_nat (D * (z - y)) = Z.of_nat m * (q1 - q2))%Z) by (unfold D; nia).
  exists (Z.to_nat (q1 - q2)). assert (P : (0 <= q1 - q2)%Z) by nia. apply Nat2Z.inj. replace (g * (D' * (z - y)))%nat with (D * (z - y))%nat by (rewrite ED; ring). rewrite E, (Nat2Z.inj_mul (Z.to_nat _)), Z2Nat.id by exact P. rewrite Em at 1. rewrite (Nat.mul_comm g m'). ring.
Qed.

(** ** Positions of one entry *)
Definition pos (m i x y : nat) : nat := ((x + i * y + (i ^ 3 - i) / 6) mod m)%nat.
Definition avg2 (m : nat) (f : nat -> nat -> R) : R := avg m (fun x => avg m (f x)).
Lemma avg2_le m f g : (forall x y, (x < m)%nat -> (y < m)%nat -> f x y <= g x y) -> avg2 m f <= avg2 m g.
Proof. intro H. apply avg_le. intros x Hx. apply avg_le. intros y Hy. now apply H. Qed.
Lemma avg2_ext m f g : (forall x y, (x < m)%nat -> (y < m)%nat -> f x y = g x y) -> avg2 m f = avg2 m g.
Proof. intro H. apply avg_ext. intros x Hx. apply avg_ext. intros y Hy. now apply H. Qed.
Lemma avg2_plus m f g : avg2 m (fun x y => f x y + g x y) = avg2 m f + avg2 m g.
Proof. unfold avg2. rewrite <- avg_plus. apply avg_ext. intros x _. now rewrite <- avg_plus. Qed.
Lemma avg2_scal m c f : avg2 m (fun x y => c * f x y) = c * avg2 m f.
Proof. unfold avg2. rewrite <- avg_scal. apply avg_ext. intros x _. now rewrite <- avg_scal. Qed.
Lemma avg2_const m c : (0 < m)%nat -> avg2 m (fun _ _ => c) = c.
Proof. intro M. unfold avg2. rewrite (avg_ext m _ (fun _ => c)); [now apply avg_const|]. intros. now apply avg_const. Qed.
Lemma double_snoc m k x y : double m (S k) x y = double m k x y ++ [pos m k x y].
Proof. unfold double. rewrite seq_S, map_app. reflexivity. Qed.
Lemma mem_snoc i l a : mem i (l ++ [a]) = mem i l || Nat.eqb i a.
Proof. unfold mem. rewrite existsb_app. cbn. now rewrite orb_false_r. Qed.
Lemma ind_or a b : ind (a || b) <= ind a + ind b.
Proof. destruct a, b; cbn; lra. Qed.
Lemma INR_cnt_avg m p n : (0 < m)%nat -> (cnt m p <= n)%nat -> avg m (fun i => ind (p i)) <= INR n / INR m.
Proof. intros M H. rewrite cnt_avg. apply Rmult_le_compat_r; [apply inv_nonneg|now apply le_INR]. Qed.
Lemma hit_one m i j y : (0 < m)%nat -> avg m (fun x => ind (Nat.eqb j (pos m i x y))) <= / INR m.
Proof.
  intro M. apply Rle_trans with (INR 1 / INR m); [|cbn; lra]. apply INR_cnt_avg; [exact M|]. apply cnt_one. intros a b Ha Hb A B. apply Nat.eqb_eq in A, B. rewrite A in B. unfold pos in B.
  destruct (cong m _ _ M B) as [q Q]. assert (q = 0)%Z by nia. subst q. lia.
Qed.
Lemma hit_pair m i i' j j' : (0 < m)%nat -> (i < i')%nat -> avg2 m (fun x y => ind (Nat.eqb j (pos m i x y)) * ind (Nat.eqb j' (pos m i' x y))) <= INR (Nat.gcd (i' - i) m) / (INR m * INR m).
Proof.
  intros M I. destruct (m_inv m M) as [P _]. unfold avg2. rewrite (avg_swap m m).
  set (T := fun i => ((i ^ 3 - i) / 6)%nat). set (C := fun y => Nat.eqb ((j' + T i + i * y) mod m) ((j + T i' + i' * y) mod m)).
  apply Rle_trans with (avg m (fun y => / INR m * ind (C y))).
  - apply avg_le. intros y _. apply Rle_trans with (avg m (fun x => ind (C y) * ind (Nat.eqb j (pos m i x y)))).
    + apply avg_le. intros x _. destruct (Nat.eqb j (pos m i x y)) eqn:E1; [|cbn; lra]. destruct (Nat.eqb j' (pos m i' x y)) eqn:E2; [|cbn; destruct (C y); cbn; lra].
      assert (E : C y = true); [|rewrite E; lra]. unfold C. apply Nat.eqb_eq in E1, E2. apply Nat.eqb_eq. unfold pos in E1, E2. fold (T i) in E1. fold (T i') in E2.
      pose proof (Nat.div_mod (x + i * y + T i) m ltac:(lia)) as D1. pose proof (Nat.div_mod (x + i' * y + T i') m ltac:(lia)) as D2. rewrite <- E1 in D1. rewrite <- E2 in D2.
      apply (cong_back m _ _ (Z.of_nat ((x + i * y + T i) / m) - Z.of_nat ((x + i' * y + T i') / m)) M). set (u := ((x + i * y + T i) / m)%nat) in *. set (v := ((x + i' * y + T i') / m)%nat) in *. clearbody u v. generalize dependent (T i). generalize dependent (T i'). intros. nia.
    + rewrite avg_scal, (Rmult_comm (/ INR m)). apply Rmult_le_compat_l; [apply ind_bounds|]. now apply hit_one.
  - rewrite avg_scal. replace (INR (Nat.gcd (i' - i) m) / (INR m * INR m)) with (/ INR m * (INR (Nat.gcd (i' - i) m) / INR m)) by (field; lra).
    apply Rmult_le_compat_l; [apply inv_nonneg|]. apply INR_cnt_avg; [exact M|]. now apply solutions.
Qed.
Lemma hit_mem m k j : (0 < m)%nat -> avg2 m (fun x y => ind (mem j (double m k x y))) <= INR k / INR m.
Proof.
  intro M. destruct (m_inv m M) as [P _]. induction k as [|k IH].
  - rewrite (avg2_ext m _ (fun _ _ => 0)) by reflexivity. rewrite avg2_const by exact M. cbn. lra.
  - apply Rle_trans with (avg2 m (fun x y => ind (mem j (double m k x y)) + ind (Nat.eqb j (pos m k x y)))).
    + apply avg2_le. intros x y _ _. rewrite double_snoc, mem_snoc. apply ind_or.
    + rewrite avg2_plus, S_INR. replace ((INR k + 1) / INR m) with (INR k / INR m + / INR m) by (field; lra). apply Rplus_le_compat; [exact IH|].
      unfold avg2. rewrite (avg_swap m m). rewrite <- (avg_const m (/ INR m) M) at 1. apply avg_le. intros y _. now apply hit_one.
Qed.
Lemma hit_last m k k0 j j' : (0 < m)%nat -> (k <= k0)%nat ->
  avg2 m (fun x y => ind (mem j (double m k x y)) * ind (Nat.eqb j' (pos m k0 x y))) <= sum_below k (fun i => INR (Nat.gcd (k0 - i) m)) / (INR m * INR m).
Proof.
  intro M. destruct (m_inv m M) as [P _]. induction k as [|k IH]; intro K.
  - rewrite (avg2_ext m _ (fun _ _ => 0)) by (intros; cbn; ring). rewrite avg2_const by exact M. cbn. lra.
  - apply Rle_trans with (avg2 m (fun x y => ind (mem j (double m k x y)) * ind (Nat.eqb j' (pos m k0 x y)) + ind (Nat.eqb j (pos m k x y)) * ind (Nat.eqb j' (pos m k0 x y)))).
    + apply avg2_le. intros x y _ _. rewrite double_snoc, mem_snoc. pose proof (ind_or (mem j (double m k x y)) (Nat.eqb j (pos m k x y))). pose proof (ind_bounds (Nat.eqb j' (pos m k0 x y))). nra.
    + rewrite avg2_plus. cbn [sum_below]. unfold Rdiv. rewrite Rmult_plus_distr_r. apply Rplus_le_compat; [apply IH; lia|]. apply hit_pair; [exact M|lia].
Qed.
Lemma hit_both m k j j' : (0 < m)%nat -> j <> j' -> avg2 m (fun x y => ind (mem j (double m k x y)) * ind (mem j' (double m k x y))) <= 2 * gcd_sum m k / (INR m * INR m).
Proof.
  intros M J. destruct (m_inv m M) as [P _]. induction k as [|k IH].
  - rewrite (avg2_ext m _ (fun _ _ => 0)) by (intros; cbn; ring). rewrite avg2_const by exact M. unfold gcd_sum. cbn. lra.
  - apply Rle_trans with (avg2 m (fun x y => ind (mem j (double m k x y)) * ind (mem j' (double m k x y)) +
      (ind (mem j (double m k x y)) * ind (Nat.eqb j' (pos m k x y)) + ind (mem j' (double m k x y)) * ind (Nat.eqb j (pos m k x y))))).
    + apply avg2_le. intros x y _ _. rewrite double_snoc, !mem_snoc. destruct (Nat.eqb_spec j (pos m k x y)) as [E1|E1], (Nat.eqb_spec j' (pos m k x y)) as [E2|E2]; [congruence| | |]; destruct (mem j (double m k x y)), (mem j' (double m k x y)); cbn; lra.
    + rewrite !avg2_plus. unfold gcd_sum in *. cbn [sum_below].
      pose proof (hit_last m k k j j' M (le_n k)). pose proof (hit_last m k k j' j M (le_n k)). set (s := sum_below k _) in *. set (s' := sum_below k (fun i => INR _)) in *.
      replace (2 * (s + s') / (INR m * INR m)) with (2 * s / (INR m * INR m) + (s' / (INR m * INR m) + s' / (INR m * INR m))) by (field; lra). lra.
Qed.

(** ** How many positions of a set an entry hits *)
Definition hits (T X : list nat) : nat := length (filter (fun i => mem i X) T).
Lemma hits_cons j T X : INR (hits (j :: T) X) = ind (mem j X) + INR (hits T X).
Proof. unfold hits. cbn [filter]. destruct (mem j X); cbn [length ind]; [rewrite S_INR|]; ring. Qed.
Lemma hits_avg m k T : (0 < m)%nat -> avg2 m (fun x y => INR (hits T (double m k x y))) <= INR (length T) * (INR k / INR m).
Proof.
  intro M. induction T as [|j T IH].
  - rewrite (avg2_ext m _ (fun _ _ => 0)) by reflexivity. rewrite avg2_const by exact M. cbn. lra.
  - rewrite (avg2_ext m _ (fun x y => ind (mem j (double m k x y)) + INR (hits T (double m k x y)))) by (intros; apply hits_cons). rewrite avg2_plus. cbn [length]. rewrite S_INR. pose proof (hit_mem m k j M). lra.
Qed.
Lemma hits_one_avg m k j T : (0 < m)%nat -> ~ In j T -> avg2 m (fun x y => ind (mem j (double m k x y)) * INR (hits T (double m k x y))) <= INR (length T) * (2 * gcd_sum m k / (INR m * INR m)).
Proof.
  intros M. induction T as [|i T IH]; intro H.
  - rewrite (avg2_ext m _ (fun _ _ => 0)) by (intros; cbn; ring). rewrite avg2_const by exact M. cbn. lra.
  - rewrite (avg2_ext m _ (fun x y => ind (mem j (double m k x y)) * ind (mem i (double m k x y)) + ind (mem j (double m k x y)) * INR (hits T (double m k x y)))) by (intros; rewrite hits_cons; ring).
    rewrite avg2_plus. cbn [length]. rewrite S_INR. pose proof (hit_both m k j i M ltac:(intro; apply H; now left)). specialize (IH ltac:(intro; apply H; now right)). lra.
Qed.
Lemma hits_pairs_avg m k T : (0 < m)%nat -> NoDup T -> avg2 m (fun x y => INR (hits T (double m k x y)) * (INR (hits T (double m k x y)) - 1)) <= INR (length T) * (INR (length T) - 1) * (2 * gcd_sum m k / (INR m * INR m)).
Proof.
  intros M. induction T as [|j T IH]; intro H.
  - rewrite (avg2_ext m _ (fun _ _ => 0)) by (intros; cbn; ring). rewrite avg2_const by exact M. cbn. lra.
  - inversion H as [|? ? Hj HT]; subst. set (p := 2 * gcd_sum m k / (INR m * INR m)) in *.
    rewrite (avg2_ext m _ (fun x y => INR (hits T (double m k x y)) * (INR (hits T (double m k x y)) - 1) + 2 * (ind (mem j (double m k x y)) * INR (hits T (double m k x y))))).
    + rewrite avg2_plus, avg2_scal. cbn [length]. rewrite S_INR. pose proof (hits_one_avg m k j T M Hj) as Q. fold p in Q. specialize (IH HT). lra.
    + intros x y _ _. rewrite hits_cons. destruct (mem j (double m k x y)); cbn [ind]; ring.
Qed.
Definition rest (T X : list nat) : list nat := filter (fun i => negb (mem i X)) T.
Lemma rest_length T X : (length (rest T X) + hits T X = length T)%nat.
Proof. induction T as [|j T IH]; [reflexivity|]. unfold rest, hits in *. cbn [filter]. destruct (mem j X); cbn [negb length]; lia. Qed.
Lemma rest_app T X Y : rest T (X ++ Y) = rest (rest T Y) X.
Proof.
  induction T as [|j T IH]; [reflexivity|]. unfold rest in *. cbn [filter]. replace (mem j (X ++ Y)) with (mem j X || mem j Y) by (unfold mem; now rewrite existsb_app). destruct (mem j Y) eqn:E; cbn [negb filter].
  - rewrite orb_true_r. exact IH.
  - rewrite orb_false_r. destruct (mem j X); cbn [negb]; now rewrite IH.
Qed.
Lemma rest_nil T X : all_mem T X = match rest T X with [] => true | _ => false end.
Proof. induction T as [|j T IH]; [reflexivity|]. unfold rest in *. cbn [all_mem forallb filter]. destruct (mem j X); cbn [negb andb]; [exact IH|reflexivity]. Qed.
Lemma rest_none T : rest T [] = T.
Proof. induction T as [|j T IH]; [reflexivity|]. unfold rest in *. cbn [filter]. change (mem j []) with false. cbn [negb]. now rewrite IH. Qed.

(** ** Entry after entry *)
Fixpoint cov (m k n : nat) (T : list nat) : R :=
  match n with O => ind (match T with [] => true | _ => false end) | S c => avg2 m (fun x y => cov m k c (rest T (double m k x y))) end.
Lemma pairs_cov m k T n : forall es, avg_pairs m n es (fun s => ind (all_mem T (double_all m k s))) = cov m k n (rest T (double_all m k es)).
Proof.
  induction n as [|n IH]; intro es; cbn [avg_pairs cov]; [now rewrite rest_nil|]. unfold avg2. apply avg_ext. intros x _. apply avg_ext. intros y _. rewrite IH. unfold double_all. cbn [flat_map fst snd]. now rewrite rest_app.
Qed.
Lemma count_snoc q b n F : forall l, avg_seq b n (l ++ [q]) (fun s => F (count_in q s)) = avg_seq b n l (fun s => F (S (count_in q s))).
Proof.
  induction n as [|n IH]; intro l; cbn [avg_seq].
  - f_equal. unfold count_in. rewrite filter_app, app_length. cbn. rewrite Nat.eqb_refl. cbn. lia.
  - apply avg_ext. intros i _. apply (IH (i :: l)).
Qed.
Lemma count_other q b n F i : q <> i -> forall l, avg_seq b n (l ++ [i]) (fun s => F (count_in q s)) = avg_seq b n l (fun s => F (count_in q s)).
Proof.
  intro Q. induction n as [|n IH]; intro l; cbn [avg_seq].
  - f_equal. unfold count_in. rewrite filter_app, app_length. cbn. apply Nat.eqb_neq in Q. rewrite Q. cbn. lia.
  - apply avg_ext. intros j _. apply (IH (j :: l)).
Qed.
Definition cov_b (b m k q n : nat) (T : list nat) : R := avg_seq b n [] (fun l => cov m k (count_in q l) T).
Lemma cov_b_step b m k q n T : (q < b)%nat -> cov_b b m k q (S n) T = (1 - / INR b) * cov_b b m k q n T + / INR b * avg2 m (fun x y => cov_b b m k q n (rest T (double m k x y))).
Proof.
  intro Q. assert (B : (0 < b)%nat) by lia. unfold cov_b at 1. cbn [avg_seq].
  set (s0 := cov_b b m k q n T). set (s1 := avg2 m (fun x y => cov_b b m k q n (rest T (double m k x y)))).
  rewrite (avg_ext b _ (fun i => s0 + (s1 - s0) * ind (Nat.eqb q i))).
  - rewrite avg_plus, avg_const, avg_scal, avg_eqb by assumption. ring.
  - intros i _. destruct (Nat.eqb_spec q i) as [->|N]; cbn [ind].
    + replace (s0 + (s1 - s0) * 1) with s1 by ring. change [i] with ([] ++ [i])%list. rewrite (count_snoc i b n (fun c => cov m k c T)). cbn [cov]. unfold avg2. rewrite seq_avg. unfold s1, avg2. apply avg_ext. intros x _. rewrite seq_avg. reflexivity.
    + replace (s0 + (s1 - s0) * 0) with s0 by ring. change [i] with ([] ++ [i])%list. now rewrite (count_other q b n (fun c => cov m k c T) i N).
Qed.

Lemma pow_le_1' h n : 0 <= h <= 1 -> 0 <= h ^ n <= 1.
Proof. intro H. split; [apply pow_le; lra|]. replace 1 with (1 ^ n) by apply pow1. apply pow_incr. exact H. Qed.
Lemma pow_mono_base a b n : 0 <= a <= b -> a ^ n <= b ^ n.
Proof. intro. now apply pow_incr. Qed.
(** What one entry adds, by the number [N] of positions it hits. *)
Lemma add_bound h M t N k : 0 <= h <= 1 -> 0 <= M -> (N <= t)%nat -> (t <= k)%nat ->
  (forall N t, (2 <= N)%nat -> (N <= t)%nat -> (t <= k)%nat -> INR t * (INR t - 1) * h ^ (t - N) <= M * (INR N * (INR N - 1))) ->
  h ^ (t - N) <= h ^ t + INR N * (h ^ (t - 1) * (1 - h)) + M * / (INR t * (INR t - 1)) * (INR N * (INR N - 1)).
Proof.
  intros H HM Nt Tk C. destruct N as [|[|N]].
  - rewrite Nat.sub_0_r. cbn [INR]. lra.
  - destruct t as [|t]; [lia|]. replace (S t - 1)%nat with t by lia. cbn [INR]. rewrite <- tech_pow_Rmult. lra.
  - set (n := S (S N)) in *. specialize (C n t ltac:(lia) Nt Tk). assert (T2 : 2 <= INR t) by (change 2 with (INR 2); apply le_INR; lia). assert (Tp : 0 < INR t * (INR t - 1)) by nra.
    assert (A : h ^ (t - n) <= M * / (INR t * (INR t - 1)) * (INR n * (INR n - 1))).
    { apply Rmult_le_reg_l with (INR t * (INR t - 1)); [exact Tp|]. replace (INR t * (INR t - 1) * (M * / (INR t * (INR t - 1)) * (INR n * (INR n - 1)))) with (M * (INR n * (INR n - 1))) by (field; lra). exact C. }
    pose proof (pow_le_1' h t H). pose proof (pow_le_1' h (t - 1) H). pose proof (pos_INR n). assert (0 <= INR n * (h ^ (t - 1) * (1 - h))) by (apply Rmult_le_pos; [assumption|]; apply Rmult_le_pos; lra). lra.
Qed.
Definition hit_rate (b m k n : nat) : R := 1 - (1 - INR k / (INR b * INR m)) ^ n.
Lemma hit_rate_bounds b m k n : (0 < b)%nat -> (0 < m)%nat -> (k <= m)%nat -> 0 <= hit_rate b m k n <= 1.
Proof.
  intros B M K. destruct (m_inv b B) as [Pb _]. destruct (m_inv m M) as [Pm _]. unfold hit_rate. assert (Q : 0 <= INR k / (INR b * INR m) <= 1).
  { apply le_INR in K. assert (1 <= INR b) by (change 1 with (INR 1); apply le_INR; lia). split; [apply Rmult_le_pos; [apply pos_INR|apply Rlt_le, Rinv_0_lt_compat; nra]|].
    apply Rmult_le_reg_r with (INR b * INR m); [nra|]. unfold Rdiv. rewrite Rmult_assoc, Rinv_l by nra. nra. }
  pose proof (pow_le_1' (1 - INR k / (INR b * INR m)) n ltac:(lra)). lra.
Qed.
Lemma hit_rate_step b m k n : hit_rate b m k (S n) = hit_rate b m k n + INR k / (INR b * INR m) * (1 - hit_rate b m k n).
Proof. unfold hit_rate. cbn [pow]. ring. Qed.
Lemma gcd_sum_pos m k : 0 <= gcd_sum m k.
Proof.
  unfold gcd_sum. assert (S : forall a f, (forall i, 0 <= f i) -> 0 <= sum_below a f). { induction a as [|a IH]; intros f H; cbn; [lra|]. pose proof (IH f H). pose proof (H a). lra. }
  apply S. intro. apply S. intro. apply pos_INR.
Qed.
Lemma cov_upper b m k q M h nmax : (q < b)%nat -> (0 < m)%nat -> (k <= m)%nat -> 0 <= M -> hit_rate b m k nmax <= h ->
  (forall N t, (2 <= N)%nat -> (N <= t)%nat -> (t <= k)%nat -> INR t * (INR t - 1) * h ^ (t - N) <= M * (INR N * (INR N - 1))) ->
  forall n T, (n <= nmax)%nat -> NoDup T -> (length T <= k)%nat ->
  cov_b b m k q n T <= hit_rate b m k n ^ length T + INR n * (M * (2 * gcd_sum m k / (INR b * (INR m * INR m)))).
Proof.
  intros Q HM K M0 Hh C. assert (B : (0 < b)%nat) by lia. destruct (m_inv b B) as [Pb _]. destruct (m_inv m HM) as [Pm _]. pose proof (gcd_sum_pos m k) as G0.
  assert (Mono : forall n, (n <= nmax)%nat -> hit_rate b m k n <= h).
  { intros n Hn. apply Rle_trans with (2 := Hh). clear Hh. induction Hn as [|z Hz IH]; [lra|]. apply Rle_trans with (1 := IH). rewrite hit_rate_step. pose proof (hit_rate_bounds b m k z B HM K). assert (0 <= INR k / (INR b * INR m)) by (apply Rmult_le_pos; [apply pos_INR|apply Rlt_le, Rinv_0_lt_compat; nra]). nra. }
  set (e := M * (2 * gcd_sum m k / (INR b * (INR m * INR m)))). set (p := 2 * gcd_sum m k / (INR m * INR m)).
  assert (Ep : e = / INR b * (M * p)) by (unfold e, p; field; lra). assert (P0 : 0 <= p) by (unfold p; apply Rmult_le_pos; [lra|apply Rlt_le, Rinv_0_lt_compat; nra]).
  assert (e0 : 0 <= e). { rewrite Ep. apply Rmult_le_pos; [apply inv_nonneg|]. now apply Rmult_le_pos. }
  induction n as [|n IH]; intros T Hn ND LT.
  - unfold cov_b. cbn [avg_seq]. change (count_in q []) with 0%nat. cbn [cov INR]. unfold hit_rate. cbn [pow]. replace (1 - 1) with 0 by ring. destruct T; cbn [ind length pow]; lra.
  - rewrite cov_b_step by exact Q. rewrite S_INR. set (u := hit_rate b m k n) in *. pose proof (hit_rate_bounds b m k n B HM K) as U. fold u in U. set (t := length T) in *.
    assert (Cu : forall N t, (2 <= N)%nat -> (N <= t)%nat -> (t <= k)%nat -> INR t * (INR t - 1) * u ^ (t - N) <= M * (INR N * (INR N - 1))).
    { intros N z H2 HN Hz. apply Rle_trans with (2 := C N z H2 HN Hz). assert (2 <= INR z) by (change 2 with (INR 2); apply le_INR; lia). apply Rmult_le_compat_l; [nra|]. apply pow_incr. split; [lra|]. apply Mono. lia. }
    assert (A1 : cov_b b m k q n T <= u ^ t + INR n * e) by (apply IH; lia || assumption).
    set (w := u ^ (t - 1) * (1 - u)). assert (w0 : 0 <= w) by (unfold w; pose proof (pow_le_1' u (t - 1) U); nra).
    assert (A2 : avg2 m (fun x y => cov_b b m k q n (rest T (double m k x y))) <= u ^ t + INR t * (INR k / INR m) * w + M * p + INR n * e).
    { apply Rle_trans with (avg2 m (fun x y => (u ^ t + INR n * e) + (w * INR (hits T (double m k x y)) + M * / (INR t * (INR t - 1)) * (INR (hits T (double m k x y)) * (INR (hits T (double m k x y)) - 1))))).
      - apply avg2_le. intros x y _ _. set (X := double m k x y). pose proof (rest_length T X) as RL. fold t in RL. apply Rle_trans with (1 := IH (rest T X) ltac:(lia) ltac:(unfold rest; apply NoDup_filter; exact ND) ltac:(lia)).
        replace (length (rest T X)) with (t - hits T X)%nat by lia. pose proof (add_bound u M t (hits T X) k U M0 ltac:(lia) LT Cu) as AB. fold w in AB. lra.
      - rewrite !avg2_plus, avg2_const, !avg2_scal by exact HM. pose proof (hits_avg m k T HM) as H1. pose proof (hits_pairs_avg m k T HM ND) as H2. fold t p in H1, H2. set (a1 := avg2 m (fun x y => INR (hits T (double m k x y)))) in *. set (a2 := avg2 m (fun x y => INR (hits T (double m k x y)) * (INR (hits T (double m k x y)) - 1))) in *.
        assert (S1 : w * a1 <= INR t * (INR k / INR m) * w) by (rewrite (Rmult_comm _ w); now apply Rmult_le_compat_l).
        assert (S2 : M * / (INR t * (INR t - 1)) * a2 <= M * p).
        { destruct (le_lt_dec 2 t) as [T2|T2].
          - assert (2 <= INR t) by (change 2 with (INR 2); now apply le_INR). apply Rle_trans with (M * / (INR t * (INR t - 1)) * (INR t * (INR t - 1) * p)); [|apply Req_le; field; nra]. apply Rmult_le_compat_l; [|exact H2]. apply Rmult_le_pos; [exact M0|]. apply Rlt_le, Rinv_0_lt_compat. nra.
          - assert (Z : a2 = 0). { unfold a2. rewrite (avg2_ext m _ (fun _ _ => 0)); [now apply avg2_const|]. intros x y _ _. pose proof (rest_length T (double m k x y)) as RL. fold t in RL. set (z := hits T (double m k x y)) in *. assert (Hz : (z = 0 \/ z = 1)%nat) by lia. destruct Hz as [-> | ->]; cbn; ring. }
            rewrite Z, Rmult_0_r. now apply Rmult_le_pos. }
        rewrite avg2_const by exact HM. lra. }
    assert (I : 0 < / INR b <= 1). { split; [now apply Rinv_0_lt_compat|]. rewrite <- Rinv_1. apply Rinv_le_contravar; [lra|]. change 1 with (INR 1). apply le_INR. lia. }
    apply Rle_trans with ((1 - / INR b) * (u ^ t + INR n * e) + / INR b * (u ^ t + INR t * (INR k / INR m) * w + M * p + INR n * e)).
    + apply Rplus_le_compat; apply Rmult_le_compat_l; lra || assumption.
    + set (a := INR k / (INR b * INR m)). assert (a0 : 0 <= a) by (unfold a; apply Rmult_le_pos; [apply pos_INR|apply Rlt_le, Rinv_0_lt_compat; nra]).
      replace ((1 - / INR b) * (u ^ t + INR n * e) + / INR b * (u ^ t + INR t * (INR k / INR m) * w + M * p + INR n * e)) with (u ^ t + INR t * a * w + (INR n * e + / INR b * (M * p))) by (unfold a; field; lra).
      rewrite <- Ep. assert (Bn : u ^ t + INR t * a * w <= hit_rate b m k (S n) ^ t).
      { rewrite hit_rate_step. fold u a. clearbody t. destruct t as [|t]; [cbn; lra|]. replace (S t - 1)%nat with t in * by lia. assert (AU : 0 <= a * (1 - u)) by (apply Rmult_le_pos; lra).
        pose proof (bernoulli u (a * (1 - u)) t (proj1 U) AU) as BB. unfold w. replace (S t - 1)%nat with t by lia. lra. }
      lra.
Qed.

(** ** The positions of the query *)
Fixpoint uq (m k x y : nat) : list nat := match k with O => [] | S j => if mem (pos m j x y) (uq m j x y) then uq m j x y else pos m j x y :: uq m j x y end.
Lemma uq_in m k x y : forall i, In i (uq m k x y) <-> In i (double m k x y).
Proof.
  induction k as [|k IH]; intro i; [reflexivity|]. rewrite double_snoc, in_app_iff. cbn [uq]. destruct (mem (pos m k x y) (uq m k x y)) eqn:E.
  - rewrite IH. apply mem_In in E. rewrite IH in E. cbn. split; [tauto|]. intros [H|[<-|[]]]; assumption.
  - cbn. rewrite IH. tauto.
Qed.
Lemma uq_nodup m k x y : NoDup (uq m k x y).
Proof.
  induction k as [|k IH]; [constructor|]. cbn [uq]. destruct (mem (pos m k x y) (uq m k x y)) eqn:E; [exact IH|]. constructor; [|exact IH]. intro H. apply mem_In in H. congruence.
Qed.
Definition dup (m k x y : nat) : R := sum_below k (fun j => sum_below j (fun i => ind (Nat.eqb (pos m i x y) (pos m j x y)))).
Lemma sum_pos a f : (forall i, (i < a)%nat -> 0 <= f i) -> 0 <= sum_below a f.
Proof. induction a as [|a IH]; intro H; cbn; [lra|]. pose proof (IH ltac:(intros; apply H; lia)). pose proof (H a ltac:(lia)). lra. Qed.
Lemma sum_member a f i : (i < a)%nat -> (forall i, (i < a)%nat -> 0 <= f i) -> f i <= sum_below a f.
Proof.
  induction a as [|a IH]; intros Hi H; [lia|]. cbn. pose proof (H a ltac:(lia)). destruct (Nat.eq_dec i a) as [->|N]; [pose proof (sum_pos a f ltac:(intros; apply H; lia)); lia || lra|].
  pose proof (IH ltac:(lia) ltac:(intros; apply H; lia)). lra.
Qed.
Lemma uq_length m k x y : (length (uq m k x y) <= k)%nat /\ INR k <= INR (length (uq m k x y)) + dup m k x y /\ ((0 < k)%nat -> (0 < length (uq m k x y))%nat).
Proof.
  induction k as [|k (IH1 & IH2 & IH3)]; [cbn; unfold dup; cbn; split; [lia|]; split; [lra|lia]|]. unfold dup in *. cbn [uq sum_below]. set (s := sum_below k _) in *.
  pose proof (sum_pos k (fun i => ind (Nat.eqb (pos m i x y) (pos m k x y))) ltac:(intros; apply ind_bounds)) as S0. rewrite S_INR.
  destruct (mem (pos m k x y) (uq m k x y)) eqn:E.
  - apply mem_In, uq_in in E. unfold double in E. apply in_map_iff in E as (i & Ei & Hi). apply in_seq in Hi. fold (pos m i x y) in Ei.
    pose proof (sum_member k (fun i => ind (Nat.eqb (pos m i x y) (pos m k x y))) i ltac:(lia) ltac:(intros; apply ind_bounds)) as S1. cbn beta in S1. rewrite Ei, Nat.eqb_refl in S1. cbn [ind] in S1. split; [lia|]. split; [lra|]. intros _. apply IH3. lia.
  - cbn [length]. rewrite S_INR. split; [lia|]. split; [lra|lia].
Qed.
Lemma avg2_sum m a (f : nat -> nat -> nat -> R) : (0 < m)%nat -> avg2 m (fun x y => sum_below a (f x y)) = sum_below a (fun i => avg2 m (fun x y => f x y i)).
Proof. intro M. induction a as [|a IH]; cbn [sum_below]; [now apply avg2_const|]. now rewrite avg2_plus, IH. Qed.
Lemma dup_avg m k : (0 < m)%nat -> avg2 m (fun x y => dup m k x y) <= gcd_sum m k / INR m.
Proof.
  intro M. destruct (m_inv m M) as [P _]. unfold dup. rewrite avg2_sum by exact M. unfold gcd_sum, Rdiv. rewrite Rmult_comm, <- sum_scal. apply sum_le. intros j _. rewrite avg2_sum by exact M. rewrite <- sum_scal. apply sum_le. intros i Hi.
  rewrite <- (avg_const m (/ INR m * INR (Nat.gcd (j - i) m)) M). apply avg_le. intros x _. set (T := fun i => ((i ^ 3 - i) / 6)%nat).
  rewrite (avg_ext m _ (fun y => ind (Nat.eqb ((x + T i + i * y) mod m) ((x + T j + j * y) mod m)))).
  - rewrite Rmult_comm. apply INR_cnt_avg; [exact M|]. now apply solutions.
  - intros y _. unfold pos. fold (T i) (T j). now replace (x + i * y + T i)%nat with (x + T i + i * y)%nat by lia; replace (x + j * y + T j)%nat with (x + T j + j * y)%nat by lia.
Qed.

(** [M] bounds what entries that hit several positions contribute, [W] what queries with equal positions do. *)
Theorem double_filter_upper b m k n h M W : (0 < b)%nat -> (0 < m)%nat -> (k <= m)%nat -> 0 <= M -> 0 <= W -> h <= 1 -> 1 - (1 - INR k / (INR b * INR m)) ^ n <= h ->
  (forall N t, (2 <= N)%nat -> (N <= t)%nat -> (t <= k)%nat -> INR t * (INR t - 1) * h ^ (t - N) <= M * (INR N * (INR N - 1))) ->
  (forall d, (1 <= d)%nat -> (d < k)%nat -> h ^ (k - d) <= INR d * W) ->
  double_filter_rate b m k n <= h ^ k + M * (2 * gcd_sum m k / (INR m * INR m)) * (INR n / INR b) + W * (gcd_sum m k / INR m).
Proof.
  intros B HM K M0 W0 H1 Hh CM CW. fold (hit_rate b m k n) in Hh. destruct (m_inv b B) as [Pb _]. destruct (m_inv m HM) as [Pm _]. pose proof (hit_rate_bounds b m k n B HM K) as HB.
  unfold double_filter_rate. rewrite seq_avg. set (R := _ + _ + _). rewrite <- (avg_const b R B). apply avg_le. intros q Hq.
  apply Rle_trans with (avg_seq b n [] (fun l => avg2 m (fun x y => cov m k (count_in q l) (uq m k x y)))).
  { apply seq_le; [constructor|]. intros l _ _. unfold double_rate. rewrite pairs_avg. apply Req_le. unfold avg2. apply avg_ext. intros x _. rewrite pairs_avg. apply avg_ext. intros y _.
    transitivity (avg_pairs m (count_in q l) [] (fun es => ind (all_mem (uq m k x y) (double_all m k es)))).
    - generalize (count_in q l). intro c. generalize (@nil (nat * nat)). induction c as [|c IH]; intro es; cbn [avg_pairs]; [|apply avg_ext; intros; apply avg_ext; intros; apply IH].
      f_equal. unfold all_mem. apply eq_iff_eq_true. rewrite !forallb_forall. split; intros A i Hi; apply A; now apply uq_in.
    - rewrite pairs_cov. cbn. now rewrite rest_none. }
  unfold avg2. rewrite seq_avg. apply Rle_trans with (avg2 m (fun x y => (h ^ k + INR n * (M * (2 * gcd_sum m k / (INR b * (INR m * INR m))))) + W * dup m k x y)).
  - unfold avg2. apply avg_le. intros x _. rewrite seq_avg. apply avg_le. intros y _. fold (cov_b b m k q n (uq m k x y)). destruct (uq_length m k x y) as (L1 & L2 & L3).
    apply Rle_trans with (1 := cov_upper b m k q M h n Hq HM K M0 Hh CM n (uq m k x y) (le_n n) (uq_nodup m k x y) L1). set (t := length (uq m k x y)) in *.
    assert (A : hit_rate b m k n ^ t <= h ^ t) by (apply pow_incr; lra). assert (D0 : 0 <= dup m k x y) by (unfold dup; apply sum_pos; intros; apply sum_pos; intros; apply ind_bounds).
    assert (A2 : h ^ t <= h ^ k + W * dup m k x y).
    { destruct (Nat.eq_dec t k) as [Ek|N]; [rewrite Ek; assert (0 <= W * dup m k x y) by (apply Rmult_le_pos; assumption); lra|].
      assert (T0 : (0 < t)%nat) by (apply L3; clear - L1 N; lia). assert (Dk : (1 <= k - t)%nat) by (clear - L1 N; lia). assert (Dk' : (k - t < k)%nat) by (clear - L1 N T0; lia). pose proof (CW (k - t)%nat Dk Dk') as Q. replace (k - (k - t))%nat with t in Q by lia. rewrite minus_INR in Q by lia.
      pose proof (pow_le h k ltac:(lra)). assert ((INR k - INR t) * W <= dup m k x y * W) by (apply Rmult_le_compat_r; lra). lra. }
    lra.
  - rewrite avg2_plus, avg2_const, avg2_scal by exact HM. pose proof (dup_avg m k HM) as Q. apply Rmult_le_compat_l with (1 := W0) in Q. unfold R. replace (M * (2 * gcd_sum m k / (INR m * INR m)) * (INR n / INR b)) with (INR n * (M * (2 * gcd_sum m k / (INR b * (INR m * INR m))))) by (field; lra). apply Rplus_le_compat_l. exact Q.
Qed.
