(** C108: what the conditions of the bench command measure on average. *)
From Coq Require Import Lia Reals Lra Permutation.
From Verif Require Import M_Base M_Bench Spec_Bits Spec_Cli Spec_Bench Spec_Rate Spec_BenchAvg P_Base P_Rate P_CountAvg P_Double P_Bench Ex_Base Ex_V1 Prop_Bench.
Open Scope N_scope.

(** ** Averages *)
Lemma sum_list m f : sum_below m f = fold_right Rplus 0%R (map f (seq 0 m)).
Proof.
  assert (G : forall l x, (fold_right Rplus x l = fold_right Rplus 0 l + x)%R) by (induction l as [|a l IH]; intro x; cbn [fold_right]; [lra|rewrite IH; lra]).
  induction m as [|m IH]; [reflexivity|]. rewrite seq_S, map_app, fold_right_app. cbn [map fold_right sum_below plus]. rewrite (G _ (f m + 0)%R), IH. lra.
Qed.
Lemma fold_perm l l' : Permutation l l' -> fold_right Rplus 0%R l = fold_right Rplus 0%R l'.
Proof. induction 1; cbn [fold_right]; lra. Qed.
Lemma avg_perm m g p : (forall i, (i < m)%nat -> (p i < m)%nat) -> (forall i j, (i < m)%nat -> (j < m)%nat -> p i = p j -> i = j) -> avg m (fun i => g (p i)) = avg m g.
Proof.
  intros Hp Inj. unfold avg. f_equal. rewrite !sum_list. rewrite <- (map_map p g). apply fold_perm, Permutation_map.
  apply NoDup_Permutation_bis.
  - clear - Inj. assert (G : forall l, (forall i, In i l -> (i < m)%nat) -> NoDup l -> NoDup (map p l)).
    { induction l as [|a l IH]; intros H N; cbn [map]; [constructor|]. inversion_clear N as [|? ? Na Nl]. constructor; [|apply IH; [intros; apply H; now right|exact Nl]].
      rewrite in_map_iff. intros (x & E & Hx). apply Inj in E; [subst; contradiction|apply H; now right|apply H; now left]. }
    apply G; [intros i Hi; apply in_seq in Hi; lia|apply seq_NoDup].
  - rewrite map_length. lia.
  - intros x Hx. apply in_map_iff in Hx as (i & <- & Hi). apply in_seq in Hi. apply in_seq. specialize (Hp i ltac:(lia)). lia.
Qed.

Definition nxor (b i : nat) : nat := N.to_nat (N.lxor (N.of_nat b) (N.of_nat i)).
Lemma lxor_256 a b : a < 256 -> b < 256 -> N.lxor a b < 256.
Proof. exact (P_Hash.lxor_lt a b 8). Qed.
Lemma nxor_lt b i : (b < 256)%nat -> (i < 256)%nat -> (nxor b i < 256)%nat.
Proof. intros Hb Hi. unfold nxor. pose proof (lxor_256 (N.of_nat b) (N.of_nat i) ltac:(lia) ltac:(lia)). lia. Qed.
Lemma nxor_inj b i j : nxor b i = nxor b j -> i = j.
Proof.
  unfold nxor. intro E. apply N2Nat.inj in E. apply (f_equal (N.lxor (N.of_nat b))) in E. rewrite <- !N.lxor_assoc, N.lxor_nilpotent, !N.lxor_0_l in E. lia.
Qed.
Fixpoint xors (e k : list nat) : list nat := match e, k with a :: e, i :: k => nxor a i :: xors e k | _, _ => [] end.
Lemma seq_xor f : forall t e1 e2 l, length e1 = t -> Forall (fun a => (a < 256)%nat) e1 ->
  avg_seq 256 t l (fun k => f (xors (e1 ++ e2) k)) = avg_seq 256 t (xors e2 l) f.
Proof.
  induction t as [|t IH]; intros e1 e2 l L F; [destruct e1; [reflexivity|discriminate]|]. cbn [avg_seq].
  destruct (exists_last (l := e1)) as (e & b & ->). { intros ->. discriminate. } rewrite app_length in L. cbn [length] in L. apply Forall_app in F as [Fe Fb]. inversion_clear Fb as [|? ? Hb _].
  rewrite (avg_ext 256 _ (fun i => avg_seq 256 t (nxor b i :: xors e2 l) f)).
  2:{ intros i _. rewrite <- app_assoc. cbn [app]. rewrite (IH e (b :: e2) (i :: l)) by (lia || exact Fe). reflexivity. }
  exact (avg_perm 256 (fun i => avg_seq 256 t (i :: xors e2 l) f) (nxor b) (fun i Hi => nxor_lt b i Hb Hi) (fun i j _ _ E => nxor_inj b i j E)).
Qed.
Lemma seq_ext_len m t f g : (forall s, below m s -> length s = t -> f s = g s) -> avg_seq m t [] f = avg_seq m t [] g.
Proof.
  intro H. apply Rle_antisym; (apply seq_le; [constructor|]); intros s B L; cbn [length] in L; rewrite Nat.add_0_r in L; rewrite (H s B L); lra.
Qed.
(** Draws that fit the lines. *)
Definition fits (d : nat * list nat) (e : list byte) : Prop := (fst d < 101)%nat /\ below 256 (snd d) /\ length (snd d) = length e.
Lemma draws_ext : forall test f g, (forall ds, Forall2 fits ds test -> f ds = g ds) -> avg_draws test f = avg_draws test g.
Proof.
  induction test as [|e r IH]; intros f g H; cbn [avg_draws]; [apply H; constructor|]. apply avg_ext. intros x Hx. apply seq_ext_len. intros k Bk Lk. apply IH. intros ds F. apply H.
  constructor; [|exact F]. split; [exact Hx|split; [exact Bk|exact Lk]].
Qed.
Lemma draws_plus : forall test f g, (avg_draws test (fun ds => f ds + g ds) = avg_draws test f + avg_draws test g)%R.
Proof.
  induction test as [|e r IH]; intros f g; cbn [avg_draws]; [reflexivity|]. rewrite <- avg_plus. apply avg_ext. intros x _. rewrite <- seq_plus. apply seq_ext_len. intros k _ _. apply IH.
Qed.
Lemma draws_const c : forall test, avg_draws test (fun _ => c) = c.
Proof.
  induction test as [|e r IH]; cbn [avg_draws]; [reflexivity|]. transitivity (avg 101 (fun _ => c)); [|apply avg_const; lia]. apply avg_ext. intros x _.
  transitivity (avg_seq 256 (length e) [] (fun _ => c)); [|apply seq_const; lia]. apply seq_ext_len. intros k _ _. apply IH.
Qed.
Lemma draws_scal c : forall test f, (avg_draws test (fun ds => c * f ds) = c * avg_draws test f)%R.
Proof.
  induction test as [|e r IH]; intro f; cbn [avg_draws]; [reflexivity|]. rewrite <- avg_scal. apply avg_ext. intros x _. rewrite <- seq_scal. apply seq_ext_len. intros k _ _. apply IH.
Qed.
Fixpoint total (h : nat * list nat -> list byte -> R) (ds : list (nat * list nat)) (test : list (list byte)) : R :=
  match ds, test with d :: ds, e :: r => (h d e + total h ds r)%R | _, _ => 0%R end.
Lemma draws_total h : forall test, avg_draws test (fun ds => total h ds test) = sumR (map (fun e => avg 101 (fun x => avg_seq 256 (length e) [] (fun k => h (x, k) e))) test).
Proof.
  induction test as [|e r IH]; cbn [avg_draws total map sumR fold_right]; [reflexivity|]. fold (sumR (map (fun e => avg 101 (fun x => avg_seq 256 (length e) [] (fun k => h (x, k) e))) r)). rewrite <- IH.
  set (z := avg_draws r (fun ds => total h ds r)). transitivity (avg 101 (fun x => (avg_seq 256 (length e) [] (fun k => h (x, k) e) + z)%R)).
  - apply avg_ext. intros x _. rewrite <- (seq_const 256 (length e) z ltac:(lia) []) at 1. rewrite <- seq_plus. apply seq_ext_len. intros k _ _. rewrite draws_plus, draws_const. reflexivity.
  - rewrite avg_plus, avg_const by lia. reflexivity.
Qed.

(** ** The lines of a condition *)
Definition one_line (c : N) (d : nat * list nat) (e : list byte) : bool * list byte :=
  if N.of_nat (fst d) <? 10 * (c + 1) then (true, map N.of_nat (xors (map N.to_nat e) (snd d))) else (false, e).
Fixpoint lines_of (c : N) (ds : list (nat * list nat)) (test : list (list byte)) : list (bool * list byte) :=
  match ds, test with d :: ds, e :: r => one_line c d e :: lines_of c ds r | _, _ => [] end.
Lemma xor_bytes_at (k : N -> byte) ks : forall e j, length ks = length e -> (forall i, (i < length ks)%nat -> k (j + N.of_nat i) = N.of_nat (nth i ks 0%nat)) ->
  xor_bytes k j e = map N.of_nat (xors (map N.to_nat e) ks).
Proof.
  induction ks as [|x ks IH]; intros [|b e] j L H; try discriminate; [reflexivity|]. cbn [xor_bytes map xors]. pose proof (H 0%nat ltac:(cbn; lia)) as H0. cbn [nth] in H0. rewrite N.add_0_r in H0. f_equal.
  - rewrite H0. unfold nxor. now rewrite !N2Nat.id.
  - apply IH; [now injection L|]. intros i Hi. pose proof (H (S i) ltac:(cbn; lia)) as Q. cbn [nth] in Q. rewrite <- Q. f_equal. lia.
Qed.
Lemma mutate_drawn c ds : forall test pre, Forall2 fits ds test -> mutate_lines (drawn (pre ++ ds)) c (N.of_nat (length pre)) test = lines_of c ds test.
Proof.
  induction ds as [|d ds IH]; intros test pre F; inversion F as [|? e ? r Fd Fr]; subst; [reflexivity|]. cbn [mutate_lines lines_of]. f_equal.
  - unfold one_line. cbn [drawn dr_roll]. rewrite Nat2N.id, app_nth2, Nat.sub_diag by lia. cbn [nth]. destruct (N.ltb_spec (N.of_nat (fst d)) (10 * (c + 1))); [|reflexivity]. f_equal.
    apply xor_bytes_at; [apply Fd|]. intros i Hi. cbn [drawn dr_key]. rewrite Nat2N.id, app_nth2, Nat.sub_diag by lia. cbn [nth]. do 2 f_equal. lia.
  - specialize (IH r (pre ++ [d]) Fr). rewrite <- app_assoc in IH. cbn [app] in IH. rewrite app_length in IH. cbn [length] in IH. rewrite <- IH. f_equal. lia.
Qed.
Lemma count_lines c p ds : forall test, Forall2 fits ds test -> INR (N.to_nat (len (filter p (mutate_lines (drawn ds) c 0 test)))) = total (fun d e => ind (p (one_line c d e))) ds test.
Proof.
  intros test F. pose proof (mutate_drawn c ds test [] F) as E. cbn [app length] in E. change (N.of_nat 0) with 0 in E. rewrite E. clear - F. unfold len. rewrite Nat2N.id. induction F as [|d e ds r _ _ IH]; [reflexivity|]. cbn [lines_of filter total]. rewrite <- IH.
  destruct (p (one_line c d e)); cbn [ind length]; [rewrite S_INR; lra|lra].
Qed.
(** The number drawn is below 10 (c + 1) in 10 (c + 1) of 101 cases. *)
Lemma roll_avg c v : c < 10 -> avg 101 (fun x => if N.of_nat x <? 10 * (c + 1) then v else 0%R) = (IZR (Z.of_N (10 * (c + 1))) / 101 * v)%R.
Proof.
  intro Hc. transitivity (v * avg 101 (fun x => ind (N.of_nat x <? 10 * (c + 1))))%R. { rewrite <- avg_scal. apply avg_ext. intros x _. destruct (_ <? _); cbn [ind]; lra. }
  rewrite cnt_avg. assert (E : cnt 101 (fun x => N.of_nat x <? 10 * (c + 1)) = N.to_nat (10 * (c + 1))).
  { assert (c = 0 \/ c = 1 \/ c = 2 \/ c = 3 \/ c = 4 \/ c = 5 \/ c = 6 \/ c = 7 \/ c = 8 \/ c = 9) as Q by lia. repeat (destruct Q as [->|Q]; [vm_compute; reflexivity|]). subst c. vm_compute. reflexivity. }
  rewrite E. rewrite INR_IZR_INZ, N_nat_Z, INR_IZR_INZ. change (Z.of_nat 101) with 101%Z. unfold Rdiv. ring.
Qed.

(** ** What is measured *)
(** A mutated line is a uniformly drawn byte string of its length, whatever the line was. *)
Theorem C108_uniform e (f : list byte -> R) : bytes_ok e ->
  avg_seq 256 (length e) [] (fun k => f (xor_bytes (fun j => N.of_nat (nth (N.to_nat j) k 0%nat)) 0 e)) = avg_seq 256 (length e) [] (fun s => f (map N.of_nat s)).
Proof.
  intro B. rewrite (seq_ext_len 256 (length e) _ (fun k => f (map N.of_nat (xors (map N.to_nat e ++ []) k)))).
  - exact (seq_xor (fun s => f (map N.of_nat s)) (length e) (map N.to_nat e) [] [] (map_length _ _) ltac:(apply Forall_map; revert B; apply Forall_impl; intros a Ha; lia)).
  - intros k _ Lk. rewrite app_nil_r. f_equal. apply xor_bytes_at; [exact Lk|]. intros i _. rewrite N.add_0_l, Nat2N.id. reflexivity.
Qed.
(** On average 10 (c + 1) lines of 101 are mutated ... *)
Theorem C108_mutated test c : c < 10 -> avg_draws test (fun ds => INR (N.to_nat (n_mutated (drawn ds) test c))) = (INR (length test) * (IZR (Z.of_N (10 * (c + 1))) / 101))%R.
Proof.
  intro Hc. rewrite (draws_ext test _ (fun ds => total (fun d e => ind (fst (one_line c d e))) ds test)) by (intros ds F; now apply count_lines). rewrite draws_total.
  assert (G : forall e, avg 101 (fun x => avg_seq 256 (length e) [] (fun k => ind (fst (one_line c (x, k) e)))) = (IZR (Z.of_N (10 * (c + 1))) / 101)%R).
  { intro e. rewrite <- (Rmult_1_r (_ / 101)), <- (roll_avg c 1 Hc). apply avg_ext. intros x _. rewrite <- (seq_const 256 (length e) (if N.of_nat x <? 10 * (c + 1) then 1%R else 0%R) ltac:(lia) []).
    apply seq_ext_len. intros k _ _. unfold one_line. cbn [fst snd]. destruct (_ <? _); reflexivity. }
  induction test as [|e r IH]; [cbn; lra|]. cbn [map sumR fold_right]. fold (sumR (map (fun e => avg 101 (fun x => avg_seq 256 (length e) [] (fun k => ind (fst (one_line c (x, k) e))))) r)).
  rewrite IH, G. change (length (e :: r)) with (S (length r)). rewrite S_INR. ring.
Qed.
(** ... and the ones counted as false positives are as many as if byte strings had been drawn instead: entries are among them. *)
Theorem C108_found wy b test c : c < 10 -> Forall bytes_ok test ->
  avg_draws test (fun ds => INR (N.to_nat (n_found wy b (drawn ds) test c))) = (IZR (Z.of_N (10 * (c + 1))) / 101 * sumR (map (fun e => reported wy b (length e)) test))%R.
Proof.
  intros Hc B. rewrite (draws_ext test _ (fun ds => total (fun d e => ind (fst (one_line c d e) && contained wy b (snd (one_line c d e)))) ds test)) by (intros ds F; exact (count_lines c (fun x => fst x && contained wy b (snd x)) ds test F)).
  rewrite draws_total.
  assert (G : forall e, bytes_ok e -> avg 101 (fun x => avg_seq 256 (length e) [] (fun k => ind (fst (one_line c (x, k) e) && contained wy b (snd (one_line c (x, k) e))))) = (IZR (Z.of_N (10 * (c + 1))) / 101 * reported wy b (length e))%R).
  { intros e Be. rewrite <- (roll_avg c _ Hc). apply avg_ext. intros x _. unfold one_line. cbn [fst snd]. destruct (_ <? _); cbn [fst snd andb ind]; [|apply seq_const; lia].
    pose proof (seq_xor (fun s => ind (contained wy b (map N.of_nat s))) (length e) (map N.to_nat e) [] [] (map_length _ _) ltac:(apply Forall_map; revert Be; apply Forall_impl; intros a Ha; lia)) as X. rewrite app_nil_r in X. exact X. }
  induction B as [|e r Be Br IH]; [cbn; lra|]. cbn [map sumR fold_right]. fold (sumR (map (fun e => avg 101 (fun x => avg_seq 256 (length e) [] (fun k => ind (fst (one_line c (x, k) e) && contained wy b (snd (one_line c (x, k) e)))))) r)).
  fold (sumR (map (fun e => reported wy b (length e)) r)). rewrite IH, (G e Be). ring.
Qed.
(** Full statement: the printed percentage of queried values are in the filter. On average it is more, by up to a percent;
    the difference is exactly 10 (c + 1) (1/100 - 1/101). *)
Theorem C108_share test c : c < 10 -> test <> [] ->
  (avg_draws test (fun ds => kept_share (drawn ds) test c) = IZR (Z.of_N (printed_percent c)) / 100 + IZR (Z.of_N (10 * (c + 1))) / 10100)%R.
Proof.
  intros Hc Ne. assert (L : (0 < INR (length test))%R) by (apply lt_0_INR; destruct test; [contradiction|cbn; lia]).
  transitivity (1 - / INR (length test) * avg_draws test (fun ds => INR (N.to_nat (n_mutated (drawn ds) test c))))%R.
  - rewrite <- draws_scal. replace 1%R with (avg_draws test (fun _ => 1%R)) at 1 by apply draws_const. rewrite (draws_ext test _ (fun ds => (1 + -1 * (/ INR (length test) * INR (N.to_nat (n_mutated (drawn ds) test c))))%R)).
    + rewrite draws_plus, (draws_scal (-1)). ring.
    + intros ds _. unfold kept_share. unfold Rdiv. ring.
  - rewrite C108_mutated by exact Hc. unfold printed_percent. rewrite N2Z.inj_sub by lia. rewrite minus_IZR. change (Z.of_N 100) with 100%Z. field. lra.
Qed.
Theorem C108_share_refuted : exists (test : list (list byte)) c, c < 10 /\ test <> [] /\ printed_percent c = 0 /\ (avg_draws test (fun ds => kept_share (drawn ds) test c) = / 101)%R.
Proof.
  exists [[97]], 9. split; [reflexivity|]. split; [discriminate|]. split; [reflexivity|]. rewrite C108_share by (reflexivity || discriminate).
  change (Z.of_N (printed_percent 9)) with 0%Z. change (Z.of_N (10 * (9 + 1))) with 100%Z. lra.
Qed.
(** Distinct byte strings of length [n] in the filter weigh at least 256^-n each: entries of one byte make any filter look bad. *)
Definition leq (a b : list nat) : bool := if list_eq_dec Nat.eq_dec a b then true else false.
Lemma leq_spec a b : (leq a b = true /\ a = b) \/ (leq a b = false /\ a <> b).
Proof. unfold leq. destruct (list_eq_dec Nat.eq_dec a b); auto. Qed.
Lemma seq_point m : (0 < m)%nat -> forall n x1 x2 l, length x1 = n -> below m x1 -> length x2 = length l -> avg_seq m n l (fun s => ind (leq s (x1 ++ x2))) = (ind (leq l x2) * / INR m ^ n)%R.
Proof.
  intro Hm. induction n as [|n IH]; intros x1 x2 l L B Lx; cbn [avg_seq pow].
  - destruct x1; [|discriminate]. cbn [app]. field.
  - destruct (exists_last (l := x1)) as (y & b & ->). { intros ->. discriminate. } rewrite app_length in L. cbn [length] in L. apply Forall_app in B as [By Bb]. inversion_clear Bb as [|? ? Hb _].
    assert (M : INR m <> 0%R) by (apply not_0_INR; lia). rewrite (avg_ext m _ (fun i => (ind (leq l x2) * / INR m ^ n * ind (Nat.eqb b i))%R)).
    + rewrite avg_scal, P_Double.avg_eqb by exact Hb. field. split; [now apply pow_nonzero|exact M].
    + intros i _. rewrite <- app_assoc. cbn [app]. rewrite (IH y (b :: x2) (i :: l)) by (cbn [length]; lia || exact By).
      assert (E : ind (leq (i :: l) (b :: x2)) = (ind (leq l x2) * ind (Nat.eqb b i))%R); [|rewrite E; ring]. unfold leq. destruct (Nat.eqb_spec b i) as [<-|D].
      * destruct (list_eq_dec Nat.eq_dec (b :: l) (b :: x2)) as [Q|Q], (list_eq_dec Nat.eq_dec l x2) as [Q'|Q']; cbn [ind]; try lra; [injection Q; contradiction|subst; contradiction].
      * destruct (list_eq_dec Nat.eq_dec (i :: l) (b :: x2)) as [Q|Q]; [injection Q as -> _; contradiction|]. cbn [ind]. lra.
Qed.
Theorem C108_entries wy b n S : NoDup S -> Forall (fun s => length s = n /\ bytes_ok s /\ bf_contains_bytes wy b s = Ok true) S -> (INR (length S) / 256 ^ n <= reported wy b n)%R.
Proof.
  intros N F. replace 256%R with (INR 256) by (rewrite INR_IZR_INZ; reflexivity). unfold reported.
  apply Rle_trans with (avg_seq 256 n [] (fun s => sumR (map (fun x => ind (leq s (map N.to_nat x))) S))).
  - clear N. induction F as [|x S (Lx & Bx & _) F IH]; cbn [map sumR fold_right length]. { rewrite seq_const by lia. unfold Rdiv. cbn [INR]. lra. }
    rewrite S_INR. fold (sumR (map (fun x => ind (leq [] (map N.to_nat x))) S)). rewrite seq_plus.
    pose proof (seq_point 256 ltac:(lia) n (map N.to_nat x) [] [] ltac:(now rewrite map_length) ltac:(apply Forall_map; revert Bx; apply Forall_impl; intros a Ha; lia) eq_refl) as P. rewrite app_nil_r in P. rewrite P.
    change (ind (leq [] [])) with 1%R. unfold sumR, Rdiv in *. lra.
  - apply seq_le; [constructor|]. intros s Bs Ls.
    assert (G : forall T, NoDup T -> (forall x, In x T -> In x S) -> ((sumR (map (fun x => ind (leq s (map N.to_nat x))) T) <= 0)%R /\ ~ In (map N.of_nat s) T) \/ ((sumR (map (fun x => ind (leq s (map N.to_nat x))) T) <= 1)%R /\ In (map N.of_nat s) T)).
    { induction T as [|x T IH]; intros NT HT; [left; split; [cbn; lra|intros []]|]. inversion_clear NT as [|? ? Nx NT']. destruct (IH NT' (fun y Hy => HT y (or_intror Hy))) as [[A B]|[A B]]; unfold sumR in *; cbn [map fold_right] in *;
       destruct (leq_spec s (map N.to_nat x)) as [[Q E]|[Q E]]; rewrite Q; cbn [ind].
      - right. split; [lra|]. left. rewrite E, map_map. rewrite <- (map_id x) at 1. apply map_ext. intro a. now rewrite N2Nat.id.
      - left. split; [lra|]. intros [->|H]; [|contradiction]. apply E. rewrite map_map. rewrite <- (map_id s) at 1. apply map_ext. intro a. now rewrite Nat2N.id.
      - exfalso. apply Nx. replace x with (map N.of_nat s); [exact B|]. rewrite E, map_map. rewrite <- (map_id x) at 2. apply map_ext. intro a. now rewrite N2Nat.id.
      - right. split; [lra|now right]. }
    destruct (G S N (fun _ h => h)) as [[A _]|[A B]].
    + unfold ind at 2. destruct (contained wy b (map N.of_nat s)); lra.
    + rewrite Forall_forall in F. destruct (F _ B) as (_ & _ & C). unfold contained. rewrite C. exact A.
Qed.
(** A dataset of all one-byte lines: on average almost half of the mutated lines count as false positives, whatever the filter. *)
Theorem C108_letters wy b : (forall a, a < 128 -> a <> 10 -> a <> 13 -> bf_contains_bytes wy b [a] = Ok true) -> (126 / 256 <= reported wy b 1)%R.
Proof.
  intro H. set (S := map (fun a => [a]) (filter (fun a => negb (a =? 10) && negb (a =? 13)) (map N.of_nat (seq 0 128)))).
  replace 126%R with (INR (length S)) by (rewrite INR_IZR_INZ; vm_compute; reflexivity). replace 256%R with (256 ^ 1)%R by ring. apply C108_entries.
  - unfold S. apply FinFun.Injective_map_NoDup; [intros x y E; now injection E|]. apply NoDup_filter, FinFun.Injective_map_NoDup; [intros x y E; lia|apply seq_NoDup].
  - apply Forall_forall. intros s Hs. unfold S in Hs. apply in_map_iff in Hs as (a & <- & Ha). apply filter_In in Ha as [Ha Q]. apply in_map_iff in Ha as (i & <- & Hi). apply in_seq in Hi.
    apply andb_prop in Q as [Q1 Q2]. apply negb_true_iff, N.eqb_neq in Q1, Q2. split; [reflexivity|]. split; [constructor; [lia|constructor]|]. apply H; lia || assumption.
Qed.
(** Five conditions on two lines; a filter holding one of them. *)
Definition ea : v1 := fst (v1_insert_bytes Debug e0 [97]).
Definition two : list (list byte) := [[97]; da].
Example C108_example : Forall bytes_ok two /\ bf_contains_bytes (fun _ => 0) (V1 ea) [97] = Ok true /\ printed_percent 4 = 50 /\
  (avg_draws two (fun ds => kept_share (drawn ds) two 4%N) = 51 / 101)%R /\ (/ 256 <= reported (fun _ => 0%N) (V1 ea) 1)%R /\
  mutate_lines (drawn [(49%nat, [3%nat]); (50%nat, [1; 2; 3; 4; 5]%nat)]) 4 0 two = [(true, [98]); (false, da)].
Proof.
  assert (C : bf_contains_bytes (fun _ => 0) (V1 ea) [97] = Ok true) by (vm_compute; reflexivity).
  split; [repeat constructor|]. split; [exact C|]. split; [reflexivity|]. split.
  - rewrite C108_share by (reflexivity || discriminate). change (Z.of_N (printed_percent 4)) with 50%Z. change (Z.of_N (10 * (4 + 1))) with 50%Z. lra.
  - split; [|vm_compute; reflexivity]. pose proof (C108_entries (fun _ => 0) (V1 ea) 1 [[97]]) as E. cbn [length INR pow] in E. rewrite Rmult_1_r in E. unfold Rdiv in E. rewrite Rmult_1_l in E. apply E.
    + repeat constructor. intros [].
    + repeat constructor; exact C.
Qed.
