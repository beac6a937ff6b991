(** Batches of files (slice::chunks). *)
From Coq Require Import Lia.
From Verif Require Import M_Cli P_Base.
Open Scope N_scope.

Lemma chunks_fuel_concat {A} fuel n : forall l : list A, (0 < n)%nat -> (length l <= fuel)%nat -> concat (chunks_fuel fuel n l) = l.
Proof.
  induction fuel as [|fuel IH]; intros l Hn Hl; [destruct l; [reflexivity|cbn in Hl; lia]|]. cbn [chunks_fuel]. destruct l as [|x l]; [reflexivity|]. cbn [concat].
  rewrite IH; [apply firstn_skipn|exact Hn|]. rewrite skipn_length. cbn [length] in *. lia.
Qed.
Lemma chunks_fuel_size {A} fuel n : forall l : list A, (0 < n)%nat -> Forall (fun b => b <> [] /\ (length b <= n)%nat) (chunks_fuel fuel n l).
Proof.
  induction fuel as [|fuel IH]; intros l Hn; [constructor|]. cbn [chunks_fuel]. destruct l as [|x l]; [constructor|]. constructor; [|now apply IH]. split.
  - destruct n; [lia|discriminate].
  - rewrite firstn_length. lia.
Qed.
(** Every chunk but the last is full. *)
Lemma chunks_fuel_count {A} fuel n : forall l : list A, (0 < n)%nat -> (length l <= fuel)%nat ->
  let k := length (chunks_fuel fuel n l) in (length l <= k * n /\ k * n < length l + n)%nat.
Proof.
  induction fuel as [|fuel IH]; intros l Hn Hl; [destruct l; [cbn; lia|cbn in Hl; lia]|]. cbn [chunks_fuel]. destruct l as [|x l]; [cbn; lia|]. cbn [length].
  set (s := skipn n (x :: l)). assert (Ls : length s = (S (length l) - n)%nat) by apply skipn_length. cbn [length] in Hl. specialize (IH s Hn ltac:(lia)). cbn zeta in *. set (k := length (chunks_fuel fuel n s)) in *. clearbody k. destruct k as [|k]; cbn [Nat.mul] in *; [lia|]. nia.
Qed.
Lemma chunks_concat {A} n (l : list A) : n <> 0 -> concat (chunks n l) = l.
Proof. intro H. apply chunks_fuel_concat; [lia|reflexivity]. Qed.
Lemma chunks_count {A} n (l : list A) : n <> 0 -> len l <= len (chunks n l) * n < len l + n.
Proof. intro H. destruct (chunks_fuel_count (length l) (N.to_nat n) l ltac:(lia) (le_n _)) as [A1 A2]. unfold len, chunks. lia. Qed.
Lemma batches_concat {A} (l : list A) jobs : concat (batches l jobs) = l.
Proof. apply chunks_concat. lia. Qed.
Lemma batches_In {A} (l : list A) jobs b x : In b (batches l jobs) -> In x b -> In x l.
Proof. intros Hb Hx. rewrite <- (batches_concat l jobs). apply in_concat. eauto. Qed.
Lemma batches_cover {A} (l : list A) jobs x : In x l -> exists b, In b (batches l jobs) /\ In x b.
Proof. intro H. rewrite <- (batches_concat l jobs) in H. apply in_concat in H as (b & Hb & Hx). eauto. Qed.
Lemma batches_nonempty {A} (l : list A) jobs b : In b (batches l jobs) -> b <> [].
Proof. intro H. unfold batches, chunks in H. pose proof (chunks_fuel_size (length l) (N.to_nat (N.max (len l / jobs) 1)) l ltac:(lia)) as F. rewrite Forall_forall in F. apply (F b H). Qed.
Lemma batches_nil {A} (l : list A) jobs : batches l jobs = [] <-> l = [].
Proof. split; intro H; [now rewrite <- (batches_concat l jobs), H|now rewrite H]. Qed.
Lemma batches_size {A} (l : list A) jobs b : In b (batches l jobs) -> len b <= N.max (len l / jobs) 1.
Proof. intro H. unfold batches, chunks in H. pose proof (chunks_fuel_size (length l) (N.to_nat (N.max (len l / jobs) 1)) l ltac:(lia)) as F. rewrite Forall_forall in F. destruct (F b H) as [_ Q]. set (q := len l / jobs) in *. clearbody q. unfold len. lia. Qed.
Lemma optimal_jobs_pos par jobs : optimal_jobs par jobs <> 0.
Proof. unfold optimal_jobs. destruct (N.eqb_spec jobs 0) as [E|E]; [destruct par; lia|exact E]. Qed.
(** Fewer than twice the jobs, and exactly the jobs when they divide the list. *)
Lemma batches_count {A} (l : list A) jobs : jobs <> 0 -> len (batches l jobs) < 2 * jobs /\ (len l <= jobs -> len (batches l jobs) = len l) /\
  (len l mod jobs = 0 -> l <> [] -> len (batches l jobs) = jobs) /\ (jobs <= len l -> jobs <= len (batches l jobs)).
Proof.
  intro J. unfold batches. set (n := N.max (len l / jobs) 1). assert (Hn : n <> 0) by lia. pose proof (chunks_count n l Hn) as C. set (k := len (chunks n l)) in *.
  pose proof (N.div_mod (len l) jobs J) as D. pose proof (N.mod_lt (len l) jobs J) as M. set (q := len l / jobs) in *. set (r := len l mod jobs) in *. clearbody q r k. split; [|split; [|split]].
  - destruct (N.eq_dec q 0) as [Q|Q].
    + assert (n = 1) by lia. subst n. rewrite Q in *. nia.
    + assert (n = q) by lia. clearbody n. subst n. nia.
  - intro Hl. assert (n = 1) by (destruct (N.eq_dec q 0); [lia|assert (q = 1) by nia; lia]). clearbody n. subst n. lia.
  - intros R Ne. rewrite R in *. assert (Lp : len l <> 0) by (destruct l; [contradiction|rewrite len_cons; lia]). assert (Q : q <> 0) by (intro Q; rewrite Q in *; lia). assert (n = q) by lia. clearbody n. subst n. nia.
  - intro Hl. assert (Q : q <> 0) by (intro Q; rewrite Q in *; lia). assert (n = q) by lia. clearbody n. subst n. nia.
Qed.
