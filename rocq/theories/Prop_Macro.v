(** The [bloom!] macro: a filter built from a literal list of values (C71). *)
From Coq Require Import Lia.
From Verif Require Import M_Bloom M_RefLibm Spec_Bits Spec_Hash Spec_V2 Spec_V2Hist Spec_V1 Spec_Bloom Spec_Libm P_Base P_V2Codec P_V2Make P_V1Codec P_V2Props P_V1Hist P_Codec P_Bloom P_Geom P_Create
  Prop_V1 Prop_V2 Prop_Bloom Prop_Size Ex_Base Ex_V1.
Open Scope N_scope.

Lemma bf_reinsert pr wy L f K d : bf_hist wy L f K -> K d -> bf_insert_bytes pr wy f d = (f, Ok false).
Proof.
  intros H Kd. destruct (bf_hist_inv _ _ _ _ H) as [A _]. destruct f as [f|f]; destruct A as (K' & A & B); cbn [bf_insert_bytes].
  - now rewrite (C07_v1_idempotent pr L f K' d A (B d Kd)).
  - pose proof (C07_v2_idempotent pr wy L f K' (KSlice d) A (B d Kd)) as Q. change (v2_insert_bytes pr wy f d) with (v2_insert pr wy f (KSlice d)). now rewrite Q.
Qed.
(** As many different values as there is room for fit, however often each of them is repeated. *)
Lemma inserts_fit_distinct pr wy L ds : forall f K u, bf_hist wy L f K -> bf_usable f -> Forall bytes_ok ds -> bf_capacity f < two64 ->
  (forall d, In d ds -> K d \/ In d u) -> bf_count_estimate f + len u <= bf_capacity f -> exists g, inserts pr wy f ds g /\ bf_count_estimate g <= bf_count_estimate f + len u.
Proof.
  induction ds as [|d ds IH]; intros f K u Hh U B C Cov H; [exists f; split; [constructor|lia]|]. inversion B as [|? ? Bd Bds]; subst.
  assert (Old : K d -> exists g, inserts pr wy f (d :: ds) g /\ bf_count_estimate g <= bf_count_estimate f + len u).
  { intro Kd. pose proof (bf_reinsert pr wy L f K d Hh Kd) as E. destruct (IH f K u Hh U Bds C) as (g & I & Q); [intros; apply Cov; now right|exact H|]. exists g. split; [econstructor; eauto|exact Q]. }
  destruct (Cov d (or_introl eq_refl)) as [Kd|Ud]; [exact (Old Kd)|].
  apply in_split in Ud as (u1 & u2 & ->). assert (Lu : len (u1 ++ d :: u2) = len (u1 ++ u2) + 1). { unfold len. rewrite !app_length. cbn [length]. lia. }
  pose proof (bf_hist_wf _ _ _ _ Hh) as W. destruct (bf_insert_bytes pr wy f d) as [g r] eqn:E. pose proof (bf_insert_sem _ _ _ _ _ _ W Bd E) as S. pose proof (ib_cases _ _ _ _ _ _ S) as Kc. destruct r as [b|e|].
  - destruct Kc as (_ & _ & Kc & _). assert (Cg : bf_count_estimate g <= bf_count_estimate f + 1).
    { rewrite Kc. destruct b; [|lia]. rewrite w64_id by (unfold two64 in *; lia). lia. }
    pose proof (bf_frame_capacity _ _ (ib_frame _ _ _ _ _ _ S)) as Q.
    destruct (IH g (fun x => x = d \/ K x) (u1 ++ u2)) as (h & I & Qh); [econstructor; eauto|exact (bf_frame_usable _ _ (ib_frame _ _ _ _ _ _ S) U)|exact Bds|now rewrite Q| |rewrite Q; lia|].
    + intros x Hx. destruct (Cov x (or_intror Hx)) as [Kx|Ux]; [left; now right|]. apply in_app_or in Ux as [Ux|[ <- |Ux]]; [right; apply in_or_app; now left|left; now left|right; apply in_or_app; now right].
    + exists h. split; [econstructor; eauto|lia].
  - destruct Kc as (_ & _ & [Z|Z]); lia.
  - exfalso. pose proof (bf_insert_no_panic pr wy f d W U Bd) as Q. rewrite E in Q. apply Q; [|reflexivity]. right. unfold u64_max, two64 in *. lia.
Qed.
Lemma insert_all_iff pr wy ds : forall f g, bloom_insert_all pr wy f ds = Ok g <-> inserts pr wy f ds g.
Proof.
  induction ds as [|d ds IH]; intros f g; cbn [bloom_insert_all].
  - split; [intro E; apply Ok_inj in E; subst; constructor|intro I; inversion I; reflexivity].
  - destruct (bf_insert_bytes pr wy f d) as [f' r] eqn:E. split.
    + destruct r as [b|e|]; cbn; try discriminate. intro Q. apply IH in Q. econstructor; eauto.
    + intro I. inversion I as [|? ? g' b ? ? E' I']; subst. rewrite E in E'. apply pair_inj in E' as [-> ->]. cbn. now apply IH.
Qed.
Lemma insert_all_no_err pr wy ds e : forall f, bloom_insert_all pr wy f ds <> Err e.
Proof. induction ds as [|d ds IH]; intro f; cbn [bloom_insert_all]; [discriminate|]. destruct (bf_insert_bytes pr wy f d) as [f' [b|e'|]]; cbn; [apply IH|discriminate|discriminate]. Qed.
Lemma with_capacity_make pr L cap p : bf_with_capacity pr L cap p = bf_with_version_capacity_opt pr L 2 cap p ONone.
Proof. reflexivity. Qed.

(** * C71 The bloom! macro *)
(** What it produces is a version 2 filter of the capacity and rate asked for that contains every listed value. *)
Theorem C71_macro_result pr wy L cap p ds f : cap < two64 -> p < two64 -> Forall bytes_ok ds -> bloom_macro pr wy L cap p ds = Ok f ->
  fpp_in_range p = true /\ bf_version f = 2 /\ bf_capacity f = cap /\ bf_fpp f = p /\ bf_count_estimate f <= len ds /\ bf_count_estimate f <= cap /\
  (forall d, In d ds -> bf_contains_bytes wy f d = Ok true).
Proof.
  intros Hc Hp B E. unfold bloom_macro in E. apply obind_Ok_inv in E as (b & E & I). apply insert_all_iff in I.
  destruct (bf_with_capacity pr L cap p) as [b'|e|] eqn:M; cbn in E; try discriminate. apply Ok_inj in E. subst b'.
  destruct (proj2 (proj2 (proj2 (proj2 (proj2 (proj2 (proj2 (proj2 (C52_parameters pr L 2 cap p 0)))))))) b M) as (R & V & Ca & F & Cn).
  rewrite with_capacity_make in M. pose proof (bh_make wy L pr 2 cap p ONone b Hc Hp M) as Hh. pose proof (bf_hist_wf _ _ _ _ Hh) as W.
  assert (HB : bf_has_bits b) by (destruct b; [apply bf_make_inv in M as [M _]; discriminate|exact Logic.I]).
  assert (G : forall ds f g, Forall bytes_ok ds -> bf_wf f -> inserts pr wy f ds g -> bf_capacity f < two64 -> bf_count_estimate f <= bf_capacity f ->
            bf_version g = bf_version f /\ bf_capacity g = bf_capacity f /\ bf_fpp g = bf_fpp f /\ bf_count_estimate g <= bf_count_estimate f + len ds /\ bf_count_estimate g <= bf_capacity f).
  { clear. intro ds. induction ds as [|d ds IH]; intros f g B W I C Cn; inversion I as [|? ? g' b ? ? E' I']; subst; [auto with arith; repeat (split; [reflexivity|]); unfold len; cbn; lia|].
    inversion B; subst. pose proof (bf_insert_sem _ _ _ _ _ _ W H1 E') as S. pose proof (ib_cases _ _ _ _ _ _ S) as (_ & _ & Kc & Kf & _).
    pose proof (bf_frame_capacity _ _ (ib_frame _ _ _ _ _ _ S)) as Q.
    assert (Cg : bf_count_estimate g' <= bf_count_estimate f + 1 /\ bf_count_estimate g' <= bf_capacity f).
    { rewrite Kc. destruct b; [|lia]. specialize (Kf eq_refl). rewrite w64_id by (unfold two64 in *; lia). lia. }
    destruct (IH g' g H2 (ib_wf _ _ _ _ _ _ S) I') as (A1 & A2 & A3 & A4 & A5); [now rewrite Q|rewrite Q; lia|].
    assert (V : bf_version g' = bf_version f /\ bf_fpp g' = bf_fpp f).
    { pose proof (ib_frame _ _ _ _ _ _ S) as Fr. destruct f, g'; cbn in Fr; try contradiction; destruct Fr as (F1 & F2 & F3); cbn; intuition congruence. }
    destruct V as [V1' V2']. rewrite len_cons. rewrite A1, A2, A3, Q in *. repeat split; try assumption; lia. }
  destruct (G ds b f B W I) as (A1 & A2 & A3 & A4 & A5); [now rewrite Ca|lia|]. split; [exact R|]. split; [congruence|]. split; [congruence|]. split; [congruence|]. split; [lia|]. split; [lia|].
  intros d Hd. exact (inserts_contains _ _ _ _ _ _ W B HB I Hd).
Qed.
Print Assumptions C71_macro_result.
(** It succeeds whenever the listed values, repetitions not counted, fit the capacity. *)
Theorem C71_macro_ok pr wy L cap p ds u : libm_ln2_sq L -> libm_ln_range L -> fpp_in_range p = true -> p < two64 -> cap < 9007199254740992 -> Forall bytes_ok ds ->
  (forall d, In d ds -> In d u) -> len u <= cap -> exists f, bloom_macro pr wy L cap p ds = Ok f /\ bf_count_estimate f <= len u.
Proof.
  intros A1 A2 R Hp Hc B Cov Hu. destruct (make_succeeds pr L cap p ONone A1 A2 R Hc) as (b & M). assert (Hc' : cap < two64) by (unfold two64; lia).
  assert (M' : bf_with_version_capacity_opt pr L 2 cap p ONone = Ok (V2 b)) by (cbn; now rewrite M).
  destruct (fresh_facts wy _ _ _ _ _ _ _ Hc' Hp M') as (W & _ & Ca & Cn & _). pose proof (fresh_usable _ _ _ _ _ _ _ A1 A2 Hc' M') as U.
  destruct (inserts_fit_distinct pr wy L ds (V2 b) (fun _ => False) u (bh_make wy L pr 2 cap p ONone _ Hc' Hp M') U B) as (g & I & Q); [now rewrite Ca|intros d Hd; right; exact (Cov d Hd)|rewrite Ca, Cn; lia|].
  exists g. unfold bloom_macro. rewrite with_capacity_make, M'. cbn [unwrap obind]. split; [now apply insert_all_iff|rewrite Cn in Q; exact Q].
Qed.
Print Assumptions C71_macro_ok.
(** A rate outside the accepted range panics, and errors never come back as values. *)
Theorem C71_macro_panics pr wy L cap p ds : (fpp_in_range p = false -> bloom_macro pr wy L cap p ds = Panic) /\ forall e, bloom_macro pr wy L cap p ds <> Err e.
Proof.
  split.
  - intro R. unfold bloom_macro, bf_with_capacity, v2_with_capacity, v2_make. now rewrite R.
  - intros e. unfold bloom_macro. destruct (bf_with_capacity pr L cap p) as [b|e'|]; cbn; [apply insert_all_no_err|discriminate|discriminate].
Qed.
Print Assumptions C71_macro_panics.
(** Three values, one of them twice, in a filter for two: the third different value panics; without it the macro succeeds. *)
Example C71_example : let k (n : N) := [n] in
  bloom_macro Release ex_wy ref_libm 2 p001 [k 1; k 2; k 1; k 3] = Panic /\
  (exists f, bloom_macro Release ex_wy ref_libm 2 p001 [k 1; k 2; k 1] = Ok f /\ bf_count_estimate f = 2) /\ bloom_macro Debug ex_wy ref_libm 2 0 [] = Panic.
Proof. split; [vm_compute; reflexivity|]. split; [eexists; split; vm_compute; reflexivity|vm_compute; reflexivity]. Qed.
