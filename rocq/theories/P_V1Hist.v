(** v1 histories: every reachable filter is well formed, holds the values it must hold, and exactly the bits it should. *)
From Coq Require Import Lia.
From Verif Require Import M_V1 Spec_Bits Spec_Hash Spec_V2 Spec_V1 P_Base P_BitSet P_Hash P_V1 P_IO P_V2Codec P_V2Make P_V1Size P_V1Codec P_Fpp.
Open Scope N_scope.

(** The part of [v1_present] that insertion establishes even in a filter without any bit. *)
Definition v1_held (f : v1) (d : list byte) : Prop :=
  in_range64 (v1_bitset f) (v1_positions f d) /\ (v1_n_hash f <> 0 -> v1_bit_size f <> 0) /\ v1_covered f d = true.
Definition v1_le (f g : v1) : Prop :=
  v1_n_hash g = v1_n_hash f /\ v1_bit_size g = v1_bit_size f /\ len (v1_bitset g) = len (v1_bitset f) /\
  forall i, v1_bit f i = true -> v1_bit g i = true.
Lemma v1_le_positions f g d : v1_le f g -> v1_positions g d = v1_positions f d.
Proof. intros (A&B&_). unfold v1_positions. now rewrite A, B. Qed.
Lemma v1_held_mono f g d : v1_le f g -> v1_held f d -> v1_held g d.
Proof.
  intros F (B & C & D). pose proof (v1_le_positions f g d F) as P. destruct F as (Fn&Fb&Fl&M). unfold v1_held, v1_covered, in_range64. rewrite P, Fn, Fb, Fl.
  split; [exact B|split; [exact C|]]. unfold v1_covered in D. rewrite forallb_forall in D |- *. auto.
Qed.
Lemma v1_present_held f d : v1_present f d <-> v1_bitset f <> [] /\ v1_held f d.
Proof. unfold v1_present, v1_held. tauto. Qed.
Lemma v1_insert_le pr f d g r : v1_insert_effect pr f d g r -> v1_le f g.
Proof. intros [F _ _ M _]. destruct F as (_&_&_&A&B&_&C). repeat split; auto. Qed.
Lemma v1_insert_held pr f d g b : v1_insert_effect pr f d g (Ok b) -> v1_held g d.
Proof.
  intros [F _ Wg M (C & R & NB & _ & _ & Bt & _)].
  pose proof (v1_frame_positions f g d F) as P. destruct F as (_&_&_&Fn&Fb&_&Fl). unfold v1_held, v1_covered, in_range64. rewrite P, Fn, Fb, Fl.
  split; [exact R|split; [exact NB|]].
  apply forallb_forall. intros i Hi. rewrite Bt. apply orb_true_intro. right. apply existsb_exists. exists i. split; auto. apply N.eqb_refl.
Qed.
Lemma v1_union_le L a b g : v1_same_shape a b -> v1_union_effect L a b g -> v1_le a g /\ v1_le b g.
Proof.
  intros (_&_&_&S1&S2&S3) [F _ _ B _]. destruct F as (_&_&_&A1&A2&_&A3). split.
  - repeat split; auto. intros i H. rewrite B, H. reflexivity.
  - repeat split; try congruence. intros i H. rewrite B, H. apply orb_true_r.
Qed.

Theorem v1_hist_inv L f K : v1_hist L f K -> v1_wf f /\ forall d, K d -> v1_held f d.
Proof.
  induction 1.
  - split; [|contradiction]. apply (v1_created_wf L cap fpp); auto. now apply v1_make_created.
  - split; [|contradiction]. eapply v1_load_wf; eauto.
  - destruct IHv1_hist as [W P]. apply v1_insert_sem in H0; auto. split; [apply (i1_wf _ _ _ _ _ H0)|].
    intros x [->|Hx]; [eapply v1_insert_held; eauto|]. eapply v1_held_mono; [eapply v1_insert_le; eauto|auto].
  - destruct IHv1_hist as [W P]. apply v1_insert_sem in H0; auto. split; [apply (i1_wf _ _ _ _ _ H0)|].
    intros x Hx. eapply v1_held_mono; [eapply v1_insert_le; eauto|auto].
  - split; [|contradiction]. apply v1_clear_wf. apply IHv1_hist.
  - destruct IHv1_hist1 as [Wa Pa], IHv1_hist2 as [Wb Pb].
    destruct (v1_union_sem _ _ _ _ _ Wa Wb H1) as [(_ & _ & ?)|(S & _ & M)]; [discriminate|].
    split; [apply (u1_wf _ _ _ _ M)|]. destruct (v1_union_le _ _ _ _ S M) as [La Lb].
    intros x [Hx|Hx]; [apply (v1_held_mono a)|apply (v1_held_mono b)]; auto.
  - destruct IHv1_hist1 as [Wa Pa], IHv1_hist2 as [Wb Pb].
    destruct (v1_union_sem _ _ _ _ _ Wa Wb H1) as [(_ & -> & ?)|(S & -> & M)]; [auto|congruence].
  - destruct IHv1_hist as [W P]. split; [now apply v1_set_data_wf|]. exact P.
  - destruct IHv1_hist as [W P]. rewrite v1_roundtrip in H0 by auto. apply Ok_inj in H0. subst g. split; [now apply v1_canon_wf|]. exact P.
Qed.

Theorem v1_built_inv L f B : v1_built L f B -> v1_wf f /\ forall i, v1_bit f i = true <-> B i.
Proof.
  induction 1.
  - apply v1_make_created in H1. split; [apply (v1_created_wf L cap fpp); auto|]. intro i. rewrite (v1_created_bits _ _ _ _ _ H1). intuition discriminate.
  - split; [eapply v1_load_wf; eauto|]. reflexivity.
  - destruct IHv1_built as [W P]. apply v1_insert_sem in H0 as [Fr _ Wg _ (_ & _ & _ & _ & _ & Bt & _)]; auto. split; auto.
    intro i. rewrite Bt, orb_true_iff, P, existsb_exists. split; (intros [?|?]; [now left|right]).
    + destruct H0 as (x & ? & E). apply N.eqb_eq in E. now subst.
    + exists i. split; auto. apply N.eqb_refl.
  - destruct IHv1_built as [W P]. apply v1_insert_sem in H0 as [_ _ _ _ (_ & -> & _)]; auto.
  - destruct IHv1_built as [W P]. split; [now apply v1_clear_wf|]. intro i. rewrite v1_clear_bit. intuition discriminate.
  - destruct IHv1_built1 as [Wa Pa], IHv1_built2 as [Wb Pb].
    destruct (v1_union_sem _ _ _ _ _ Wa Wb H1) as [(_ & _ & ?)|(S & _ & M)]; [discriminate|]. split; [apply (u1_wf _ _ _ _ M)|].
    intro i. rewrite (u1_bits _ _ _ _ M), orb_true_iff, Pa, Pb. reflexivity.
  - destruct IHv1_built1 as [Wa Pa], IHv1_built2 as [Wb Pb].
    destruct (v1_union_sem _ _ _ _ _ Wa Wb H1) as [(_ & -> & ?)|(S & ? & M)]; [auto|discriminate].
  - destruct IHv1_built as [W P]. split; [now apply v1_set_data_wf|]. exact P.
  - destruct IHv1_built as [W P]. rewrite v1_roundtrip in H0 by auto. apply Ok_inj in H0. subst g. split; [now apply v1_canon_wf|]. exact P.
Qed.

Theorem v1_kept_inv L f K : v1_kept L f K ->
  v1_wf f /\ v1_usable f /\ forall i, v1_bit f i = true <-> exists x, K x /\ In i (v1_positions f x).
Proof.
  induction 1.
  - apply v1_make_created in H1. split; [apply (v1_created_wf L cap fpp); auto|]. split; [eapply v1_created_usable; eauto|].
    intro i. rewrite (v1_created_bits _ _ _ _ _ H1). split; [discriminate|intros (x & [] & _)].
  - destruct IHv1_kept as (W & U & P). apply v1_insert_sem in H0 as [Fr _ Wg _ (_ & _ & _ & _ & _ & Bt & _)]; auto. split; auto.
    split; [eapply v1_usable_frame; eauto|].
    intro i. rewrite Bt, orb_true_iff, P, existsb_exists. setoid_rewrite (fun x => v1_frame_positions f g x Fr). split.
    + intros [(x & ? & ?)|(x & ? & E)]; [eauto|]. apply N.eqb_eq in E. subst x. eauto.
    + intros (x & [->|Hx] & Hi); [right|left; eauto]. exists i. split; auto. apply N.eqb_refl.
  - destruct IHv1_kept as (W & P). apply v1_insert_sem in H0 as [_ _ _ _ (_ & -> & _)]; auto.
  - destruct IHv1_kept as (W & U & P). split; [now apply v1_clear_wf|]. split; [eapply v1_usable_frame; eauto; apply v1_clear_frame|].
    intro i. rewrite v1_clear_bit. split; [discriminate|intros (x & [] & _)].
  - destruct IHv1_kept1 as (Wa & Ua & Pa), IHv1_kept2 as (Wb & Ub & Pb).
    destruct (v1_union_sem _ _ _ _ _ Wa Wb H1) as [(_ & _ & ?)|(S & _ & M)]; [discriminate|]. split; [apply (u1_wf _ _ _ _ M)|].
    split; [eapply v1_usable_frame; [apply (u1_frame _ _ _ _ M)|auto]|].
    destruct (v1_union_le _ _ _ _ S M) as [La Lb]. intro i. rewrite (u1_bits _ _ _ _ M), orb_true_iff, Pa, Pb. split.
    + intros [(x & ? & ?)|(x & ? & ?)]; exists x; (split; [tauto|]).
      * now rewrite (v1_le_positions a g x La). * now rewrite (v1_le_positions b g x Lb).
    + intros (x & [?|?] & Hi); [left|right]; exists x; (split; [auto|]).
      * now rewrite (v1_le_positions a g x La) in Hi. * now rewrite (v1_le_positions b g x Lb) in Hi.
  - destruct IHv1_kept as (W & U & P). split; [now apply v1_set_data_wf|]. split; [exact U|exact P].
  - destruct IHv1_kept as (W & U & P). rewrite v1_roundtrip in H0 by auto. apply Ok_inj in H0. subst g. split; [now apply v1_canon_wf|]. split; [exact U|exact P].
Qed.

(** ** consequences *)
Lemma v1_hist_wf L f K : v1_hist L f K -> v1_wf f.
Proof. intro H. now apply v1_hist_inv in H. Qed.
Lemma v1_reach_wf L f : v1_reach L f -> v1_wf f.
Proof. intros [K H]. eapply v1_hist_wf; eauto. Qed.
Lemma v1_hist_contains L f K d : v1_hist L f K -> K d -> v1_bit_size f <> 0 -> v1_contains_bytes f d = Ok true.
Proof.
  intros H Hd N0. apply v1_hist_inv in H as [W P]. apply v1_contains_true; auto. apply v1_present_held. split; auto.
  intro Z. apply N0. now apply v1_nil_iff.
Qed.
Lemma v1_present_insert pr f d : v1_wf f -> v1_capacity f <> 0 -> v1_held f d -> v1_insert_bytes pr f d = (f, Ok false).
Proof.
  intros W C (R & NB & CV). destruct (v1_insert_bytes pr f d) as [g r] eqn:E. apply v1_insert_sem in E as [F D Wg M Cs]; auto. destruct r as [b|e|].
  - destruct Cs as (_ & _ & _ & -> & _ & _ & G & _). rewrite CV in *. cbn [negb] in *. now rewrite (G eq_refl).
  - destruct Cs as (_ & _ & [?|[_ ?]]); congruence.
  - destruct Cs. auto.
Qed.
Lemma v1_hist_reinsert pr L f K d : v1_hist L f K -> K d -> v1_capacity f <> 0 -> v1_insert_bytes pr f d = (f, Ok false).
Proof. intros H Hd C. apply v1_hist_inv in H as [W P]. apply v1_present_insert; auto. Qed.
(** An insert can only have answered Ok if the capacity is not 0, and no operation changes the capacity. *)
Lemma v1_hist_capacity L f K d : v1_hist L f K -> K d -> v1_capacity f <> 0.
Proof.
  intros H. revert d. induction H; intros d0 Hd; try contradiction; auto.
  - pose proof (v1_hist_wf _ _ _ H) as W. apply v1_insert_sem in H0 as [F _ _ _ (C & _)]; auto. destruct F as (_ & -> & _). exact C.
  - pose proof (v1_hist_wf _ _ _ H) as W. apply v1_insert_sem in H0 as [F _ _ _ _]; auto. destruct F as (_ & -> & _). eauto.
  - pose proof (v1_hist_wf _ _ _ H) as Wa. pose proof (v1_hist_wf _ _ _ H0) as Wb.
    destruct (v1_union_sem _ _ _ _ _ Wa Wb H1) as [(_ & _ & ?)|(S & _ & M)]; [discriminate|]. destruct (u1_frame _ _ _ _ M) as (_ & -> & _).
    destruct Hd as [Hd|Hd]; [eauto|]. destruct S as (_ & <- & _). eauto.
  - pose proof (v1_hist_wf _ _ _ H) as Wa. pose proof (v1_hist_wf _ _ _ H0) as Wb.
    destruct (v1_union_sem _ _ _ _ _ Wa Wb H1) as [(_ & -> & ?)|(S & ? & M)]; [eauto|congruence].
  - cbn. eauto.
  - rewrite v1_roundtrip in H0 by (eapply v1_hist_wf; eauto). apply Ok_inj in H0. subst g. cbn. eauto.
Qed.

Lemma v1_kept_contains L f K d : v1_kept L f K ->
  (v1_contains_bytes f d = Ok true <->
   v1_bit_size f <> 0 /\ forall i, In i (v1_positions f d) -> exists x, K x /\ In i (v1_positions f x)).
Proof.
  intro H. apply v1_kept_inv in H as (W & U & P). rewrite v1_contains_sem by auto. rewrite <- (v1_nil_iff f W).
  destruct (v1_bitset f) eqn:B.
  - split; [discriminate|]. intros []. congruence.
  - transitivity (v1_covered f d = true); [split; [apply Ok_inj|now intros ->]|]. unfold v1_covered. rewrite forallb_forall. setoid_rewrite P.
    split; [intro Q; split; [congruence|exact Q]|now intros []].
Qed.
Lemma v1_fresh_contains L cap fpp f d : cap < two64 -> fpp < two64 -> v1_with_capacity L cap fpp = Ok f ->
  v1_n_hash f <> 0 \/ v1_bit_size f = 0 -> v1_contains_bytes f d = Ok false.
Proof.
  intros Hc Hf E NH. apply v1_make_created in E as C. pose proof (v1_created_wf _ _ _ _ Hc Hf C) as W.
  rewrite v1_contains_sem by (auto; eapply v1_created_usable; eauto). destruct (v1_bitset f) eqn:B; auto. f_equal.
  destruct NH as [NH|NH]; [|apply v1_nil_iff in NH; auto; congruence].
  unfold v1_covered. destruct (v1_positions f d) as [|i tl] eqn:P; [destruct NH; now apply positions_nil in P|].
  cbn [forallb]. now rewrite (v1_created_bits _ _ _ _ i C).
Qed.
Lemma v1_clear_contains f d : v1_wf f -> v1_usable f -> v1_n_hash f <> 0 -> v1_contains_bytes (v1_clear f) d = Ok false.
Proof.
  intros W U NH. rewrite v1_contains_sem; [|now apply v1_clear_wf|eapply v1_usable_frame; eauto; apply v1_clear_frame].
  destruct (v1_bitset (v1_clear f)); auto. f_equal. unfold v1_covered. rewrite (v1_frame_positions f) by apply v1_clear_frame.
  destruct (v1_positions f d) as [|i tl] eqn:P; [destruct NH; now apply positions_nil in P|]. cbn [forallb]. now rewrite v1_clear_bit.
Qed.

(** The boolean of insert. *)
Lemma v1_insert_bool pr f d g b : v1_wf f -> v1_bit_size f <> 0 -> v1_insert_bytes pr f d = (g, Ok b) -> v1_contains_bytes f d = Ok (negb b).
Proof.
  intros W B0 E. apply v1_insert_sem in E as [_ _ _ _ (_ & R & NB & -> & _)]; auto. rewrite negb_involutive.
  unfold v1_contains_bytes. destruct (v1_bitset f) eqn:B; [apply v1_nil_iff in B; auto; contradiction|]. rewrite <- B in *.
  rewrite fp_list_good by auto. now rewrite v1_contains_loop_spec.
Qed.

(** ** solo histories: counting *)
Lemma v1_solo_inv f0 f n : v1_wf f0 -> v1_flags f0 = flags_new 1 -> v1_count f0 = 0 -> v1_solo f0 f n ->
  v1_wf f /\ v1_same_frame f0 f /\ v1_count f = n /\ n <= v1_capacity f0.
Proof.
  intros W0 R0 C0. induction 1.
  - split; auto. split; [apply v1_frame_refl|]. split; auto. lia.
  - destruct IHv1_solo as (W & F & C & Le). apply v1_insert_sem in H0 as [Fr _ Wg _ (_ & _ & _ & _ & Lt & _ & G & I)]; auto. split; auto.
    split; [eapply v1_frame_trans; eauto|]. destruct b.
    + rewrite I by auto. specialize (Lt eq_refl). destruct F as (_ & Fc & _). split; lia.
    + rewrite G by auto. auto.
  - destruct IHv1_solo as (W & F & C & Le). apply v1_insert_sem in H0 as [_ _ _ _ (_ & -> & _)]; auto.
  - destruct IHv1_solo as (W & F & C & Le). split; [now apply v1_clear_wf|]. split; [eapply v1_frame_trans; eauto; apply v1_clear_frame|]. split; [reflexivity|lia].
  - destruct IHv1_solo as (W & F & C & Le). split; [now apply v1_set_data_wf|]. split; auto.
  - destruct IHv1_solo as (W & F & C & Le). rewrite v1_roundtrip in H0 by auto. apply Ok_inj in H0. subst g.
    rewrite v1_canon_id by (destruct F; congruence). auto.
Qed.
Lemma v1_solo_insert pr f0 f n d g r : v1_wf f0 -> v1_usable f0 -> v1_flags f0 = flags_new 1 -> v1_count f0 = 0 -> v1_solo f0 f n ->
  v1_insert_bytes pr f d = (g, r) ->
  r <> Panic /\ (n < v1_capacity f -> exists b, r = Ok b) /\
  (v1_capacity f <> 0 -> n = v1_capacity f -> (r = Err TooManyEntries <-> v1_covered f d = false)).
Proof.
  intros W0 U0 R0 C0 S E. destruct (v1_solo_inv _ _ _ W0 R0 C0 S) as (W & F & C & Le).
  pose proof (v1_insert_usable _ _ _ _ _ W (v1_usable_frame _ _ F U0) E) as NP. split; auto.
  apply v1_insert_sem in E as [Fr _ Wg _ Cs]; auto. destruct r as [b|e|]; [| |congruence].
  - destruct Cs as (Cz & _ & _ & -> & Lt & _). split; [eauto|]. intros _ N. split; [discriminate|]. intro CV. rewrite CV in Lt. specialize (Lt eq_refl). lia.
  - destruct Cs as (-> & _ & [Z|[Le' CV]]); (split; [intro; lia|]); intros; try contradiction. split; auto.
Qed.
Lemma v1_solo_clear_fresh L cap fpp f0 f n : cap < two64 -> fpp < two64 -> v1_with_capacity L cap fpp = Ok f0 ->
  v1_solo f0 f n -> v1_clear f = v1_set_data f0 (v1_data f).
Proof.
  intros Hc Hf E S. apply v1_make_created in E as C. pose proof (v1_created_wf _ _ _ _ Hc Hf C) as W0.
  destruct (v1_solo_inv _ _ _ W0 (c1_flags _ _ _ _ C) (c1_count _ _ _ _ C) S) as (W & F & _). destruct F as (F1 & F2 & F3 & F4 & F5 & F6 & F7).
  assert (Eb : map (fun _ => 0) (v1_bitset f) = v1_bitset f0).
  { rewrite (c1_bits _ _ _ _ C). rewrite (c1_bits _ _ _ _ C), len_repeat, N2Nat.id in F7. apply len_toN in F7. rewrite <- F7.
    clear. induction (v1_bitset f); cbn; congruence. }
  unfold v1_clear, v1_set_bits, v1_set_data. rewrite F1, F2, F3, F4, F5, F6, Eb. destruct f0. cbn in *. rewrite (c1_count _ _ _ _ C) || idtac.
  f_equal. symmetry. exact (c1_count _ _ _ _ C).
Qed.
