(** v2 histories: every reachable filter is well formed, holds the keys it must hold, and exactly the bits it should. *)
From Coq Require Import Lia.
From Verif Require Import M_V2 Spec_Bits Spec_Hash Spec_V2 Spec_V2File Spec_V2Hist P_Base P_BitSet P_Hash P_V2 P_V2Sem P_IO P_V2Codec P_V2Make P_V2Merge P_Fpp P_Float.
Open Scope N_scope.

Lemma file_cache_le content f cb : v2_file content f cb -> len (v2_index_cache f) <= len content.
Proof. intro F. rewrite (vf_bytes _ _ _ F). unfold v2_image. rewrite !len_app. lia. Qed.
Lemma load_wf pr content f : bytes_ok content -> file_size_ok content -> v2_from_reader pr content = Ok f -> v2_wf f.
Proof.
  intros Hb Hs E. destruct (v2_load_sound _ _ _ Hb E) as [cb F]. pose proof (file_bytes _ _ _ Hb F) as (Wr & Wc & Wk & Wd).
  pose proof (file_cache_le _ _ _ F) as LC. destruct F.
  assert (C8 : 8 * len (v2_index_cache f) < two64) by (unfold file_size_ok in Hs; lia).
  constructor; auto.
  - split; auto.
  - apply Forall_forall. intros b Hin. rewrite Forall_forall in vf_buckets, Wk. auto.
  - rewrite vf_cache in *. now apply byte_cap_idem.
Qed.

Lemma key_init wy k : key_ok k -> it_is_init (v2_build_index_iter wy k) = true /\ it_h1 (v2_build_index_iter wy k) < two64.
Proof. intro H. split. reflexivity. rewrite build_h1. now apply hash_pop_lt. Qed.
Lemma v2_insert_any pr wy f k g r : v2_wf f -> key_ok k -> v2_insert pr wy f k = (g, r) ->
  v2_wf g /\ v2_le f g /\ v2_data g = v2_data f /\ (forall b, r = Ok b -> v2_present wy g (hash_pop wy k)) /\ (forall e, r = Err e -> g = f).
Proof.
  intros W Hk E. destruct (key_init wy k Hk) as [Hi Hh]. apply v2_insert_iter_any in E; auto.
Qed.

Lemma canon_wf f : v2_wf f -> v2_wf (v2_canon f).
Proof. intros []. constructor; auto. split; [reflexivity|]. repeat constructor. Qed.
Lemma canon_present wy f h : v2_present wy (v2_canon f) h <-> v2_present wy f h.
Proof. reflexivity. Qed.

Lemma le_of_or pr L a b g r : v2_wf a -> v2_wf b -> v2_has_same_params a b = true -> v2_merge_effect op_or pr L a b g r -> v2_le a g /\ v2_le b g.
Proof.
  intros Wa Wb S M. destruct M as [F _ _ B C _]. apply same_params_wf in S; auto. split.
  - split; auto. split; intros; [rewrite B|rewrite C]; cbn; now rewrite H.
  - split. eapply frame_trans; [apply frame_sym; eauto|auto].
    split; intros; [rewrite B|rewrite C]; cbn; rewrite H; apply orb_true_r.
Qed.
Lemma and_present wy pr L a b g r h : v2_wf a -> v2_wf b -> v2_has_same_params a b = true -> v2_merge_effect op_and pr L a b g r ->
  (v2_present wy g h <-> v2_present wy a h /\ v2_present wy b h).
Proof.
  intros Wa Wb S M. destruct M as [F _ _ B C _]. apply same_params_wf in S; auto.
  unfold v2_present. rewrite !cache_hit_alt.
  rewrite (frame_cache_empty _ _ F), (frame_cache_empty _ _ S), (frame_cache_of _ _ _ F), (frame_cache_of _ _ _ S), C.
  destruct F as (_ & _ & _ & F1 & _ & F2 & F3 & _). destruct S as (_ & _ & _ & S1 & _ & S2 & S3 & _).
  rewrite F1, F3, S1, S3. cbn [bo_bool op_and].
  unfold v2_covered, v2_positions, v2_bucket_of. rewrite F2, F3, S2, S3.
  set (l := edh_positions _ _ _). set (k := _ mod _).
  assert (Q : forallb (v2_bit g k) l = forallb (v2_bit a k) l && forallb (v2_bit b k) l).
  { rewrite (forallb_ext_in _ (fun i => v2_bit a k i && v2_bit b k i)) by (intros; apply B).
    induction l as [|i l IH]; cbn [forallb]; auto. rewrite IH.
    destruct (v2_bit a k i), (v2_bit b k i), (forallb (v2_bit a k) l), (forallb (v2_bit b k) l); reflexivity. }
  rewrite Q. destruct (bs_is_empty (v2_index_cache a)); cbn [orb]; rewrite ?andb_true_iff; tauto.
Qed.

Theorem v2_hist_inv wy L f K : v2_hist wy L f K -> v2_wf f /\ forall k, K k -> key_ok k /\ v2_present wy f (hash_pop wy k).
Proof.
  induction 1.
  - split; [|contradiction]. eapply created_wf; [exact H|exact H0|]. eapply v2_make_created; eauto.
  - split; [|contradiction]. eapply load_wf; eauto.
  - destruct IHv2_hist as [W P]. destruct (v2_insert_any _ _ _ _ _ _ W H0 H1) as (Wg & Le & _ & Pr & _). split; auto.
    intros x [->|Hx]; [eauto|]. destruct (P x Hx). split; auto. eapply v2_le_present; eauto.
  - destruct IHv2_hist as [W P]. destruct (v2_insert_any _ _ _ _ _ _ W H0 H1) as (Wg & Le & _ & Pr & _). split; auto.
    intros x Hx. destruct (P x Hx). split; auto. eapply v2_le_present; eauto.
  - split; [|contradiction]. apply clear_wf. apply IHv2_hist.
  - destruct IHv2_hist1 as [Wa Pa], IHv2_hist2 as [Wb Pb]. rewrite v2_union_merge_op in H1.
    destruct (v2_merge_sem _ _ _ _ _ _ _ Wa Wb H1) as [(_ & _ & ?)|(S & M)]; [discriminate|].
    split; [apply (me_wf _ _ _ _ _ _ _ M)|]. destruct (le_of_or _ _ _ _ _ _ Wa Wb S M) as [La Lb].
    intros x [Hx|Hx]; [destruct (Pa x Hx)|destruct (Pb x Hx)]; split; auto; [apply (v2_le_present wy a)|apply (v2_le_present wy b)]; auto.
  - destruct IHv2_hist1 as [Wa Pa], IHv2_hist2 as [Wb Pb]. rewrite v2_union_merge_op in H1.
    destruct (v2_merge_sem _ _ _ _ _ _ _ Wa Wb H1) as [(_ & -> & ?)|(S & M)]; auto.
    split; [apply (me_wf _ _ _ _ _ _ _ M)|]. destruct (le_of_or _ _ _ _ _ _ Wa Wb S M) as [La Lb].
    intros x Hx; destruct (Pa x Hx); split; auto; apply (v2_le_present wy a); auto.
  - destruct IHv2_hist1 as [Wa Pa], IHv2_hist2 as [Wb Pb]. rewrite v2_intersection_merge_op in H1.
    destruct (v2_merge_sem _ _ _ _ _ _ _ Wa Wb H1) as [(_ & _ & ?)|(S & M)]; [destruct H2; congruence|].
    split; [apply (me_wf _ _ _ _ _ _ _ M)|]. intros x [Hx Hy]. destruct (Pa x Hx), (Pb x Hy). split; auto.
    eapply and_present; [exact Wa|exact Wb|exact S|exact M|]. auto.
  - destruct IHv2_hist1 as [Wa Pa], IHv2_hist2 as [Wb Pb]. rewrite v2_intersection_merge_op in H1.
    destruct (v2_merge_sem _ _ _ _ _ _ _ Wa Wb H1) as [(_ & -> & ?)|(S & M)]; auto. destruct (me_cases _ _ _ _ _ _ _ M).
  - destruct IHv2_hist as [W P]. split; [now apply set_data_wf|]. exact P.
  - destruct IHv2_hist as [W P]. rewrite v2_roundtrip in H0 by auto. apply Ok_inj in H0. subst g. split; [now apply canon_wf|]. exact P.
Qed.

Theorem v2_built_inv wy L f B C : v2_built wy L f B C ->
  v2_wf f /\ (forall b i, v2_bit f b i = true <-> B b i) /\ (forall i, v2_cbit f i = true <-> C i).
Proof.
  induction 1.
  - apply v2_make_created in H1 as Cr. destruct (created_bits _ _ _ _ Cr) as [B0 C0].
    split; [apply (created_wf cap fpp opt); auto|]. split; intros; [rewrite B0|rewrite C0]; intuition discriminate.
  - split; [eapply load_wf; eauto|]. split; intros; reflexivity.
  - destruct IHv2_built as (W & IB & IC). destruct (key_init wy k H0) as [Hi Hh]. unfold v2_insert in H1.
    destruct (N.eq_dec (v2_capacity f) 0) as [Z|Z]; [rewrite v2_insert_iter_cap0 in H1 by auto; apply pair_inj in H1 as [_ H1]; discriminate|].
    destruct (N.eq_dec (len (v2_buckets f)) 0) as [Y|Y]; [rewrite v2_insert_iter_nobucket in H1 by auto; apply pair_inj in H1 as [_ H1]; discriminate|].
    pose proof (v2_insert_iter_sem _ _ _ _ _ _ W Hi Hh Z Y H1) as [_ _ Wg (_ & _ & (PB & PC) & _)]. rewrite build_h1 in PB, PC.
    split; auto. split.
    + intros b0 i. rewrite PB, orb_true_iff, IB, andb_true_iff, N.eqb_eq, existsb_exists.
      split; (intros [?|[? ?]]; [now left|right; split; auto]). destruct H3 as (x & ? & E). apply N.eqb_eq in E. now subst. exists i. split; auto. apply N.eqb_refl.
    + intros i. rewrite PC, orb_true_iff, IC, andb_true_iff, N.eqb_eq, negb_true_iff. destruct (v2_index_cache f); cbn; intuition congruence.
  - destruct IHv2_built as (W & IB & IC). destruct (v2_insert_any _ _ _ _ _ _ W H0 H1) as (_ & _ & _ & _ & X). rewrite (X e eq_refl). auto.
  - destruct IHv2_built as (W & IB & IC). split; [now apply clear_wf|]. split.
    + intros. rewrite clear_bits. intuition discriminate.
    + exact IC.
  - destruct IHv2_built1 as (Wa & Ba' & Ca'), IHv2_built2 as (Wb & Bb' & Cb'). rewrite v2_union_merge_op in H1.
    destruct (v2_merge_sem _ _ _ _ _ _ _ Wa Wb H1) as [(_ & _ & ?)|(S & M)]; [discriminate|]. destruct M as [_ _ Wg B C _].
    split; auto. split; intros; [rewrite B|rewrite C]; cbn [bo_bool op_or]; rewrite orb_true_iff, ?Ba', ?Bb', ?Ca', ?Cb'; reflexivity.
  - destruct IHv2_built1 as (Wa & Ba' & Ca'), IHv2_built2 as (Wb & Bb' & Cb'). rewrite v2_intersection_merge_op in H1.
    destruct (v2_merge_sem _ _ _ _ _ _ _ Wa Wb H1) as [(_ & _ & ?)|(S & M)]; [discriminate|]. destruct M as [_ _ Wg B C _].
    split; auto. split; intros; [rewrite B|rewrite C]; cbn [bo_bool op_and]; rewrite andb_true_iff, ?Ba', ?Bb', ?Ca', ?Cb'; reflexivity.
  - destruct IHv2_built1 as (Wa & Ba' & Ca'), IHv2_built2 as (Wb & Bb' & Cb').
    rewrite v2_union_merge_op, v2_intersection_merge_op in H1.
    destruct H1 as [H1|H1]; (destruct (v2_merge_sem _ _ _ _ _ _ _ Wa Wb H1) as [(_ & -> & _)|(S & M)]; auto; destruct (me_cases _ _ _ _ _ _ _ M)).
  - destruct IHv2_built as (W & IB & IC). split; [now apply set_data_wf|]. auto.
  - destruct IHv2_built as (W & IB & IC). rewrite v2_roundtrip in H0 by auto. apply Ok_inj in H0. subst g. split; [now apply canon_wf|]. auto.
Qed.

(** Bits of key [x] as seen by filter [f]. *)
Definition key_bit (wy : hasher) (f : v2) (x : key) (b i : N) : Prop :=
  b = v2_bucket_of f (hash_pop wy x) /\ In i (v2_positions wy f (hash_pop wy x)).
Definition key_cbit (wy : hasher) (f : v2) (x : key) (i : N) : Prop :=
  v2_index_cache f <> [] /\ i = v2_cache_of f (hash_pop wy x).
Lemma key_bit_frame wy f g x b i : v2_same_frame f g -> (key_bit wy g x b i <-> key_bit wy f x b i).
Proof. intro F. unfold key_bit. rewrite (frame_bucket_of _ _ _ F), (frame_positions _ _ _ _ F). reflexivity. Qed.
Lemma key_cbit_frame wy f g x i : v2_same_frame f g -> (key_cbit wy g x i <-> key_cbit wy f x i).
Proof. intro F. unfold key_cbit. rewrite (frame_cache_of _ _ _ F), (frame_cache_nil _ _ F). reflexivity. Qed.

Theorem v2_kept_inv wy L f K C : v2_kept wy L f K C ->
  v2_wf f /\ (forall b i, v2_bit f b i = true <-> exists x, K x /\ key_bit wy f x b i) /\
  (forall i, v2_cbit f i = true <-> exists x, C x /\ key_cbit wy f x i).
Proof.
  induction 1.
  - apply v2_make_created in H1 as Cr. destruct (created_bits _ _ _ _ Cr) as [B0 C0].
    split; [apply (created_wf cap fpp opt); auto|]. split; intros; [rewrite B0|rewrite C0]; (split; [discriminate|intros (x & [] & _)]).
  - destruct IHv2_kept as (W & IB & IC). destruct (key_init wy k H0) as [Hi Hh]. unfold v2_insert in H1.
    destruct (N.eq_dec (v2_capacity f) 0) as [Z|Z]; [rewrite v2_insert_iter_cap0 in H1 by auto; apply pair_inj in H1 as [_ H1]; discriminate|].
    destruct (N.eq_dec (len (v2_buckets f)) 0) as [Y|Y]; [rewrite v2_insert_iter_nobucket in H1 by auto; apply pair_inj in H1 as [_ H1]; discriminate|].
    pose proof (v2_insert_iter_sem _ _ _ _ _ _ W Hi Hh Z Y H1) as [Fr _ Wg (_ & _ & (PB & PC) & _)]. rewrite build_h1 in PB, PC.
    split; auto. split.
    + intros b0 i. setoid_rewrite (key_bit_frame wy f g); auto. rewrite PB, orb_true_iff, IB, andb_true_iff, N.eqb_eq, existsb_exists.
      split.
      * intros [(x & Hx & ?)|(-> & j & Hj & E)]; [exists x; auto|]. apply N.eqb_eq in E. subst j. exists k. split; auto. split; auto.
      * intros (x & [->|Hx] & Hb); [|left; eauto]. right. destruct Hb as [-> Hi']. split; auto. exists i. split; auto. apply N.eqb_refl.
    + intros i. setoid_rewrite (key_cbit_frame wy f g); auto. rewrite PC, orb_true_iff, IC, andb_true_iff, N.eqb_eq, negb_true_iff.
      split.
      * intros [(x & Hx & ?)|(E & ->)]; [exists x; auto|]. exists k. split; auto. split; auto. intro X. rewrite X in E. discriminate.
      * intros (x & [->|Hx] & Hb); [|left; eauto]. right. destruct Hb as [E ->]. split; auto. destruct (v2_index_cache f); auto. congruence.
  - destruct IHv2_kept as (W & IB & IC). destruct (v2_insert_any _ _ _ _ _ _ W H0 H1) as (_ & _ & _ & _ & X). rewrite (X e eq_refl). auto.
  - destruct IHv2_kept as (W & IB & IC). split; [now apply clear_wf|]. split.
    + intros. rewrite clear_bits. split; [discriminate|intros (x & [] & _)].
    + intros i. setoid_rewrite (key_cbit_frame wy f (v2_clear f)); [|apply clear_frame]. apply IC.
  - destruct IHv2_kept1 as (Wa & Ba & Ca'), IHv2_kept2 as (Wb & Bb & Cb'). rewrite v2_union_merge_op in H1.
    destruct (v2_merge_sem _ _ _ _ _ _ _ Wa Wb H1) as [(_ & _ & ?)|(S & M)]; [discriminate|]. destruct M as [Fr _ Wg B C _].
    apply same_params_wf in S; auto.
    split; auto. split; intros; [rewrite B|rewrite C]; cbn [bo_bool op_or]; rewrite orb_true_iff.
    + setoid_rewrite (key_bit_frame wy a g); auto. rewrite Ba, Bb. setoid_rewrite (key_bit_frame wy a b); auto. split; [intros [(x & ? & ?)|(x & ? & ?)]; exists x; auto|intros (x & [?|?] & ?); [left|right]; exists x; auto].
    + setoid_rewrite (key_cbit_frame wy a g); auto. rewrite Ca', Cb'. setoid_rewrite (key_cbit_frame wy a b); auto. split; [intros [(x & ? & ?)|(x & ? & ?)]; exists x; auto|intros (x & [?|?] & ?); [left|right]; exists x; auto].
  - destruct IHv2_kept as (W & IB & IC). split; [now apply set_data_wf|]. auto.
  - destruct IHv2_kept as (W & IB & IC). rewrite v2_roundtrip in H0 by auto. apply Ok_inj in H0. subst g. split; [now apply canon_wf|]. auto.
Qed.
