(** Consequences for users of v2 filters, as stated in Prop_V2*.v. *)
From Coq Require Import Lia.
From Verif Require Import M_V2 Spec_Bits Spec_Hash Spec_V2 Spec_V2File Spec_V2Hist Spec_Libm P_Base P_BitSet P_Hash P_V2 P_V2Sem P_IO P_V2Codec P_V2Make P_V2Merge P_V2Size P_V2Hist P_Fpp.
Open Scope N_scope.

Lemma hist_wf wy L f K : v2_hist wy L f K -> v2_wf f.
Proof. intro H. apply (v2_hist_inv _ _ _ _ H). Qed.
Lemma reach_wf wy L f : v2_reach wy L f -> v2_wf f.
Proof. intros [K H]. eapply hist_wf; eauto. Qed.

Lemma hist_contains wy L f K k : v2_hist wy L f K -> K k -> v2_contains wy f k = Ok true.
Proof. intros H Hk. destruct (v2_hist_inv _ _ _ _ H) as [W P]. destruct (P k Hk). now apply contains_present. Qed.

(** ** Exactness *)
Lemma forallb_In {A} (p : A -> bool) l : forallb p l = true <-> forall x, In x l -> p x = true.
Proof. apply forallb_forall. Qed.
Lemma kept_contains wy L f K C k : v2_kept wy L f K C -> key_ok k ->
  (v2_contains wy f k = Ok true <->
   v2_capacity f <> 0 /\ len (v2_buckets f) <> 0 /\
   (forall i, In i (v2_positions wy f (hash_pop wy k)) ->
      exists x, K x /\ v2_bucket_of f (hash_pop wy x) = v2_bucket_of f (hash_pop wy k) /\ In i (v2_positions wy f (hash_pop wy x))) /\
   (v2_index_cache f = [] \/ exists x, C x /\ v2_cache_of f (hash_pop wy x) = v2_cache_of f (hash_pop wy k))).
Proof.
  intros H Hk. destruct (v2_kept_inv _ _ _ _ _ H) as (W & B & Cc). rewrite v2_contains_true by auto.
  unfold v2_covered. rewrite forallb_In, cache_hit_alt, orb_true_iff, Cc. unfold key_cbit.
  split; intros (Z & Y & P & Q); (split; [auto|split; [auto|]]).
  - split.
    + intros i Hi. apply Q, B in Hi as (x & Kx & [E1 E2]). exists x. auto.
    + destruct P as [P|(x & Cx & _ & E)]; [left; now destruct (v2_index_cache f)|right; exists x; auto].
  - split.
    + destruct Q as [Q|(x & Cx & E)]; [left; now rewrite Q|]. destruct (v2_index_cache f) eqn:E'; [left; reflexivity|right; exists x].
      split; auto. split; [congruence|]. auto.
    + intros i Hi. apply B. destruct (P i Hi) as (x & Kx & E1 & E2). exists x. split; auto. split; auto.
Qed.

(** Queries on filters with a bucket never panic. *)
Lemma contains_total wy f k : v2_wf f -> v2_usable f -> key_ok k -> v2_contains wy f k = Ok true \/ v2_contains wy f k = Ok false.
Proof.
  intros W U Hk. rewrite v2_contains_sem by auto. destruct (N.eqb_spec (v2_capacity f) 0); auto.
  destruct (v2_cache_hit f (hash_pop wy k)); cbn [negb]; auto. destruct (N.eqb_spec (len (v2_buckets f)) 0) as [E|E]; [now apply U in n|].
  destruct (v2_covered wy f (hash_pop wy k)); auto.
Qed.

(** ** Fresh and cleared filters *)
Lemma edh_nil k h1 h2 : edh_positions k h1 h2 = [] <-> k = 0.
Proof.
  unfold edh_positions. split.
  - intro H. destruct (N.to_nat k) eqn:E; [lia|]. discriminate.
  - intros ->. reflexivity.
Qed.
Lemma not_covered wy f h : v2_n_hash_buck f <> 0 -> (forall b i, v2_bit f b i = false) -> v2_covered wy f h = false.
Proof.
  intros Hn B. unfold v2_covered. destruct (v2_positions wy f h) as [|i l] eqn:E; [apply edh_nil in E; easy|].
  cbn [forallb]. now rewrite B.
Qed.
Lemma fresh_contains pr wy L cap fpp opt f k : cap < two64 -> fpp < two64 -> v2_make pr L cap fpp opt = Ok f -> key_ok k -> v2_usable f ->
  v2_n_hash_buck f <> 0 \/ v2_index_cache f <> [] -> v2_contains wy f k = Ok false.
Proof.
  intros Hc Hf E Hk U Hn. apply v2_make_created in E as Cr. pose proof (created_wf _ _ _ _ Hc Hf Cr) as W.
  destruct (created_bits _ _ _ _ Cr) as [B C].
  destruct (contains_total wy f k W U Hk) as [T|]; auto. exfalso.
  apply v2_contains_true in T as (_ & _ & T1 & T2); auto. destruct Hn as [Hn|Hn].
  - rewrite not_covered in T2; auto. discriminate.
  - rewrite cache_hit_alt, C in T1. destruct (v2_index_cache f); auto; discriminate.
Qed.
Lemma clear_usable f : v2_usable f -> v2_usable (v2_clear f).
Proof. unfold v2_usable. cbn. rewrite len_map. auto. Qed.
Lemma clear_contains wy f k : v2_wf f -> v2_usable f -> key_ok k -> v2_n_hash_buck f <> 0 -> v2_contains wy (v2_clear f) k = Ok false.
Proof.
  intros W U Hk Hn. destruct (contains_total wy (v2_clear f) k (clear_wf f W) (clear_usable f U) Hk) as [T|]; auto.
  apply v2_contains_true in T as (_ & _ & _ & T2); [|now apply clear_wf|auto].
  rewrite not_covered in T2; [discriminate|exact Hn|]. apply clear_bits.
Qed.
Lemma v2_eq f g : v2_same_frame f g -> v2_index_cache g = v2_index_cache f -> v2_buckets g = v2_buckets f ->
  v2_count g = v2_count f -> v2_data g = v2_data f -> g = f.
Proof. intros (F1 & F2 & F3 & F4 & F5 & F6 & _) C B N D. destruct f, g; cbn in *. congruence. Qed.

(** ** Insertion of a key that is present *)
Lemma cache_ext f g : v2_wf f -> v2_wf g -> v2_same_frame f g -> (forall i, v2_cbit g i = v2_cbit f i) -> v2_index_cache g = v2_index_cache f.
Proof.
  intros Wf Wg F C. apply (bit_ext 8); [lia|apply (wf_cache _ Wg)|apply (wf_cache _ Wf)| |].
  - apply F.
  - intros i _. apply C.
Qed.
Lemma present_insert pr wy f k : v2_wf f -> key_ok k -> v2_present wy f (hash_pop wy k) -> v2_insert pr wy f k = (f, Ok false).
Proof.
  intros W Hk (Z & Y & P & Q). destruct (key_init wy k Hk) as [Hi Hh].
  destruct (v2_insert pr wy f k) as [g r] eqn:E. unfold v2_insert in E.
  pose proof (v2_insert_iter_sem _ _ _ _ _ _ W Hi Hh Z Y E) as [F D Wg M]. rewrite build_h1 in M. rewrite Q in M.
  destruct r as [b| |].
  - destruct M as (-> & _ & (_ & PC) & S & _). destruct (S eq_refl) as [S1 S2]. f_equal. apply v2_eq; auto.
    apply cache_ext; auto. intro i. rewrite PC. rewrite cache_hit_alt in P.
    destruct (bs_is_empty (v2_index_cache f)); cbn [negb andb orb] in *; [apply orb_false_r|].
    destruct (N.eqb_spec i (v2_cache_of f (hash_pop wy k))) as [->|_]; [rewrite P; reflexivity|apply orb_false_r].
  - destruct M as (_ & _ & _ & X). discriminate.
  - destruct M as (_ & _ & _ & X & _). discriminate.
Qed.
Lemma hist_reinsert pr wy L f K k : v2_hist wy L f K -> K k -> v2_insert pr wy f k = (f, Ok false).
Proof. intros H Hk. destruct (v2_hist_inv _ _ _ _ H) as [W P]. destruct (P k Hk). now apply present_insert. Qed.

(** ** Meaning of the boolean *)
Lemma insert_bool pr wy f k g b : v2_wf f -> key_ok k -> v2_insert pr wy f k = (g, Ok b) ->
  v2_capacity f <> 0 /\ len (v2_buckets f) <> 0 /\ b = negb (v2_covered wy f (hash_pop wy k)).
Proof.
  intros W Hk E. destruct (key_init wy k Hk) as [Hi Hh]. unfold v2_insert in E.
  destruct (N.eq_dec (v2_capacity f) 0) as [Z|Z]; [rewrite v2_insert_iter_cap0 in E by auto; apply pair_inj in E as [_ E]; discriminate|].
  destruct (N.eq_dec (len (v2_buckets f)) 0) as [Y|Y]; [rewrite v2_insert_iter_nobucket in E by auto; apply pair_inj in E as [_ E]; discriminate|].
  pose proof (v2_insert_iter_sem _ _ _ _ _ _ W Hi Hh Z Y E) as [_ _ _ M]. rewrite build_h1 in M. tauto.
Qed.
Lemma insert_true_new pr wy f k g : v2_wf f -> key_ok k -> v2_insert pr wy f k = (g, Ok true) -> v2_contains wy f k = Ok false.
Proof.
  intros W Hk E. destruct (insert_bool _ _ _ _ _ _ W Hk E) as (Z & Y & B). rewrite v2_contains_sem by auto.
  apply N.eqb_neq in Z, Y. rewrite Z, Y. destruct (v2_covered wy f (hash_pop wy k)); [discriminate|].
  now destruct (negb (v2_cache_hit f (hash_pop wy k))).
Qed.
Lemma insert_contained pr wy f k g b : v2_wf f -> key_ok k -> v2_insert pr wy f k = (g, Ok b) -> v2_contains wy f k = Ok true -> b = false.
Proof.
  intros W Hk E T. destruct (insert_bool _ _ _ _ _ _ W Hk E) as (_ & _ & ->). apply v2_contains_true in T as (_ & _ & _ & T); auto. now rewrite T.
Qed.
Lemma insert_nocache pr wy f k g b : v2_wf f -> key_ok k -> v2_index_cache f = [] -> v2_insert pr wy f k = (g, Ok b) ->
  v2_contains wy f k = Ok (negb b).
Proof.
  intros W Hk C E. destruct (insert_bool _ _ _ _ _ _ W Hk E) as (Z & Y & ->). rewrite v2_contains_sem by auto.
  apply N.eqb_neq in Z, Y. rewrite Z, Y, cache_hit_alt, C. cbn. now rewrite negb_involutive.
Qed.
Lemma insert_err pr wy f k g e : v2_wf f -> key_ok k -> v2_insert pr wy f k = (g, Err e) -> g = f /\ e = TooManyEntries.
Proof.
  intros W Hk E. destruct (key_init wy k Hk) as [Hi Hh]. unfold v2_insert in E.
  destruct (N.eq_dec (v2_capacity f) 0) as [Z|Z].
  { rewrite v2_insert_iter_cap0 in E by auto; apply pair_inj in E as [<- E]. split; congruence. }
  destruct (N.eq_dec (len (v2_buckets f)) 0) as [Y|Y]; [rewrite v2_insert_iter_nobucket in E by auto; apply pair_inj in E as [_ E]; discriminate|].
  pose proof (v2_insert_iter_sem _ _ _ _ _ _ W Hi Hh Z Y E) as [_ _ _ M]. tauto.
Qed.

(** ** Counting *)
Lemma solo_inv wy f0 f n : v2_wf f0 -> v2_usable f0 -> fl_reserved (v2_flags f0) = [0;0;0;0;0;0] -> v2_count f0 = 0 -> v2_solo wy f0 f n ->
  v2_wf f /\ v2_same_frame f0 f /\ v2_count f = n /\ n <= v2_capacity f0.
Proof.
  intros W0 U0 R0 C0 H. induction H.
  - split; auto. split; [apply frame_refl|]. split; auto. lia.
  - destruct IHv2_solo as (W & F & C & Le). destruct (key_init wy k H0) as [Hi Hh]. unfold v2_insert in H1.
    destruct (N.eq_dec (v2_capacity f) 0) as [Z|Z]; [rewrite v2_insert_iter_cap0 in H1 by auto; apply pair_inj in H1 as [_ H1]; discriminate|].
    destruct (N.eq_dec (len (v2_buckets f)) 0) as [Y|Y]; [rewrite v2_insert_iter_nobucket in H1 by auto; apply pair_inj in H1 as [_ H1]; discriminate|].
    pose proof (v2_insert_iter_sem _ _ _ _ _ _ W Hi Hh Z Y H1) as [F' _ Wg (_ & Nc & _ & Cf & Ct)].
    split; auto. split; [eapply frame_trans; eauto|].
    assert (CE : v2_capacity f = v2_capacity f0) by apply F. pose proof (wf_capacity _ W) as WC.
    destruct b.
    + rewrite (Ct eq_refl). specialize (Nc eq_refl). rewrite CE in *. rewrite C in *. rewrite w64_id by lia. lia.
    + destruct (Cf eq_refl) as [_ ->]. auto.
  - destruct IHv2_solo as (W & F & C & Le). apply insert_err in H1 as [-> _]; auto.
  - destruct IHv2_solo as (W & F & C & Le). split; [now apply clear_wf|]. split; [eapply frame_trans; [eauto|apply clear_frame]|].
    split; [reflexivity|lia].
  - destruct IHv2_solo as (W & F & C & Le). split; [now apply set_data_wf|]. auto.
  - destruct IHv2_solo as (W & F & C & Le). rewrite v2_roundtrip in H0 by auto. apply Ok_inj in H0. subst g.
    rewrite v2_canon_id; auto. destruct F as [-> _]. exact R0.
Qed.
Lemma solo_insert pr wy f0 f n k g r : v2_wf f0 -> v2_usable f0 -> fl_reserved (v2_flags f0) = [0;0;0;0;0;0] -> v2_count f0 = 0 -> v2_solo wy f0 f n ->
  key_ok k -> v2_insert pr wy f k = (g, r) ->
  r <> Panic /\ (n < v2_capacity f -> exists b, r = Ok b) /\
  (v2_capacity f <> 0 -> n = v2_capacity f -> (r = Err TooManyEntries <-> v2_covered wy f (hash_pop wy k) = false)).
Proof.
  intros W0 U0 R0 C0 H Hk E. destruct (solo_inv _ _ _ _ W0 U0 R0 C0 H) as (W & F & C & Le). destruct (key_init wy k Hk) as [Hi Hh]. unfold v2_insert in E.
  destruct (N.eq_dec (v2_capacity f) 0) as [Z|Z].
  { rewrite v2_insert_iter_cap0 in E by auto; apply pair_inj in E as [_ <-]. split; [discriminate|]. split; [lia|]. easy. }
  assert (Y : len (v2_buckets f) <> 0). { destruct F as (_ & _ & _ & F1 & _ & _ & F2 & _). rewrite F2. apply U0. congruence. }
  assert (CE : v2_capacity f = v2_capacity f0) by apply F. pose proof (wf_capacity _ W) as WC.
  pose proof (v2_insert_iter_sem _ _ _ _ _ _ W Hi Hh Z Y E) as [F' _ Wg M]. rewrite build_h1 in M.
  destruct r as [b|e|].
  - destruct M as (M1 & M2 & _). split; [discriminate|]. split; [eauto|]. intros _ En. split; [discriminate|].
    intro Q. rewrite Q in M1. subst b. specialize (M2 eq_refl). congruence.
  - destruct M as (-> & -> & M1 & M2). split; [discriminate|]. split; [lia|]. tauto.
  - destruct M as (_ & M1 & M2 & _). exfalso. rewrite C in *. unfold u64_max in M1. unfold two64 in *. lia.
Qed.

(** ** clear gives back the fresh filter when there is no cache *)
Lemma solo_clear_fresh wy pr L cap fpp opt f0 f n : cap < two64 -> fpp < two64 -> v2_make pr L cap fpp opt = Ok f0 -> v2_usable f0 ->
  v2_solo wy f0 f n -> v2_index_cache f0 = [] -> v2_clear f = v2_set_data f0 (v2_data f).
Proof.
  intros Hc Hf E U S C. apply v2_make_created in E as Cr. pose proof (created_wf _ _ _ _ Hc Hf Cr) as W0.
  assert (R0 : fl_reserved (v2_flags f0) = [0;0;0;0;0;0]) by (rewrite (cr_flags _ _ _ _ Cr); reflexivity).
  destruct (solo_inv _ _ _ _ W0 U R0 (cr_count _ _ _ _ Cr) S) as (W & F & _).
  apply v2_eq.
  - eapply frame_trans; [|eapply frame_trans; [exact F|apply clear_frame]]. split; [reflexivity|]. repeat split; reflexivity.
  - cbn. rewrite C. apply (frame_cache_nil _ _ F), C.
  - cbn. destruct F as (_ & _ & _ & _ & _ & _ & FB & _). rewrite (cr_buckets _ _ _ _ Cr) in *. rewrite len_repeatN in FB.
    rewrite <- FB. pose proof (wf_buckets _ W) as B. clear - B. unfold len. rewrite Nat2N.id.
    induction (v2_buckets f) as [|b l IH]; [reflexivity|]. cbn [map length repeat]. apply Forall_inv in B as B1. apply Forall_inv_tail in B. f_equal; auto.
    destruct B1 as [B1 _]. unfold bs_clear, bucket_new, bs_new. change BUCKET_SIZE with 4096. rewrite <- B1. clear. induction b; cbn; congruence.
  - cbn. now rewrite (cr_count _ _ _ _ Cr).
  - reflexivity.
Qed.

(** With no hash function every query that passes the cache answers true. *)
Lemma no_hash_contains wy f k : v2_wf f -> key_ok k -> v2_n_hash_buck f = 0 -> v2_capacity f <> 0 -> len (v2_buckets f) <> 0 ->
  v2_cache_hit f (hash_pop wy k) = true -> v2_contains wy f k = Ok true.
Proof.
  intros W Hk Hn Z Y P. apply v2_contains_true; auto. repeat split; auto. unfold v2_covered, v2_positions. now rewrite Hn.
Qed.
