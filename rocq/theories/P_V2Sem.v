(** Insert and contains in terms of the specification vocabulary of Spec_V2. *)
From Coq Require Import Lia.
From Verif Require Import M_V2 Spec_Bits Spec_Hash Spec_V2 P_Base P_BitSet P_Hash P_V2.
Open Scope N_scope.

Lemma build_init wy k : it_is_init (v2_build_index_iter wy k) = true.
Proof. reflexivity. Qed.
Lemma build_h1 wy k : it_h1 (v2_build_index_iter wy k) = hash_pop wy k.
Proof. reflexivity. Qed.
Lemma is_init_i it : it_is_init it = true -> it_i it = 0.
Proof. unfold it_is_init. intro H. apply andb_prop in H as [_ H]. now apply N.eqb_eq. Qed.

Lemma idxs_spec wy f it : it_is_init it = true -> it_h1 it < two64 -> v2_n_hash_buck f < two64 ->
  v2_idxs wy f it = v2_positions wy f (it_h1 it).
Proof. intros Hi Hh Hn. apply it_list_spec; auto. now apply is_init_i. Qed.
Lemma positions_lt wy f h i : In i (v2_positions wy f h) -> i < 32768.
Proof. apply edh_positions_lt. Qed.
Lemma cache_of_eq f h : v2_cache_index f (xorshift_star h) = v2_cache_of f h.
Proof. unfold v2_cache_index, v2_cache_of, bs_bit_len. f_equal. f_equal. lia. Qed.
Lemma hit_spec f h : v2_hit f (xorshift_star h) = v2_cache_hit f h.
Proof.
  unfold v2_hit, v2_cache_hit, v2_cbit. rewrite cache_of_eq. now destruct (v2_index_cache f).
Qed.
Lemma covered_bucket wy f h bk : getN (v2_buckets f) (v2_bucket_of f h) = Some bk ->
  all_set bk (v2_positions wy f h) = v2_covered wy f h.
Proof. intro G. unfold v2_covered, all_set. apply forallb_ext_in. intros x _. unfold v2_bit. now rewrite G. Qed.

Lemma v2_contains_iter_sem wy f it : v2_wf f -> it_is_init it = true -> it_h1 it < two64 ->
  v2_contains_iter wy f it =
    if v2_capacity f =? 0 then Ok false
    else if negb (v2_cache_hit f (it_h1 it)) then Ok false
    else if len (v2_buckets f) =? 0 then Panic
    else Ok (v2_covered wy f (it_h1 it)).
Proof.
  intros W Hi Hh. rewrite v2_contains_iter_eq by (auto using wf_frame). rewrite hit_spec.
  destruct (v2_capacity f =? 0); auto. destruct (negb _); auto.
  fold (v2_bucket_of f (it_h1 it)).
  rewrite idxs_spec by (auto; apply (wf_n_hash _ W)).
  destruct (N.eqb_spec (len (v2_buckets f)) 0) as [Z|Z].
  - replace (getN (v2_buckets f) (v2_bucket_of f (it_h1 it))) with (@None (list N)); auto.
    symmetry. apply getN_None. rewrite Z. apply N.le_0_l.
  - destruct (bucket_exists f (xorshift_star (it_h1 it)) Z) as [bk G]. fold (v2_bucket_of f (it_h1 it)) in G.
    rewrite G. now rewrite covered_bucket.
Qed.
Lemma v2_contains_sem wy f k : v2_wf f -> key_ok k ->
  v2_contains wy f k =
    if v2_capacity f =? 0 then Ok false
    else if negb (v2_cache_hit f (hash_pop wy k)) then Ok false
    else if len (v2_buckets f) =? 0 then Panic
    else Ok (v2_covered wy f (hash_pop wy k)).
Proof.
  intros W Hk. unfold v2_contains. rewrite v2_contains_iter_sem; auto.
  - rewrite build_h1. destruct (v2_capacity f =? 0); auto. destruct (negb _); auto. destruct (_ =? 0); auto.
  - rewrite build_h1. now apply hash_pop_lt.
Qed.
Lemma v2_contains_true wy f k : v2_wf f -> key_ok k ->
  (v2_contains wy f k = Ok true <->
   v2_capacity f <> 0 /\ len (v2_buckets f) <> 0 /\ v2_cache_hit f (hash_pop wy k) = true /\ v2_covered wy f (hash_pop wy k) = true).
Proof.
  intros W Hk. rewrite v2_contains_sem by auto.
  destruct (N.eqb_spec (v2_capacity f) 0); [intuition congruence|].
  destruct (v2_cache_hit f (hash_pop wy k)); cbn [negb]; [|intuition congruence].
  destruct (N.eqb_spec (len (v2_buckets f)) 0); [intuition congruence|].
  destruct (v2_covered wy f (hash_pop wy k)); intuition congruence.
Qed.

(** ** the effect of insert *)
Lemma v2_upd_frame f c b n : len b = len (v2_buckets f) -> len c = len (v2_index_cache f) -> v2_same_frame f (v2_upd f c b n).
Proof. intros. unfold v2_same_frame. cbn. intuition auto. Qed.
Lemma v2_upd_wf f c b n : v2_wf f -> len b = len (v2_buckets f) -> len c = len (v2_index_cache f) ->
  Forall (fun b => length b = N.to_nat 4096 /\ words_ok 8 b) b -> words_ok 8 c -> n < two64 -> v2_wf (v2_upd f c b n).
Proof.
  intros [] Hb Hc Fb Fc Hn.
  constructor; unfold v2_upd; cbn [v2_flags v2_index_cache v2_n_buckets v2_cache_byte_size v2_capacity v2_fpp v2_n_hash_buck v2_count v2_buckets v2_data]; auto; rewrite ?Hb, ?Hc; auto.
Qed.
Lemma cache_after_len f bh : len (v2_cache_after f bh) = len (v2_index_cache f).
Proof. unfold v2_cache_after. destruct (bs_is_empty _); auto. apply bs_set_len. Qed.
Lemma cache_after_words f bh : words_ok 8 (v2_index_cache f) -> words_ok 8 (v2_cache_after f bh).
Proof.
  intro H. unfold v2_cache_after. destruct (bs_is_empty _); auto.
  destruct (bs_set _ _) eqn:E. cbn. eapply bs_set_words; eauto.
Qed.
Lemma cache_after_bit f h i : bit 8 (v2_cache_after f (xorshift_star h)) i =
  v2_cbit f i || (negb (bs_is_empty (v2_index_cache f)) && (i =? v2_cache_of f h)).
Proof.
  unfold v2_cache_after, v2_cbit. destruct (bs_is_empty (v2_index_cache f)) eqn:E; cbn [negb andb].
  - now rewrite orb_false_r.
  - rewrite bs_set_bit. now rewrite cache_of_eq. apply cache_index_lt. intro X. rewrite X in E. discriminate.
Qed.
Lemma setN_buckets_ok bks ib bk l : Forall (fun b => length b = N.to_nat 4096 /\ words_ok 8 b) bks ->
  getN bks ib = Some bk -> Forall (fun b => length b = N.to_nat 4096 /\ words_ok 8 b) (setN bks ib (set_bits bk l)).
Proof.
  intros F G. apply Forall_setN; auto. destruct (Forall_getN _ _ _ _ F G) as [L W]. split.
  - pose proof (set_bits_len l bk). unfold len in H. lia.
  - now apply set_bits_words.
Qed.
(** The bits after setting positions [l] in bucket [ib]. *)
Lemma setN_bits bks ib bk l b i : getN bks ib = Some bk -> in_range bk l ->
  match getN (setN bks ib (set_bits bk l)) b with Some x => bit 8 x i | None => false end =
  match getN bks b with Some x => bit 8 x i | None => false end || ((b =? ib) && existsb (N.eqb i) l).
Proof.
  intros G R. rewrite getN_setN. pose proof (getN_lt _ _ _ G) as L. apply N.ltb_lt in L. rewrite L, andb_true_r.
  destruct (N.eqb_spec ib b).
  - subst. rewrite G, N.eqb_refl. cbn [andb]. now apply set_bits_bit.
  - destruct (N.eqb_spec b ib); [congruence|]. cbn [andb]. now rewrite orb_false_r.
Qed.

(** Bits of [g] = bits of [f] plus those of hash [h]. *)
Definition v2_bits_plus (wy : hasher) (f g : v2) (h : N) : Prop :=
  (forall b i, v2_bit g b i = v2_bit f b i || ((b =? v2_bucket_of f h) && existsb (N.eqb i) (v2_positions wy f h))) /\
  (forall i, v2_cbit g i = v2_cbit f i || (negb (bs_is_empty (v2_index_cache f)) && (i =? v2_cache_of f h))).

Record v2_insert_effect (pr : profile) (wy : hasher) (f : v2) (h : N) (g : v2) (r : outcome bool) : Prop := {
  ie_frame : v2_same_frame f g;
  ie_data : v2_data g = v2_data f;
  ie_wf : v2_wf g;
  ie_cases : match r with
    | Ok new => new = negb (v2_covered wy f h) /\ (new = true -> v2_count f <> v2_capacity f) /\
                v2_bits_plus wy f g h /\
                (new = false -> v2_buckets g = v2_buckets f /\ v2_count g = v2_count f) /\
                (new = true -> v2_count g = w64 (v2_count f + 1))
    | Err e => e = TooManyEntries /\ g = f /\ v2_count f = v2_capacity f /\ v2_covered wy f h = false
    | Panic => pr = Debug /\ v2_count f = u64_max /\ v2_count f <> v2_capacity f /\ v2_covered wy f h = false /\
               v2_count g = v2_count f /\ v2_index_cache g = v2_index_cache f /\
               (forall b i, v2_bit g b i = v2_bit f b i || ((b =? v2_bucket_of f h) && existsb (N.eqb i) (v2_positions wy f h)))
    end
}.

Lemma frame_refl f : v2_same_frame f f.
Proof. unfold v2_same_frame. intuition auto. Qed.

Lemma v2_insert_iter_sem pr wy f it g r : v2_wf f -> it_is_init it = true -> it_h1 it < two64 ->
  v2_capacity f <> 0 -> len (v2_buckets f) <> 0 ->
  v2_insert_iter pr wy f it = (g, r) -> v2_insert_effect pr wy f (it_h1 it) g r.
Proof.
  intros W Hi Hh Hc Hl E. set (h := it_h1 it) in *.
  destruct (bucket_exists f (xorshift_star h) Hl) as [bk G].
  pose proof G as G'. fold (v2_bucket_of f h) in G'.
  rewrite (v2_insert_iter_eq pr wy f it bk (wf_frame _ W) Hi Hc Hl G) in E. fold h in E.
  assert (R : in_range bk (v2_positions wy f h)).
  { unfold h. rewrite <- (idxs_spec wy f it) by (auto; apply (wf_n_hash _ W)). eapply idxs_range; eauto using wf_frame. }
  rewrite (idxs_spec wy f it) in E by (auto; apply (wf_n_hash _ W)). fold h in E.
  rewrite (covered_bucket wy f h bk G') in E.
  assert (BW := wf_buckets _ W). assert (CW := wf_cache _ W). assert (NW := wf_count _ W).
  assert (OldCase : v2_covered wy f h = true ->
     (v2_upd f (v2_cache_after f (xorshift_star h)) (v2_buckets f) (v2_count f), Ok false) = (g, r) ->
     v2_insert_effect pr wy f h g r).
  { intros Cov E'. apply pair_inj in E' as [<- <-]. constructor.
    - apply v2_upd_frame; auto. apply cache_after_len.
    - reflexivity.
    - apply v2_upd_wf; auto using cache_after_len, cache_after_words.
    - rewrite Cov. split; [reflexivity|]. split; [discriminate|]. split; [|split; [auto|discriminate]]. split.
      + intros b i. unfold v2_bit at 1. cbn [v2_buckets v2_upd]. fold (v2_bit f b i).
        destruct (N.eqb_spec b (v2_bucket_of f h)); cbn [andb]; [|now rewrite orb_false_r].
        subst b. destruct (existsb (N.eqb i) (v2_positions wy f h)) eqn:X; [|now rewrite orb_false_r].
        apply existsb_exists in X as (j & Hj & Ej). apply N.eqb_eq in Ej. subst j.
        unfold v2_covered in Cov. rewrite forallb_forall in Cov. now rewrite Cov.
      + intro i. apply cache_after_bit. }
  destruct (N.eqb_spec (v2_count f) (v2_capacity f)) as [EC|EC].
  - destruct (v2_covered wy f h) eqn:Cov; auto.
    apply pair_inj in E as [<- <-]. constructor; auto using frame_refl.
  - destruct (v2_covered wy f h) eqn:Cov; auto.
    assert (BB : forall b i, match getN (setN (v2_buckets f) (v2_bucket_of f h) (set_bits bk (v2_positions wy f h))) b with
               Some x => bit 8 x i | None => false end
               = v2_bit f b i || ((b =? v2_bucket_of f h) && existsb (N.eqb i) (v2_positions wy f h))).
    { intros. now apply setN_bits. }
    fold (v2_bucket_of f h) in E.
    destruct (checked_add pr (v2_count f) 1) as [c|e|] eqn:K.
    + apply pair_inj in E as [<- <-]. constructor.
      * apply v2_upd_frame. apply setN_len. apply cache_after_len.
      * reflexivity.
      * apply v2_upd_wf; auto using cache_after_len, cache_after_words, setN_len, setN_buckets_ok. eapply checked_add_lt; eauto.
      * rewrite Cov. split; [reflexivity|]. split; [auto|]. split; [split|].
        -- exact BB.
        -- intro. apply cache_after_bit.
        -- split; [discriminate|]. intros _. cbn. unfold checked_add in K. destruct (N.ltb_spec (v2_count f + 1) two64).
           injection K as <-. symmetry; now apply w64_id. destruct pr; try discriminate. now injection K as <-.
    + exfalso. eapply checked_add_not_Err; eauto.
    + apply pair_inj in E as [<- <-]. constructor.
      * apply v2_upd_frame; auto. apply setN_len.
      * reflexivity.
      * apply v2_upd_wf; auto using setN_len, setN_buckets_ok.
      * unfold checked_add in K. destruct (N.ltb_spec (v2_count f + 1) two64); try discriminate. destruct pr; try discriminate.
        split; [auto|]. split. unfold u64_max. unfold two64 in *. lia. split; [auto|]. split; [auto|]. split; [auto|]. split; [auto|]. exact BB.
Qed.

(** ** order on filters: same frame, at least the same bits *)
Definition v2_le (f g : v2) : Prop :=
  v2_same_frame f g /\ (forall b i, v2_bit f b i = true -> v2_bit g b i = true) /\
  (forall i, v2_cbit f i = true -> v2_cbit g i = true).
Lemma v2_le_refl f : v2_le f f.
Proof. split; auto using frame_refl. Qed.
Lemma frame_trans f g k : v2_same_frame f g -> v2_same_frame g k -> v2_same_frame f k.
Proof. unfold v2_same_frame. intuition congruence. Qed.
Lemma v2_le_trans f g k : v2_le f g -> v2_le g k -> v2_le f k.
Proof. intros (A & B & C) (A' & B' & C'). split; [eapply frame_trans; eauto|]. split; auto. Qed.

(** [h] is present: contains answers true for it. *)
Definition v2_present (wy : hasher) (f : v2) (h : N) : Prop :=
  v2_capacity f <> 0 /\ len (v2_buckets f) <> 0 /\ v2_cache_hit f h = true /\ v2_covered wy f h = true.
Lemma frame_bucket_of f g h : v2_same_frame f g -> v2_bucket_of g h = v2_bucket_of f h.
Proof. intros (_ & _ & _ & _ & _ & _ & H & _). unfold v2_bucket_of. now rewrite H. Qed.
Lemma frame_cache_of f g h : v2_same_frame f g -> v2_cache_of g h = v2_cache_of f h.
Proof. intros (_ & _ & _ & _ & _ & _ & _ & H). unfold v2_cache_of. now rewrite H. Qed.
Lemma frame_positions wy f g h : v2_same_frame f g -> v2_positions wy g h = v2_positions wy f h.
Proof. intros (_ & _ & _ & _ & _ & H & _). unfold v2_positions. now rewrite H. Qed.
Lemma len_0 {A} (l : list A) : len l = 0 <-> l = [].
Proof. destruct l; cbn; split; intro; auto; try discriminate. Qed.
Lemma frame_cache_nil f g : v2_same_frame f g -> (v2_index_cache g = [] <-> v2_index_cache f = []).
Proof. intros (_ & _ & _ & _ & _ & _ & _ & H). rewrite <- !len_0. now rewrite H. Qed.
Lemma frame_cache_empty f g : v2_same_frame f g -> bs_is_empty (v2_index_cache g) = bs_is_empty (v2_index_cache f).
Proof.
  intro H. apply frame_cache_nil in H. destruct (v2_index_cache f), (v2_index_cache g); cbn; auto.
  - destruct H as [_ H]. discriminate H; auto. - destruct H as [H _]. discriminate H; auto.
Qed.
Lemma cache_hit_alt f h : v2_cache_hit f h = bs_is_empty (v2_index_cache f) || v2_cbit f (v2_cache_of f h).
Proof. unfold v2_cache_hit. now destruct (v2_index_cache f). Qed.
Lemma v2_le_present wy f g h : v2_le f g -> v2_present wy f h -> v2_present wy g h.
Proof.
  intros (F & B & C) (H1 & H2 & H3 & H4). pose proof F as F'. destruct F' as (_ & _ & _ & E1 & _ & _ & E2 & _).
  split; [congruence|]. split; [congruence|]. split.
  - rewrite cache_hit_alt in *. rewrite (frame_cache_empty _ _ F), (frame_cache_of _ _ _ F).
    apply orb_prop in H3 as [->|H3]; auto. rewrite (C _ H3). apply orb_true_r.
  - unfold v2_covered in *. rewrite (frame_positions _ _ _ _ F), (frame_bucket_of _ _ _ F).
    rewrite forallb_forall in *. auto.
Qed.
Lemma contains_present wy f k : v2_wf f -> key_ok k -> (v2_contains wy f k = Ok true <-> v2_present wy f (hash_pop wy k)).
Proof. intros. now rewrite v2_contains_true. Qed.

Lemma plus_le wy f g h : v2_same_frame f g -> v2_bits_plus wy f g h -> v2_le f g.
Proof. intros F (B & C). split; auto. split; intros; [rewrite B|rewrite C]; rewrite H; auto. Qed.
Lemma effect_le pr wy f h g r : v2_insert_effect pr wy f h g r -> v2_le f g.
Proof.
  intros [F _ _ C]. destruct r as [new|e|].
  - destruct C as (_ & _ & P & _). eapply plus_le; eauto.
  - destruct C as (_ & -> & _). apply v2_le_refl.
  - destruct C as (_ & _ & _ & _ & _ & Ec & P). split; auto. split; intros.
    rewrite P, H; auto. unfold v2_cbit in *. now rewrite Ec.
Qed.
Lemma plus_present wy f g h : v2_capacity f <> 0 -> len (v2_buckets f) <> 0 ->
  v2_same_frame f g -> v2_bits_plus wy f g h -> v2_present wy g h.
Proof.
  intros Hc Hl F (B & C). pose proof F as F'. destruct F' as (_ & _ & _ & E1 & _ & _ & E2 & _).
  split; [congruence|]. split; [congruence|]. split.
  - rewrite cache_hit_alt, (frame_cache_empty _ _ F), (frame_cache_of _ _ _ F), C, N.eqb_refl, andb_true_r.
    destruct (bs_is_empty _); auto. apply orb_true_r.
  - unfold v2_covered. rewrite (frame_positions _ _ _ _ F), (frame_bucket_of _ _ _ F).
    apply forallb_forall. intros i Hi. rewrite B, N.eqb_refl. cbn [andb].
    assert (existsb (N.eqb i) (v2_positions wy f h) = true) as ->. { apply existsb_exists. exists i. split; auto. apply N.eqb_refl. }
    apply orb_true_r.
Qed.

(** Any insert of a prepared iterator, whatever the filter: it never lowers the filter, keeps it well formed and if it
    answers Ok the hash is present. *)
Lemma v2_insert_iter_any pr wy f it g r : v2_wf f -> it_is_init it = true -> it_h1 it < two64 ->
  v2_insert_iter pr wy f it = (g, r) ->
  v2_wf g /\ v2_le f g /\ v2_data g = v2_data f /\ (forall b, r = Ok b -> v2_present wy g (it_h1 it)) /\
  (forall e, r = Err e -> g = f).
Proof.
  intros W Hi Hh E.
  destruct (N.eq_dec (v2_capacity f) 0) as [Z|Z].
  { rewrite v2_insert_iter_cap0 in E by auto. apply pair_inj in E as [<- <-].
    split; auto. split; [apply v2_le_refl|]. split; auto. split; auto. discriminate. }
  destruct (N.eq_dec (len (v2_buckets f)) 0) as [Y|Y].
  { rewrite v2_insert_iter_nobucket in E by auto. apply pair_inj in E as [<- <-].
    split; auto. split; [apply v2_le_refl|]. split; auto. split; discriminate. }
  pose proof (v2_insert_iter_sem pr wy f it g r W Hi Hh Z Y E) as S.
  split; [apply (ie_wf _ _ _ _ _ _ S)|]. split; [eapply effect_le; eauto|]. split; [apply (ie_data _ _ _ _ _ _ S)|]. split.
  - intros b ->. destruct S as [F _ _ (_ & _ & P & _)]. eapply plus_present; eauto.
  - intros e ->. destruct S as [_ _ _ (_ & -> & _)]. reflexivity.
Qed.
