(** The v2 filter: what insert and contains compute. *)
From Coq Require Import Lia.
From Verif Require Import M_V2 Spec_Bits Spec_Hash Spec_V2 P_Base P_BitSet P_Hash.
Open Scope N_scope.

(** ** several bits at once *)
Definition set_bits (b : list N) (l : list N) : list N := fold_left (fun b i => fst (bs_set b i)) l b.
Definition all_set (b : list N) (l : list N) : bool := forallb (bit 8 b) l.
Definition in_range (b : list N) (l : list N) : Prop := Forall (fun i => i < 8 * len b) l.

Lemma bs_set_ok b i : i < 8 * len b -> bs_set b i = (fst (bs_set b i), Ok (bit 8 b i)).
Proof.
  intro H. destruct (bs_set b i) as [b' r] eqn:E. apply bs_set_spec in E as (_ & E & _). now destruct (E H) as [-> _].
Qed.
Lemma bs_set_len b i : len (fst (bs_set b i)) = len b.
Proof. destruct (bs_set b i) as [b' r] eqn:E. apply bs_set_spec in E as (E & _). exact E. Qed.
Lemma bs_set_bit b i j : i < 8 * len b -> bit 8 (fst (bs_set b i)) j = bit 8 b j || (j =? i).
Proof. intro H. destruct (bs_set b i) as [b' r] eqn:E. apply bs_set_spec in E as (_ & E & _). now apply E. Qed.
Lemma set_bits_cons b i l : set_bits b (i :: l) = set_bits (fst (bs_set b i)) l.
Proof. reflexivity. Qed.
Lemma all_set_cons b i l : all_set b (i :: l) = bit 8 b i && all_set b l.
Proof. reflexivity. Qed.
Lemma set_bits_len l : forall b, len (set_bits b l) = len b.
Proof. induction l; intros; auto. now rewrite set_bits_cons, IHl, bs_set_len. Qed.
Lemma in_range_len b b' l : len b = len b' -> in_range b l -> in_range b' l.
Proof. unfold in_range. now intros ->. Qed.
Lemma set_bits_bit l : forall b j, in_range b l -> bit 8 (set_bits b l) j = bit 8 b j || existsb (N.eqb j) l.
Proof.
  induction l; intros b j H. cbn; now rewrite orb_false_r. inversion H; subst.
  rewrite set_bits_cons, IHl. rewrite bs_set_bit by auto. cbn [existsb]. now rewrite orb_assoc.
  eapply in_range_len; [|eauto]. now rewrite bs_set_len.
Qed.
Lemma set_bits_words l : forall b, words_ok 8 b -> words_ok 8 (set_bits b l).
Proof.
  induction l; intros; auto. rewrite set_bits_cons. apply IHl. destruct (bs_set b a) eqn:E. cbn. eapply bs_set_words; eauto.
Qed.
Lemma set_bits_id l : forall b, in_range b l -> all_set b l = true -> set_bits b l = b.
Proof.
  induction l; intros b R H; auto. inversion R as [|? ? Ra Rl]; subst. rewrite all_set_cons in H. apply andb_prop in H as [H1 H2].
  rewrite set_bits_cons, bs_set_id; cbn [fst]. auto. rewrite bs_get_spec. apply N.ltb_lt in Ra. now rewrite Ra, H1.
Qed.
Lemma set_bits_all l b : in_range b l -> all_set (set_bits b l) l = true.
Proof.
  intro R. apply forallb_forall. intros i Hi. rewrite set_bits_bit by auto.
  apply orb_true_intro. right. apply existsb_exists. exists i. split; auto. apply N.eqb_refl.
Qed.
Lemma forallb_ext_in {A} (p q : A -> bool) l : (forall x, In x l -> p x = q x) -> forallb p l = forallb q l.
Proof. induction l; cbn; intros; auto. rewrite H, IHl; auto. Qed.

Lemma v2_insert_loop_free pr l : forall b new, in_range b l ->
  v2_insert_loop pr false b new l = (set_bits b l, Ok (new || negb (all_set b l))).
Proof.
  induction l as [|i l IH]; intros b new R; rewrite ?set_bits_cons, ?all_set_cons; cbn [v2_insert_loop].
  - cbn; now rewrite orb_false_r.
  - inversion R as [|? ? Hi Hl]; subst. rewrite (bs_set_ok b i Hi).
    set (b1 := fst (bs_set b i)). assert (L1 : len b1 = len b) by apply bs_set_len.
    assert (R1 : in_range b1 l) by (eapply in_range_len; [|eauto]; auto).
    assert (G : bs_get b1 i = Ok true).
    { rewrite bs_get_spec, L1. pose proof Hi as Hi'. apply N.ltb_lt in Hi'. rewrite Hi'. unfold b1. rewrite bs_set_bit by auto.
      now rewrite N.eqb_refl, orb_true_r. }
    assert (K : v2_insert_loop pr false b1 (if bit 8 b i then new else true) l
                = (set_bits b1 l, Ok (new || negb (bit 8 b i && all_set b l)))).
    { rewrite IH by auto. f_equal. f_equal. destruct (bit 8 b i) eqn:E; cbn [andb].
      - f_equal. f_equal. unfold all_set. apply forallb_ext_in. intros j _. unfold b1. rewrite bs_set_bit by auto.
        destruct (N.eqb_spec j i). subst. now rewrite E. now rewrite orb_false_r.
      - now rewrite orb_true_r. }
    destruct pr; [rewrite G|]; exact K.
Qed.
Lemma v2_insert_loop_full pr l : forall b new, in_range b l ->
  v2_insert_loop pr true b new l = if all_set b l then (b, Ok new) else (b, Err TooManyEntries).
Proof.
  induction l as [|i l IH]; intros b new R; rewrite ?all_set_cons; cbn [v2_insert_loop]; auto.
  inversion R as [|? ? Hi Hl]; subst. assert (G : bs_get b i = Ok (bit 8 b i)).
  { rewrite bs_get_spec. apply N.ltb_lt in Hi. now rewrite Hi. }
  rewrite G. destruct (bit 8 b i) eqn:E; cbn [andb]; auto.
  rewrite (bs_set_id b i) by (rewrite G; auto).
  destruct pr; [rewrite G|]; rewrite IH; auto.
Qed.
Lemma v2_contains_loop_spec l : forall b, in_range b l -> v2_contains_loop b l = Ok (all_set b l).
Proof.
  induction l as [|i l IH]; intros b R; rewrite ?all_set_cons; cbn [v2_contains_loop]; auto.
  inversion R as [|? ? Hi Hl]; subst. rewrite bs_get_spec. apply N.ltb_lt in Hi. rewrite Hi. cbn [obind].
  destruct (bit 8 b i); auto. rewrite IH; auto.
Qed.

(** ** bucket selection *)
Lemma count_ones_one x : count_ones x = 1 -> exists k, x = 2 ^ k.
Proof.
  destruct x as [|p]; cbn; [discriminate|]. induction p; cbn; intro H.
  - exfalso. assert (pop_pos p = 0) by lia. clear - H0. induction p; cbn in *; lia.
  - destruct (IHp H) as [k Hk]. exists (k + 1). rewrite N.pow_add_r, N.pow_1_r. change (N.pos p~0) with (2 * N.pos p). rewrite Hk. lia.
  - exists 0. reflexivity.
Qed.
Lemma count_ones_pow2 k : count_ones (2 ^ k) = 1.
Proof.
  induction k using N.peano_ind. reflexivity. rewrite N.pow_succ_r'. destruct (2 ^ k); cbn in *; auto.
Qed.
Lemma is_power_of_two_spec x : is_power_of_two x = true <-> exists k, x = 2 ^ k.
Proof.
  unfold is_power_of_two. rewrite N.eqb_eq. split. apply count_ones_one. intros [k ->]. apply count_ones_pow2.
Qed.
Lemma v2_ibucket_spec f h : v2_ibucket f h = if len (v2_buckets f) =? 0 then Panic else Ok (h mod len (v2_buckets f)).
Proof.
  unfold v2_ibucket. destruct (is_power_of_two (len (v2_buckets f))) eqn:E; auto.
  apply is_power_of_two_spec in E as [k ->].
  assert (2 ^ k <> 0) by now apply N.pow_nonzero. destruct (N.eqb_spec (2 ^ k) 0); [contradiction|].
  f_equal. rewrite <- N.land_ones. f_equal. rewrite N.ones_equiv. lia.
Qed.

(** ** insert_iter and contains_iter as equations *)
Definition it_ready (it : index_iter) : Prop := it_init it = true /\ it_i it = 0.
Definition it_of (h : N) : index_iter := {| it_init := true; it_h1 := h; it_h2 := 0; it_i := 0; it_count := 0 |}.

Definition v2_frame_ok (f : v2) : Prop := Forall (fun b => length b = N.to_nat 4096) (v2_buckets f).
Lemma wf_frame f : v2_wf f -> v2_frame_ok f.
Proof. intro H. unfold v2_frame_ok. eapply Forall_impl; [|apply (wf_buckets _ H)]. now intros b [? _]. Qed.

Definition v2_idxs (wy : hasher) (f : v2) (it : index_iter) : list N := it_list wy BIT_SET_MOD (it_set_count it (v2_n_hash_buck f)).

Lemma idxs_range wy f it b bk : v2_frame_ok f -> getN (v2_buckets f) b = Some bk -> in_range bk (v2_idxs wy f it).
Proof.
  intros H G. apply Forall_forall. intros x Hx. apply it_list_lt in Hx.
  unfold v2_frame_ok in H. rewrite Forall_forall in H. apply getN_In in G. apply H in G. unfold len. rewrite G. lia.
Qed.

(** The cache after recording bucket hash [bh]. *)
Definition v2_cache_after (f : v2) (bh : N) : list N :=
  if bs_is_empty (v2_index_cache f) then v2_index_cache f
  else fst (bs_set (v2_index_cache f) (v2_cache_index f bh)).
Lemma cache_index_lt f bh : v2_index_cache f <> [] -> v2_cache_index f bh < 8 * len (v2_index_cache f).
Proof.
  intro H. unfold v2_cache_index, bs_bit_len. eapply N.le_lt_trans. apply land_le_r.
  destruct (v2_index_cache f). congruence. rewrite len_cons. lia.
Qed.

(** What insert_iter computes on a filter with a bucket: [bh] bucket hash, [bk] bucket, [l] positions. *)
Lemma v2_insert_iter_eq pr wy f it bk :
  v2_frame_ok f -> it_is_init it = true -> v2_capacity f <> 0 -> len (v2_buckets f) <> 0 ->
  let bh := xorshift_star (it_h1 it) in
  let ib := bh mod len (v2_buckets f) in
  let l := v2_idxs wy f it in
  getN (v2_buckets f) ib = Some bk ->
  v2_insert_iter pr wy f it =
    if v2_count f =? v2_capacity f then
      if all_set bk l then (v2_upd f (v2_cache_after f bh) (v2_buckets f) (v2_count f), Ok false)
      else (f, Err TooManyEntries)
    else if all_set bk l then (v2_upd f (v2_cache_after f bh) (v2_buckets f) (v2_count f), Ok false)
    else match checked_add pr (v2_count f) 1 with
         | Ok c => (v2_upd f (v2_cache_after f bh) (setN (v2_buckets f) ib (set_bits bk l)) c, Ok true)
         | _ => (v2_upd f (v2_index_cache f) (setN (v2_buckets f) ib (set_bits bk l)) (v2_count f), Panic)
         end.
Proof.
  intros Hf Hi Hc Hl bh ib l G. unfold v2_insert_iter. rewrite Hi. cbn [negb].
  destruct (N.eqb_spec (v2_capacity f) 0); [contradiction|].
  unfold it_bucket_hash. change (it_h1 (it_set_count it (v2_n_hash_buck f))) with (it_h1 it). fold bh.
  rewrite v2_ibucket_spec. destruct (N.eqb_spec (len (v2_buckets f)) 0); [contradiction|]. fold ib. rewrite G.
  fold (v2_idxs wy f it). fold l.
  assert (R : in_range bk l) by (eapply idxs_range; eauto).
  assert (CC : forall bks c, (if bs_is_empty (v2_index_cache f) then (v2_upd f (v2_index_cache f) bks c, @Ok bool true)
      else match bs_set (v2_index_cache f) (v2_cache_index f bh) with
           | (cache, Ok _) => (v2_upd f cache bks c, Ok true)
           | (cache, Err e) => (v2_upd f cache bks c, Err e)
           | (cache, Panic) => (v2_upd f cache bks c, Panic) end)
      = (v2_upd f (v2_cache_after f bh) bks c, Ok true)).
  { intros. unfold v2_cache_after. destruct (bs_is_empty (v2_index_cache f)) eqn:E; auto.
    assert (v2_index_cache f <> []) by (intro X; rewrite X in E; discriminate).
    rewrite (bs_set_ok _ _ (cache_index_lt f bh H)). reflexivity. }
  assert (CF : forall bks c, (if bs_is_empty (v2_index_cache f) then (v2_upd f (v2_index_cache f) bks c, @Ok bool false)
      else match bs_set (v2_index_cache f) (v2_cache_index f bh) with
           | (cache, Ok _) => (v2_upd f cache bks c, Ok false)
           | (cache, Err e) => (v2_upd f cache bks c, Err e)
           | (cache, Panic) => (v2_upd f cache bks c, Panic) end)
      = (v2_upd f (v2_cache_after f bh) bks c, Ok false)).
  { intros. unfold v2_cache_after. destruct (bs_is_empty (v2_index_cache f)) eqn:E; auto.
    assert (v2_index_cache f <> []) by (intro X; rewrite X in E; discriminate).
    rewrite (bs_set_ok _ _ (cache_index_lt f bh H)). reflexivity. }
  destruct (v2_count f =? v2_capacity f) eqn:EC.
  - rewrite v2_insert_loop_full by auto. destruct (all_set bk l) eqn:EA.
    + rewrite setN_same by auto. apply CF.
    + rewrite setN_same by auto. f_equal. now destruct f.
  - rewrite v2_insert_loop_free by auto. cbn [orb]. destruct (all_set bk l) eqn:EA; cbn [negb].
    + rewrite set_bits_id, setN_same by auto. apply CF.
    + destruct (checked_add pr (v2_count f) 1) eqn:EK; auto.
      exfalso. eapply checked_add_not_Err; eauto.
Qed.
Lemma bucket_exists f bh : len (v2_buckets f) <> 0 -> exists bk, getN (v2_buckets f) (bh mod len (v2_buckets f)) = Some bk.
Proof. intro. apply getN_Some. now apply N.mod_lt. Qed.

Lemma v2_insert_iter_cap0 pr wy f it : it_is_init it = true -> v2_capacity f = 0 ->
  v2_insert_iter pr wy f it = (f, Err TooManyEntries).
Proof. intros H1 H2. unfold v2_insert_iter. rewrite H1. cbn [negb]. now rewrite H2. Qed.
Lemma v2_insert_iter_nobucket pr wy f it : it_is_init it = true -> v2_capacity f <> 0 -> len (v2_buckets f) = 0 ->
  v2_insert_iter pr wy f it = (f, Panic).
Proof.
  intros H1 H2 H3. unfold v2_insert_iter. rewrite H1. cbn [negb]. destruct (N.eqb_spec (v2_capacity f) 0); [contradiction|].
  rewrite v2_ibucket_spec, H3. reflexivity.
Qed.
Lemma v2_insert_iter_uninit pr wy f it : it_is_init it = false -> v2_insert_iter pr wy f it = (f, Err UninitIter).
Proof. intros H1. unfold v2_insert_iter. now rewrite H1. Qed.

Definition v2_hit (f : v2) (bh : N) : bool :=
  bs_is_empty (v2_index_cache f) || bit 8 (v2_index_cache f) (v2_cache_index f bh).
Lemma v2_contains_iter_eq wy f it :
  v2_frame_ok f -> it_is_init it = true ->
  v2_contains_iter wy f it =
    if v2_capacity f =? 0 then Ok false
    else if negb (v2_hit f (xorshift_star (it_h1 it))) then Ok false
    else match getN (v2_buckets f) (xorshift_star (it_h1 it) mod len (v2_buckets f)) with
         | Some bk => Ok (all_set bk (v2_idxs wy f it))
         | None => Panic
         end.
Proof.
  intros Hf Hi. unfold v2_contains_iter. rewrite Hi. cbn [negb].
  destruct (v2_capacity f =? 0); auto.
  unfold it_bucket_hash. change (it_h1 (it_set_count it (v2_n_hash_buck f))) with (it_h1 it).
  set (bh := xorshift_star (it_h1 it)).
  assert (E : (if bs_is_empty (v2_index_cache f) then Ok true else bs_get (v2_index_cache f) (v2_cache_index f bh)) = Ok (v2_hit f bh)).
  { unfold v2_hit. destruct (bs_is_empty (v2_index_cache f)) eqn:E; auto.
    assert (v2_index_cache f <> []) by (intro X; rewrite X in E; discriminate).
    rewrite bs_get_spec. pose proof (cache_index_lt f bh H) as L. apply N.ltb_lt in L. now rewrite L. }
  rewrite E. cbn [obind]. destruct (negb (v2_hit f bh)); auto.
  rewrite v2_ibucket_spec. destruct (N.eqb_spec (len (v2_buckets f)) 0) as [Z|Z]; cbn [obind].
  - replace (getN (v2_buckets f) (bh mod len (v2_buckets f))) with (@None (list N)); auto. symmetry.
    apply getN_None. rewrite Z. apply N.le_0_l.
  - destruct (getN (v2_buckets f) (bh mod len (v2_buckets f))) eqn:G; auto.
    apply v2_contains_loop_spec. eapply idxs_range; eauto.
Qed.
