(** Merge laws, parameter equivalence, common entries and attached data of v2 filters. *)
From Coq Require Import Lia.
From Verif Require Import M_V2 Spec_Bits Spec_Hash Spec_V2 Spec_V2File Spec_V2Hist Spec_Libm P_Base P_BitSet P_Hash P_V2 P_V2Sem P_IO P_V2Codec P_V2Make P_V2Merge P_V2Hist P_V2Props P_Fpp.
Open Scope N_scope.

(** ** Content is determined by its bits *)
Lemma buckets_ext f g : v2_wf f -> v2_wf g -> v2_same_frame f g -> (forall b i, v2_bit g b i = v2_bit f b i) -> v2_buckets g = v2_buckets f.
Proof.
  intros Wf Wg F B. apply list_ext. intro k. destruct (N.ltb_spec k (len (v2_buckets f))) as [Hk|Hk].
  - destruct (proj1 (getN_Some _ _) Hk) as [x Gx]. assert (Hk' : k < len (v2_buckets g)). { destruct F as (_ & _ & _ & _ & _ & _ & F & _). lia. }
    destruct (proj1 (getN_Some _ _) Hk') as [y Gy]. rewrite Gx, Gy. f_equal.
    pose proof (Forall_getN _ _ _ _ (wf_buckets _ Wf) Gx) as [Lx Wx]. pose proof (Forall_getN _ _ _ _ (wf_buckets _ Wg) Gy) as [Ly Wy].
    apply (bit_ext 8); auto; [lia|unfold len; congruence|]. intros i _. specialize (B k i). unfold v2_bit in B. now rewrite Gx, Gy in B.
  - rewrite (proj2 (getN_None (v2_buckets f) k)) by auto. apply getN_None. destruct F as (_ & _ & _ & _ & _ & _ & F & _). lia.
Qed.
Lemma same_content_bits f g : v2_wf f -> v2_wf g -> v2_same_frame f g -> (forall b i, v2_bit g b i = v2_bit f b i) -> (forall i, v2_cbit g i = v2_cbit f i) -> v2_same_content f g.
Proof. intros. split; auto. split; [apply buckets_ext|apply cache_ext]; auto. Qed.

Lemma union_ok pr L a b g : v2_wf a -> v2_wf b -> v2_union_merge pr L a b = (g, Ok tt) ->
  v2_same_frame a b /\ v2_merge_effect op_or pr L a b g (Ok tt).
Proof.
  intros Wa Wb E. rewrite v2_union_merge_op in E. destruct (v2_merge_sem _ _ _ _ _ _ _ Wa Wb E) as [(_ & _ & ?)|(S & M)]; [discriminate|].
  split; auto. now apply same_params_wf in S.
Qed.
Lemma inter_ok pr L a b g : v2_wf a -> v2_wf b -> v2_intersection_merge pr L a b = (g, Ok tt) ->
  v2_same_frame a b /\ v2_merge_effect op_and pr L a b g (Ok tt).
Proof.
  intros Wa Wb E. rewrite v2_intersection_merge_op in E. destruct (v2_merge_sem _ _ _ _ _ _ _ Wa Wb E) as [(_ & _ & ?)|(S & M)]; [discriminate|].
  split; auto. now apply same_params_wf in S.
Qed.
Lemma union_bits pr L a b g : v2_wf a -> v2_wf b -> v2_union_merge pr L a b = (g, Ok tt) ->
  v2_same_frame a g /\ v2_data g = v2_data a /\ (forall k i, v2_bit g k i = v2_bit a k i || v2_bit b k i) /\ (forall i, v2_cbit g i = v2_cbit a i || v2_cbit b i).
Proof. intros Wa Wb E. destruct (union_ok _ _ _ _ _ Wa Wb E) as [_ [F D _ B C _]]. auto. Qed.
Lemma union_contains pr wy L a b g k : v2_wf a -> v2_wf b -> v2_union_merge pr L a b = (g, Ok tt) -> key_ok k ->
  v2_contains wy a k = Ok true \/ v2_contains wy b k = Ok true -> v2_contains wy g k = Ok true.
Proof.
  intros Wa Wb E Hk H. destruct (union_ok _ _ _ _ _ Wa Wb E) as [S M]. apply same_params_wf in S; auto.
  destruct (le_of_or _ _ _ _ _ _ Wa Wb S M) as [La Lb]. pose proof (me_wf _ _ _ _ _ _ _ M) as Wg. apply contains_present; auto.
  destruct H as [H|H]; apply contains_present in H; auto; [apply (v2_le_present wy a)|apply (v2_le_present wy b)]; auto.
Qed.
Lemma union_comm pr L a b g h : v2_wf a -> v2_wf b -> v2_union_merge pr L a b = (g, Ok tt) -> v2_union_merge pr L b a = (h, Ok tt) ->
  v2_same_content g h /\ v2_count h = v2_count g.
Proof.
  intros Wa Wb E1 E2. destruct (union_ok _ _ _ _ _ Wa Wb E1) as [S M]. destruct (union_ok _ _ _ _ _ Wb Wa E2) as [S' M'].
  destruct M as [F D Wg B C Q], M' as [F' D' Wh B' C' Q'].
  assert (X : v2_same_content g h).
  { apply same_content_bits; auto.
    - apply (frame_trans _ a); [now apply frame_sym|]. now apply (frame_trans _ b).
    - intros. rewrite B, B'. cbn. apply orb_comm.
    - intros. rewrite C, C'. cbn. apply orb_comm. }
  split; auto. destruct X as (XF & XB & _). unfold v2_estimates in *. rewrite XB in Q'. destruct XF as (_ & _ & _ & _ & _ & XN & _). rewrite XN in Q'.
  rewrite Q in Q'. now apply Ok_inj in Q'.
Qed.
Lemma union_assoc pr L a b c ab abc bc abc' : v2_wf a -> v2_wf b -> v2_wf c ->
  v2_union_merge pr L a b = (ab, Ok tt) -> v2_union_merge pr L ab c = (abc, Ok tt) ->
  v2_union_merge pr L b c = (bc, Ok tt) -> v2_union_merge pr L a bc = (abc', Ok tt) -> v2_same_content abc abc' /\ v2_count abc' = v2_count abc.
Proof.
  intros Wa Wb Wc E1 E2 E3 E4. destruct (union_ok _ _ _ _ _ Wa Wb E1) as [S1 M1]. destruct (union_ok _ _ _ _ _ Wb Wc E3) as [S3 M3].
  destruct (union_ok _ _ _ _ _ (me_wf _ _ _ _ _ _ _ M1) Wc E2) as [S2 M2]. destruct (union_ok _ _ _ _ _ Wa (me_wf _ _ _ _ _ _ _ M3) E4) as [S4 M4].
  destruct M1 as [F1 D1 W1 B1 C1 Q1], M2 as [F2 D2 W2 B2 C2 Q2], M3 as [F3 D3 W3 B3 C3 Q3], M4 as [F4 D4 W4 B4 C4 Q4].
  assert (X : v2_same_content abc abc').
  { apply same_content_bits; auto.
    - apply (frame_trans _ ab); [now apply frame_sym|]. apply (frame_trans _ a); [now apply frame_sym|auto].
    - intros. rewrite B4, B3, B2, B1. cbn. apply orb_assoc.
    - intros. rewrite C4, C3, C2, C1. cbn. apply orb_assoc. }
  split; auto. destruct X as (XF & XB & _). unfold v2_estimates in *. rewrite XB in Q4. destruct XF as (_ & _ & _ & _ & _ & XN & _). rewrite XN in Q4.
  rewrite Q2 in Q4. now apply Ok_inj in Q4.
Qed.
Lemma union_idem pr L a g : v2_wf a -> v2_union_merge pr L a a = (g, Ok tt) -> v2_same_content a g.
Proof.
  intros Wa E. destruct (union_ok _ _ _ _ _ Wa Wa E) as [S [F D W B C Q]]. apply same_content_bits; auto; intros; [rewrite B|rewrite C]; cbn; apply orb_diag.
Qed.
Lemma union_as_inserts pr wy L a b c g Ka Ca Kb Cb : v2_kept wy L a Ka Ca -> v2_kept wy L b Kb Cb ->
  v2_kept wy L c (fun x => Ka x \/ Kb x) (fun x => Ca x \/ Cb x) -> v2_same_frame a c -> v2_union_merge pr L a b = (g, Ok tt) ->
  v2_same_content c g.
Proof.
  intros Ha Hb Hc F E. assert (Hg := vk_union _ _ _ _ _ _ _ _ _ _ Ha Hb E).
  destruct (v2_kept_inv _ _ _ _ _ Ha) as (Wa & _). destruct (v2_kept_inv _ _ _ _ _ Hb) as (Wb & _).
  destruct (v2_kept_inv _ _ _ _ _ Hc) as (Wc & Bc & Cc). destruct (v2_kept_inv _ _ _ _ _ Hg) as (Wg & Bg & Cg).
  destruct (union_ok _ _ _ _ _ Wa Wb E) as [S [F' _ _ _ _ _]].
  assert (FF : v2_same_frame c g) by (apply (frame_trans _ a); [now apply frame_sym|auto]).
  apply same_content_bits; auto.
  - intros k i. apply eq_true_iff_eq. rewrite Bc, Bg. setoid_rewrite (key_bit_frame wy c g); [reflexivity|auto].
  - intros i. apply eq_true_iff_eq. rewrite Cc, Cg. setoid_rewrite (key_cbit_frame wy c g); [reflexivity|auto].
Qed.

(** ** Intersection *)
Lemma inter_bits pr L a b g : v2_wf a -> v2_wf b -> v2_intersection_merge pr L a b = (g, Ok tt) ->
  v2_same_frame a g /\ v2_data g = v2_data a /\ (forall k i, v2_bit g k i = v2_bit a k i && v2_bit b k i) /\ (forall i, v2_cbit g i = v2_cbit a i && v2_cbit b i).
Proof. intros Wa Wb E. destruct (inter_ok _ _ _ _ _ Wa Wb E) as [_ [F D _ B C _]]. auto. Qed.
Lemma inter_contains pr wy L a b g k : v2_wf a -> v2_wf b -> v2_intersection_merge pr L a b = (g, Ok tt) -> key_ok k ->
  (v2_contains wy g k = Ok true <-> v2_contains wy a k = Ok true /\ v2_contains wy b k = Ok true).
Proof.
  intros Wa Wb E Hk. destruct (inter_ok _ _ _ _ _ Wa Wb E) as [S M]. apply same_params_wf in S; auto.
  rewrite !contains_present; auto. eapply and_present; eauto. apply (me_wf _ _ _ _ _ _ _ M).
Qed.

(** ** Mergeability *)
Lemma same_params_refl a : v2_wf a -> v2_has_same_params a a = true.
Proof. intro W. apply same_params_wf; auto. apply frame_refl. Qed.
Lemma same_params_sym a b : v2_wf a -> v2_wf b -> v2_has_same_params a b = v2_has_same_params b a.
Proof. intros Wa Wb. apply eq_true_iff_eq. rewrite !same_params_wf by auto. split; apply frame_sym. Qed.
Lemma same_params_trans a b c : v2_wf a -> v2_wf b -> v2_wf c -> v2_has_same_params a b = true -> v2_has_same_params b c = true -> v2_has_same_params a c = true.
Proof. intros Wa Wb Wc. rewrite !same_params_wf by auto. apply frame_trans. Qed.
Lemma merge_result o pr L a b g r : v2_wf a -> v2_wf b -> v2_merge_with (vec_op o) (arr_op o) pr L a b = (g, r) ->
  (forall e, r = Err e -> e = Merge /\ g = a) /\ ((exists e, r = Err e) <-> ~ v2_same_frame a b) /\
  (r = Panic -> pr = Debug /\ two64 <= sumN (v2_estimates L g)).
Proof.
  intros Wa Wb E. destruct (v2_merge_sem _ _ _ _ _ _ _ Wa Wb E) as [(S & -> & ->)|(S & M)].
  - split; [intros e X; injection X as <-; auto|]. split; [|discriminate]. split; [|eauto]. intros _ F. apply same_params_wf in F; auto. congruence.
  - apply same_params_wf in S; auto. pose proof (me_cases _ _ _ _ _ _ _ M) as C. split; [|split].
    + intros e ->. easy.
    + split; [intros [e ->]; easy|easy].
    + intros ->. tauto.
Qed.

(** ** Common entries *)
Lemma zip_outcome_eq {A B C} (g : A -> B -> outcome C) (h : A * B -> C) a : forall b, length a = length b ->
  (forall x y, In x a -> In y b -> g x y = Ok (h (x, y))) -> zip_outcome g a b = Ok (map h (combine a b)).
Proof.
  induction a as [|x a IH]; intros [|y b] L H; try discriminate; [reflexivity|]. cbn [zip_outcome combine map].
  rewrite H by now left. cbn [obind]. rewrite IH; [reflexivity|now injection L|]. intros; apply H; now right.
Qed.
Lemma common_eq pr L a b : v2_wf a -> v2_wf b -> v2_count_common_entries pr L a b =
  if v2_has_same_params a b then checked_sum pr (common_estimates L a b) else Err Merge.
Proof.
  intros Wa Wb. unfold v2_count_common_entries. destruct (v2_has_same_params a b) eqn:S; cbn [negb]; [|reflexivity].
  apply same_params_wf in S; auto. destruct S as (_ & _ & _ & _ & _ & _ & EB & _).
  assert (LA := wf_buckets _ Wa). assert (LB := wf_buckets _ Wb). rewrite Forall_forall in LA, LB.
  erewrite zip_outcome_eq; [reflexivity|unfold len in EB; lia|]. intros x y Hx Hy. unfold arr_common.
  rewrite zip_with_Ok by (destruct (LA _ Hx), (LB _ Hy); lia). cbn [obind fst snd]. do 4 f_equal.
Qed.
Lemma combine_swap {A B} (a : list A) : forall (b : list B), combine b a = map (fun p => (snd p, fst p)) (combine a b).
Proof. induction a as [|x a IH]; intros [|y b]; cbn; auto. now rewrite IH. Qed.
Lemma common_sym pr L a b : v2_wf a -> v2_wf b -> v2_count_common_entries pr L a b = v2_count_common_entries pr L b a.
Proof.
  intros Wa Wb. rewrite !common_eq by auto. rewrite (same_params_sym b a) by auto. destruct (v2_has_same_params a b) eqn:S; auto.
  f_equal. apply same_params_wf in S; auto. destruct S as (_ & _ & _ & _ & _ & EN & _). unfold common_estimates.
  rewrite (combine_swap (v2_buckets a) (v2_buckets b)), map_map. apply map_ext. intros [x y]. cbn [fst snd]. rewrite EN. f_equal.
  rewrite (combine_swap x y), map_map. f_equal. apply map_ext. intros [u v]. cbn [fst snd]. now rewrite N.land_comm.
Qed.
Lemma estimate_zero L n : libm_ln1 L -> n < two64 -> estimate_count L bucket_bit_size 0 n = 0.
Proof.
  intros H Hn. unfold estimate_count.
  replace (f_sub f_one (f_div (f_of_u64 0) (f_of_u64 bucket_bit_size))) with f_one by (vm_compute; reflexivity). rewrite H.
  replace (f_opp (f_mul (f_of_u64 bucket_bit_size) (S754_zero false))) with (S754_zero true) by (vm_compute; reflexivity).
  unfold f_div, SFdiv. destruct (f_of_u64 n) as [s|s| |s m e]; reflexivity.
Qed.
Lemma land_no_bits x y : (forall i, N.testbit x i && N.testbit y i = false) -> N.land x y = 0.
Proof. intro H. apply N.bits_inj. intro i. rewrite N.land_spec, N.bits_0. apply H. Qed.
Lemma common_disjoint pr L a b : libm_ln1 L -> v2_wf a -> v2_wf b -> v2_same_frame a b ->
  (forall k i, v2_bit a k i && v2_bit b k i = false) -> v2_count_common_entries pr L a b = Ok 0.
Proof.
  intros HL Wa Wb F D. rewrite common_eq by auto. rewrite (proj2 (same_params_wf _ _ Wa Wb) F).
  assert (Z : Forall (fun x => x = 0) (common_estimates L a b)).
  { apply Forall_forall. intros e He. unfold common_estimates in He. apply in_map_iff in He as ([x y] & <- & Hin). cbn [fst snd].
    apply In_nth_error in Hin as [n Hn]. pose proof (getN_combine (v2_buckets a) (v2_buckets b) (N.of_nat n)) as G. unfold getN in G at 1.
    rewrite Nat2N.id, Hn in G. destruct (getN (v2_buckets a) (N.of_nat n)) as [x'|] eqn:Gx, (getN (v2_buckets b) (N.of_nat n)) as [y'|] eqn:Gy; try discriminate.
    apply Some_inj in G. apply pair_inj in G as [<- <-].
    replace (sumN _) with 0. apply estimate_zero; auto. apply (wf_n_hash _ Wa). symmetry.
    assert (Q : forall l, Forall (fun x => x = 0) l -> sumN l = 0). { induction 1; cbn; auto. subst. exact IHForall. }
    apply Q. apply Forall_forall. intros c Hc. apply in_map_iff in Hc as ([u v] & <- & Hc). cbn [fst snd].
    rewrite land_no_bits; [reflexivity|]. intro j.
    pose proof (Forall_getN _ _ _ _ (wf_buckets _ Wa) Gx) as [Lx Wx]. pose proof (Forall_getN _ _ _ _ (wf_buckets _ Wb) Gy) as [Ly Wy].
    destruct (N.ltb_spec j 8) as [Hj|Hj].
    - apply In_nth_error in Hc as [m Hm]. pose proof (getN_combine x y (N.of_nat m)) as G2. unfold getN in G2 at 1. rewrite Nat2N.id, Hm in G2.
      destruct (getN x (N.of_nat m)) as [u'|] eqn:Gu, (getN y (N.of_nat m)) as [v'|] eqn:Gv; try discriminate. apply Some_inj in G2. apply pair_inj in G2 as [<- <-].
      specialize (D (N.of_nat n) (8 * N.of_nat m + j)). unfold v2_bit in D. rewrite Gx, Gy in D. rewrite !bit_getN in D.
      assert (Dv : (8 * N.of_nat m + j) / 8 = N.of_nat m) by (rewrite N.mul_comm, N.div_add_l, N.div_small; lia).
      assert (Md : (8 * N.of_nat m + j) mod 8 = j) by (rewrite N.add_comm, N.mul_comm, N.mod_add, N.mod_small; lia).
      rewrite Dv, Md, Gu, Gv in D. exact D.
    - apply in_combine_l in Hc. unfold words_ok in Wx. rewrite Forall_forall in Wx. rewrite (testbit_lt_pow2 u 8 j); auto. }
  rewrite checked_sum_spec. replace (sumN (common_estimates L a b)) with 0; [reflexivity|]. induction Z; cbn; auto. subst. exact IHZ.
Qed.

(** ** Attached data *)
Lemma data_contains wy f d k : v2_contains wy (v2_set_data f d) k = v2_contains wy f k.
Proof. reflexivity. Qed.
Lemma data_insert_iter pr wy f d it g r : v2_insert_iter pr wy f it = (g, r) -> v2_insert_iter pr wy (v2_set_data f d) it = (v2_set_data g d, r).
Proof.
  unfold v2_insert_iter. cbn [v2_set_data v2_flags v2_index_cache v2_n_buckets v2_cache_byte_size v2_capacity v2_fpp v2_n_hash_buck v2_count v2_buckets v2_data].
  destruct (negb (it_is_init it)); [intro E; apply pair_inj in E as [<- <-]; reflexivity|].
  destruct (v2_capacity f =? 0); [intro E; apply pair_inj in E as [<- <-]; reflexivity|].
  unfold v2_ibucket, v2_cache_index. cbn [v2_set_data v2_buckets v2_index_cache].
  destruct (if is_power_of_two (len (v2_buckets f)) then _ else _) as [ib|e|]; [|intro E; apply pair_inj in E as [<- <-]; reflexivity|intro E; apply pair_inj in E as [<- <-]; reflexivity].
  destruct (getN (v2_buckets f) ib) as [b|]; [|intro E; apply pair_inj in E as [<- <-]; reflexivity].
  destruct (v2_insert_loop _ _ _ _ _) as [b' [new|e|]]; [|intro E; apply pair_inj in E as [<- <-]; reflexivity|intro E; apply pair_inj in E as [<- <-]; reflexivity].
  destruct (if new then _ else _) as [c|e|]; [|intro E; apply pair_inj in E as [<- <-]; reflexivity|intro E; apply pair_inj in E as [<- <-]; reflexivity].
  destruct (bs_is_empty (v2_index_cache f)); [intro E; apply pair_inj in E as [<- <-]; reflexivity|].
  destruct (bs_set _ _) as [ca [x|e|]]; intro E; apply pair_inj in E as [<- <-]; reflexivity.
Qed.
Lemma data_merge vo ao pr L a b d d' g r : v2_merge_with vo ao pr L a b = (g, r) ->
  v2_merge_with vo ao pr L (v2_set_data a d) (v2_set_data b d') = (v2_set_data g d, r).
Proof.
  unfold v2_merge_with. change (v2_has_same_params (v2_set_data a d) (v2_set_data b d')) with (v2_has_same_params a b).
  destruct (negb _); [intro E; apply pair_inj in E as [<- <-]; reflexivity|].
  cbn [v2_set_data v2_index_cache v2_buckets v2_count].
  destruct (vo _ _) as [c|e|]; [|intro E; apply pair_inj in E as [<- <-]; reflexivity|intro E; apply pair_inj in E as [<- <-]; reflexivity].
  destruct (zip_outcome _ _ _) as [bk|e|]; [|intro E; apply pair_inj in E as [<- <-]; reflexivity|intro E; apply pair_inj in E as [<- <-]; reflexivity].
  unfold v2_update_count. cbn [v2_upd v2_set_data v2_buckets v2_n_hash_buck v2_index_cache].
  destruct (checked_sum _ _) as [n|e|]; cbn [obind]; intro E; apply pair_inj in E as [<- <-]; reflexivity.
Qed.

(** Common entries are what the intersection counts. *)
Lemma common_is_inter pr L a b g : v2_wf a -> v2_wf b -> v2_intersection_merge pr L a b = (g, Ok tt) -> v2_count_common_entries pr L a b = Ok (v2_count g).
Proof.
  intros Wa Wb E. destruct (inter_ok _ _ _ _ _ Wa Wb E) as [F M]. rewrite common_eq by auto. rewrite (proj2 (same_params_wf _ _ Wa Wb) F).
  rewrite <- (me_cases _ _ _ _ _ _ _ M). f_equal. unfold common_estimates, v2_estimates.
  assert (EN : v2_n_hash_buck g = v2_n_hash_buck a) by apply (me_frame _ _ _ _ _ _ _ M). rewrite EN.
  assert (EB : v2_buckets g = map (fun p => map (fun q => N.land (fst q) (snd q)) (combine (fst p) (snd p))) (combine (v2_buckets a) (v2_buckets b))).
  { apply same_params_wf in F; auto. rewrite v2_intersection_merge_op in E. unfold v2_merge_with in E. rewrite F in E. cbn [negb] in E.
    destruct (vec_op op_and _ _) as [c| |]; try (apply pair_inj in E as [_ E]; discriminate).
    apply same_params_wf in F; auto. destruct F as (_ & _ & _ & _ & _ & _ & EB & _).
    assert (LA := wf_buckets _ Wa). assert (LB := wf_buckets _ Wb). rewrite Forall_forall in LA, LB.
    rewrite (zip_outcome_eq (arr_op op_and) (fun p => map (fun q => N.land (fst q) (snd q)) (combine (fst p) (snd p)))) in E.
    - unfold v2_update_count in E. cbn [v2_upd v2_buckets v2_n_hash_buck v2_index_cache] in E.
      destruct (checked_sum pr _) as [n| |]; cbn [obind] in E; try (apply pair_inj in E as [_ E]; discriminate). apply pair_inj in E as [<- _]. reflexivity.
    - unfold len in EB. lia.
    - intros x y Hx Hy. unfold arr_op. rewrite zip_with_Ok by (destruct (LA _ Hx), (LB _ Hy); lia). reflexivity. }
  rewrite EB, map_map. apply map_ext. intros [x y]. cbn [fst snd]. unfold bs_count_ones. now rewrite map_map.
Qed.
