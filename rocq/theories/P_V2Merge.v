(** v2 unions and intersections. *)
From Coq Require Import Lia.
From Verif Require Import M_V2 Spec_Bits Spec_Hash Spec_V2 Spec_V2File P_Base P_BitSet P_Hash P_V2 P_V2Sem P_IO P_V2Codec P_V2Make P_Fpp.
Open Scope N_scope.

Lemma frame_sym f g : v2_same_frame f g -> v2_same_frame g f.
Proof. unfold v2_same_frame. intuition congruence. Qed.
Lemma same_params_wf a b : v2_wf a -> v2_wf b -> (v2_has_same_params a b = true <-> v2_same_frame a b).
Proof.
  intros Wa Wb. unfold v2_has_same_params, v2_same_frame, bs_byte_len.
  rewrite fpp_eqb_range by (apply wf_fpp || apply wf_fpp_range; auto).
  rewrite !andb_true_iff, !N.eqb_eq, flags_eqb_eq.
  rewrite (wf_n_buckets _ Wa), (wf_n_buckets _ Wb), (wf_cache_size _ Wa), (wf_cache_size _ Wb). intuition congruence.
Qed.

(** ** iterator sums *)
Lemma checked_sum_from_lt pr l : forall acc c, acc < two64 -> checked_sum_from pr acc l = Ok c -> c < two64.
Proof.
  induction l; cbn; intros acc c Ha E. apply Ok_inj in E. congruence.
  apply obind_Ok_inv in E as (x & E1 & E). eapply IHl; [|exact E]. eapply checked_add_lt; eauto.
Qed.
Lemma checked_sum_lt pr l c : checked_sum pr l = Ok c -> c < two64.
Proof. apply checked_sum_from_lt. reflexivity. Qed.
Lemma checked_sum_from_spec pr l : forall acc, acc < two64 ->
  checked_sum_from pr acc l = if acc + sumN l <? two64 then Ok (acc + sumN l)
                              else match pr with Debug => Panic | Release => Ok (w64 (acc + sumN l)) end.
Proof.
  unfold sumN. induction l as [|x l IH]; cbn [checked_sum_from fold_right]; intros acc Ha.
  - rewrite N.add_0_r. apply N.ltb_lt in Ha as H. now rewrite H.
  - unfold checked_add. destruct (N.ltb_spec (acc + x) two64); cbn [obind].
    + rewrite IH by auto. replace (acc + x + fold_right N.add 0 l) with (acc + (x + fold_right N.add 0 l)) by lia. reflexivity.
    + destruct (N.ltb_spec (acc + (x + fold_right N.add 0 l)) two64); [lia|]. destruct pr; cbn [obind]; auto.
      rewrite IH by apply w64_lt. rewrite w64_add_l.
      replace (acc + (x + fold_right N.add 0 l)) with (acc + x + fold_right N.add 0 l) by lia.
      destruct (N.ltb_spec (w64 (acc + x) + fold_right N.add 0 l) two64); auto.
      f_equal. rewrite <- (w64_id (w64 (acc + x) + fold_right N.add 0 l)) by auto. apply w64_add_l.
Qed.
Lemma checked_sum_spec pr l : checked_sum pr l = if sumN l <? two64 then Ok (sumN l) else match pr with Debug => Panic | Release => Ok (w64 (sumN l)) end.
Proof. unfold checked_sum. rewrite checked_sum_from_spec by reflexivity. now rewrite N.add_0_l. Qed.

(** ** merging buckets *)
Lemma zip_outcome_Ok {A B C} (g : A -> B -> outcome C) a : forall b, length a = length b ->
  (forall x y, In x a -> In y b -> exists z, g x y = Ok z) -> exists l, zip_outcome g a b = Ok l.
Proof.
  induction a as [|x a IH]; intros [|y b] Hl H; try discriminate; cbn; eauto.
  destruct (H x y) as [z ->]; [now left|now left|]. cbn [obind].
  destruct (IH b) as [l ->]; [now injection Hl|intros; apply H; now right|]. cbn. eauto.
Qed.
Lemma zip_outcome_len {A B C} (g : A -> B -> outcome C) a : forall b l, zip_outcome g a b = Ok l -> length l = length a.
Proof.
  induction a as [|x a IH]; intros [|y b] l E; cbn in E; try discriminate; try (apply Ok_inj in E; now subst l).
  apply obind_Ok_inv in E as (c & _ & E). apply obind_Ok_inv in E as (r & E1 & E). apply Ok_inj in E. subst l. cbn. f_equal. eauto.
Qed.
Lemma zip_outcome_getN {A B C} (g : A -> B -> outcome C) a : forall b l i x y, zip_outcome g a b = Ok l ->
  getN a i = Some x -> getN b i = Some y -> exists z, g x y = Ok z /\ getN l i = Some z.
Proof.
  unfold getN. intros b l i. generalize (N.to_nat i). clear i. revert b l.
  induction a as [|x a IH]; intros [|y b] l n u v E; cbn in E; try discriminate; intros Hx Hy; destruct n; try discriminate; cbn in *;
  apply obind_Ok_inv in E as (c & E1 & E); apply obind_Ok_inv in E as (r & E2 & E); apply Ok_inj in E; subst l.
  - apply Some_inj in Hx, Hy. subst. exists c. auto.
  - cbn. eapply IH; eauto.
Qed.
Lemma zip_outcome_Forall {A B C} (g : A -> B -> outcome C) (P : C -> Prop) a : forall b l, zip_outcome g a b = Ok l ->
  (forall x y z, In x a -> In y b -> g x y = Ok z -> P z) -> Forall P l.
Proof.
  induction a as [|x a IH]; intros [|y b] l E H; cbn in E; try discriminate; try (apply Ok_inj in E; subst l; constructor).
  apply obind_Ok_inv in E as (c & E1 & E). apply obind_Ok_inv in E as (r & E2 & E). apply Ok_inj in E. subst l. constructor.
  - eapply H; eauto; now left.
  - eapply IH; eauto. intros; eapply H; eauto; now right.
Qed.

Record bitop := { bo_word : N -> N -> N; bo_bool : bool -> bool -> bool;
  bo_bit : forall x y n, N.testbit (bo_word x y) n = bo_bool (N.testbit x n) (N.testbit y n);
  bo_00 : bo_bool false false = false;
  bo_lt : forall x y, x < 2 ^ 8 -> y < 2 ^ 8 -> bo_word x y < 2 ^ 8 }.
Definition op_or : bitop := {| bo_word := N.lor; bo_bool := orb; bo_bit := N.lor_spec; bo_00 := eq_refl; bo_lt := fun x y => lor_lt x y 8 |}.
Definition op_and : bitop := {| bo_word := N.land; bo_bool := andb; bo_bit := N.land_spec; bo_00 := eq_refl; bo_lt := fun x y H _ => land_lt x y 8 H |}.
Definition vec_op (o : bitop) (a b : list N) : outcome (list N) := if len a =? len b then zip_with (bo_word o) a b else Panic.
Definition arr_op (o : bitop) (a b : list N) : outcome (list N) := zip_with (bo_word o) a b.

Record v2_merge_effect (o : bitop) (pr : profile) (L : libm) (a b g : v2) (r : outcome unit) : Prop := {
  me_frame : v2_same_frame a g;
  me_data : v2_data g = v2_data a;
  me_wf : v2_wf g;
  me_bits : forall k i, v2_bit g k i = bo_bool o (v2_bit a k i) (v2_bit b k i);
  me_cbits : forall i, v2_cbit g i = bo_bool o (v2_cbit a i) (v2_cbit b i);
  me_cases : match r with
    | Ok _ => checked_sum pr (v2_estimates L g) = Ok (v2_count g)
    | Err _ => False
    | Panic => pr = Debug /\ two64 <= sumN (v2_estimates L g) /\ v2_count g = v2_count a
    end
}.
Lemma v2_merge_ok o pr L a b : v2_wf a -> v2_wf b -> v2_has_same_params a b = true ->
  exists g r, v2_merge_with (vec_op o) (arr_op o) pr L a b = (g, r) /\ v2_merge_effect o pr L a b g r.
Proof.
  intros Wa Wb H. pose proof H as SF. apply same_params_wf in SF; auto. destruct SF as (_ & _ & _ & _ & _ & _ & EB & EC).
  unfold v2_merge_with. rewrite H. cbn [negb].
  unfold vec_op. rewrite EC, N.eqb_refl. rewrite zip_with_Ok by (unfold len in EC; lia).
  set (cache := map _ (combine (v2_index_cache a) (v2_index_cache b))).
  assert (Ecache : zip_with (bo_word o) (v2_index_cache a) (v2_index_cache b) = Ok cache) by (apply zip_with_Ok; unfold len in EC; lia).
  assert (LA := wf_buckets _ Wa). assert (LB := wf_buckets _ Wb). rewrite Forall_forall in LA, LB.
  destruct (zip_outcome_Ok (arr_op o) (v2_buckets a) (v2_buckets b)) as [bks Ebks].
  { unfold len in EB. lia. }
  { intros x y Hx Hy. unfold arr_op. rewrite zip_with_Ok; eauto. destruct (LA _ Hx), (LB _ Hy). lia. }
  rewrite Ebks.
  assert (F2 : v2_same_frame a (v2_upd a cache bks (v2_count a))).
  { apply v2_upd_frame. apply zip_outcome_len in Ebks. unfold len. congruence. eapply zip_with_len; eauto. }
  assert (Wc : words_ok 8 cache). { eapply zip_with_words; [|apply (wf_cache _ Wa)|apply (wf_cache _ Wb)|eauto]. apply (bo_lt o). }
  assert (Wk : Forall (fun b => length b = N.to_nat 4096 /\ words_ok 8 b) bks).
  { eapply zip_outcome_Forall; eauto. intros x y z Hx Hy E. destruct (LA _ Hx) as [La Wx], (LB _ Hy) as [Lb Wy]. split.
    - apply zip_with_len in E. unfold len in E. lia.
    - apply (zip_with_words 8 (bo_word o) x y z); auto. apply (bo_lt o). }
  assert (W2 : forall c, c < two64 -> v2_wf (v2_upd a cache bks c)).
  { intros c Hc. apply v2_upd_wf; auto. apply zip_outcome_len in Ebks. unfold len. congruence. eapply zip_with_len; eauto. }
  assert (Bk : forall c k i, v2_bit (v2_upd a cache bks c) k i = bo_bool o (v2_bit a k i) (v2_bit b k i)).
  { intros c k i. unfold v2_bit. cbn [v2_upd v2_buckets]. destruct (N.ltb_spec k (len (v2_buckets a))) as [Hk|Hk].
    - destruct (proj1 (getN_Some _ _) Hk) as [x Gx]. assert (Hk' : k < len (v2_buckets b)) by lia. destruct (proj1 (getN_Some _ _) Hk') as [y Gy].
      destruct (zip_outcome_getN _ _ _ _ _ _ _ Ebks Gx Gy) as (z & E & Gz). rewrite Gx, Gy, Gz. unfold arr_op in E.
      eapply bit_zip; eauto using bo_bit, bo_00.
      apply getN_In in Gx. apply getN_In in Gy. destruct (LA _ Gx), (LB _ Gy). unfold len. congruence.
    - rewrite (proj2 (getN_None (v2_buckets a) k)) by auto. rewrite (proj2 (getN_None (v2_buckets b) k)) by lia.
      rewrite (proj2 (getN_None bks k)). now rewrite bo_00. apply zip_outcome_len in Ebks. unfold len in *. lia. }
  assert (Bc : forall c i, v2_cbit (v2_upd a cache bks c) i = bo_bool o (v2_cbit a i) (v2_cbit b i)).
  { intros c i. unfold v2_cbit. cbn [v2_upd v2_index_cache]. eapply bit_zip; eauto using bo_bit, bo_00. }
  unfold v2_update_count. cbn [v2_upd v2_buckets v2_n_hash_buck v2_index_cache].
  set (est := map _ bks).
  assert (Eest : forall c, v2_estimates L (v2_upd a cache bks c) = est) by reflexivity.
  destruct (checked_sum pr est) as [c|e|] eqn:CS; cbn [obind].
  - eexists _, _. split; [reflexivity|]. change (v2_merge_effect o pr L a b (v2_upd a cache bks c) (Ok tt)).
    constructor; auto. apply W2. eapply checked_sum_lt; eauto.
  - exfalso. rewrite checked_sum_spec in CS. destruct (_ <? _); [|destruct pr]; discriminate.
  - eexists _, _. split; [reflexivity|]. constructor; auto.
    + apply W2. apply (wf_count _ Wa).
    + rewrite Eest. rewrite checked_sum_spec in CS. destruct (N.ltb_spec (sumN est) two64); [discriminate|]. destruct pr; [auto|discriminate].
Qed.
Lemma v2_union_merge_op pr L a b : v2_union_merge pr L a b = v2_merge_with (vec_op op_or) (arr_op op_or) pr L a b.
Proof. reflexivity. Qed.
Lemma v2_intersection_merge_op pr L a b : v2_intersection_merge pr L a b = v2_merge_with (vec_op op_and) (arr_op op_and) pr L a b.
Proof. reflexivity. Qed.
Lemma v2_merge_differ vo ao pr L a b : v2_has_same_params a b = false -> v2_merge_with vo ao pr L a b = (a, Err Merge).
Proof. intro H. unfold v2_merge_with. now rewrite H. Qed.
Lemma v2_merge_sem o pr L a b g r : v2_wf a -> v2_wf b -> v2_merge_with (vec_op o) (arr_op o) pr L a b = (g, r) ->
  (v2_has_same_params a b = false /\ g = a /\ r = Err Merge) \/
  (v2_has_same_params a b = true /\ v2_merge_effect o pr L a b g r).
Proof.
  intros Wa Wb E. destruct (v2_has_same_params a b) eqn:S.
  - right. split; auto. destruct (v2_merge_ok o pr L a b Wa Wb S) as (g' & r' & E' & M). rewrite E in E'. apply pair_inj in E' as [-> ->]. auto.
  - left. rewrite v2_merge_differ in E by auto. apply pair_inj in E as [<- <-]. auto.
Qed.
