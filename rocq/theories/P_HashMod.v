(** The v2 index iterator for every modulus, and iterators used more than once. *)
From Coq Require Import Lia.
From Verif Require Import M_V2 Spec_Bits Spec_Hash P_Base P_Hash P_V2.
Open Scope N_scope.

Lemma pick_mod M h : M <> 0 -> (if is_power_of_two M then N.land h (M - 1) else h mod M) = h mod M.
Proof.
  intro. destruct (is_power_of_two M) eqn:E; auto. apply is_power_of_two_spec in E as [k ->].
  rewrite N.sub_1_r, <- N.ones_equiv, N.land_ones. reflexivity.
Qed.

Lemma it_collect_mod wy M b h H2 c : M <> 0 -> H2 = wy_hash_one wy (be_bytes 8 h) -> c < two64 ->
  forall n i, 1 <= i -> i + N.of_nat n = c ->
  forall s1 s2, s1 = w64 (h + (i - 1) * H2 + ((i - 1) ^ 3 - (i - 1)) / 6) ->
  (i = 1 -> s1 = h) ->
  (1 < i -> s2 = w64 (H2 + (i - 1) * i / 2)) ->
  it_collect wy M n {| it_init := b; it_h1 := s1; it_h2 := s2; it_i := i; it_count := c |}
  = map (fun j => edh_hash h H2 (N.of_nat j) mod M) (seq (N.to_nat i) n).
Proof.
  intros HM HH Hc. induction n; intros i Hi Hn s1 s2 H1 H1' Hs2; cbn [it_collect seq map]; auto.
  unfold it_next. cbn [it_i it_count it_h1 it_h2 it_init].
  destruct (N.ltb_spec i c); [|lia]. destruct (N.ltb_spec 0 i); [|lia].
  set (h2 := if i =? 1 then wy_hash_one wy (be_bytes 8 s1) else s2).
  assert (Eh2 : h2 = w64 (H2 + (i - 1) * i / 2)).
  { unfold h2. destruct (N.eqb_spec i 1).
    - rewrite H1' by auto. subst i. rewrite HH. change ((1 - 1) * 1 / 2) with 0. rewrite N.add_0_r.
      unfold wy_hash_one, wy_finish. now rewrite w64_w64.
    - apply Hs2. lia. }
  assert (E1 : w64 (s1 + h2) = w64 (h + i * H2 + (i ^ 3 - i) / 6)).
  { rewrite H1, Eh2, w64_add_l, w64_add_r. f_equal.
    pose proof (tetra_step (i - 1)) as T. replace (i - 1 + 1) with i in T by lia. rewrite T. nia. }
  cbn [fst snd]. cbv iota beta. rewrite pick_mod by auto.
  f_equal.
  - rewrite E1. unfold edh_hash. rewrite N2Nat.id. reflexivity.
  - rewrite (w64_id (i + 1)) by lia. rewrite (IHn (i + 1)); try lia.
    + f_equal. f_equal. lia.
    + rewrite E1. replace (i + 1 - 1) with i by lia. reflexivity.
    + intro. replace (i + 1 - 1) with i by lia. rewrite Eh2, w64_add_l. f_equal.
      rewrite <- N.add_assoc. f_equal. pose proof (tri_step (i - 1)) as T.
      replace (i - 1 + 1) with i in T by lia. replace (i - 1 + 2) with (i + 1) in T by lia. lia.
Qed.

Lemma it_list_mod wy M it c : M <> 0 -> it_i it = 0 -> it_h1 it < two64 -> c < two64 ->
  it_list wy M (it_set_count it c)
  = map (fun j => edh_hash (it_h1 it) (wy_hash_one wy (be_bytes 8 (it_h1 it))) (N.of_nat j) mod M) (seq 0 (N.to_nat c)).
Proof.
  intros HM Hi Hh Hc. unfold it_list, it_set_count. cbn [it_i it_count]. rewrite Hi, N.sub_0_r.
  destruct (N.to_nat c) as [|n] eqn:E; auto.
  cbn [it_collect seq map]. unfold it_next. cbn [it_i it_count it_h1 it_h2 it_init].
  destruct (N.ltb_spec 0 c); [|lia]. cbn [N.ltb]. change (0 <? 0) with false. cbv iota.
  rewrite pick_mod by auto. f_equal.
  - unfold edh_hash. change (N.of_nat 0) with 0. cbn [N.mul]. change ((0 ^ 3 - 0) / 6) with 0.
    rewrite !N.add_0_r. rewrite (N.mod_small _ (2 ^ 64)); auto.
  - change (w64 (0 + 1)) with 1. rewrite (it_collect_mod wy M (it_init it) (it_h1 it) _ c HM eq_refl Hc n 1); auto; try lia.
    + cbn [N.sub]. change (1 - 1) with 0. change ((0 ^ 3 - 0) / 6) with 0. rewrite N.mul_0_l, !N.add_0_r.
      symmetry. now apply w64_id.
Qed.

(** insert_iter and contains_iter depend on the first hash of the iterator only. *)
Lemma insert_iter_h1 pr wy f it it' : it_is_init it = true -> it_is_init it' = true -> it_h1 it = it_h1 it' ->
  v2_insert_iter pr wy f it = v2_insert_iter pr wy f it'.
Proof.
  intros H H' E. unfold v2_insert_iter. rewrite H, H'. unfold it_bucket_hash. cbn [it_set_count it_h1].
  rewrite <- E, (it_list_h1 wy BIT_SET_MOD it' it); auto.
  - unfold it_is_init in *. apply andb_prop in H' as [_ H']. now apply N.eqb_eq.
  - unfold it_is_init in *. apply andb_prop in H as [_ H]. now apply N.eqb_eq.
Qed.
Lemma contains_iter_h1 wy f it it' : it_is_init it = true -> it_is_init it' = true -> it_h1 it = it_h1 it' ->
  v2_contains_iter wy f it = v2_contains_iter wy f it'.
Proof.
  intros H H' E. unfold v2_contains_iter. rewrite H, H'. unfold it_bucket_hash. cbn [it_set_count it_h1].
  rewrite <- E, (it_list_h1 wy BIT_SET_MOD it' it); auto.
  - unfold it_is_init in *. apply andb_prop in H' as [_ H']. now apply N.eqb_eq.
  - unfold it_is_init in *. apply andb_prop in H as [_ H]. now apply N.eqb_eq.
Qed.

(** An iterator from which a value was taken is no longer accepted. *)
Lemma next_used wy M it x it' : it_count it < two64 -> it_next wy M it = (Some x, it') -> it_is_init it' = false.
Proof.
  intros Hc H. unfold it_next in H. destruct (N.ltb_spec (it_i it) (it_count it)); [|discriminate].
  destruct (if 0 <? it_i it then _ else _) as [a b]. apply pair_inj in H as [_ <-]. unfold it_is_init. cbn [it_init it_i].
  rewrite w64_id by lia. apply andb_false_intro2. apply N.eqb_neq. lia.
Qed.
Lemma next_none wy M it it' : it_next wy M it = (None, it') -> it' = it.
Proof.
  unfold it_next. destruct (it_i it <? it_count it); [destruct (if 0 <? it_i it then _ else _)|]; intro H; apply pair_inj in H as [H <-]; [discriminate|auto].
Qed.

(** Byte keys. *)
Lemma byte_key_hash wy b k : byte_key b k -> hash_pop wy k = hash_slice wy b.
Proof. intros [->|[->|[->| ->]]]; reflexivity. Qed.
Lemma byte_key_build wy b k : byte_key b k -> v2_build_index_iter wy k = it_init_with_slice wy it_new b.
Proof. intros [->|[->|[->| ->]]]; reflexivity. Qed.
Lemma pad8_length b : len b <= 8 -> length (pad8 b) = 8%nat.
Proof. intro. unfold pad8. rewrite app_length, repeat_length. unfold len in *. lia. Qed.
Lemma pad8_bytes b : bytes_ok b -> bytes_ok (pad8 b).
Proof. intro. apply Forall_app; split; auto. apply Forall_repeat. lia. Qed.
Lemma short_hash wy a b : bytes_ok a -> bytes_ok b -> len a <= 8 -> len b <= 8 ->
  (hash_slice wy a = hash_slice wy b <-> pad8 a = pad8 b).
Proof.
  intros. unfold hash_slice. destruct (N.ltb_spec 8 (len a)); [lia|]. destruct (N.ltb_spec 8 (len b)); [lia|].
  split; [|intros ->; auto]. intro E. apply of_le_inj; auto using pad8_bytes. now rewrite !pad8_length.
Qed.
Lemma pad8_same_length a b : length a = length b -> pad8 a = pad8 b -> a = b.
Proof. intros E H. unfold pad8 in H. rewrite E in H. eapply app_inv_tail; eauto. Qed.
Lemma pad8_zeros a n : (length a + n <= 8)%nat -> pad8 (a ++ repeat 0 n) = pad8 a.
Proof.
  intro. unfold pad8. rewrite <- app_assoc, <- repeat_app, app_length, repeat_length. do 2 f_equal. lia.
Qed.
(** Equal padded forms: one is the other followed by zeros. *)
Lemma pad8_inv a b : (length a <= length b <= 8)%nat -> pad8 a = pad8 b -> b = a ++ repeat 0 (length b - length a).
Proof.
  intros L H. unfold pad8 in H.
  replace (8 - length a)%nat with ((length b - length a) + (8 - length b))%nat in H by lia.
  rewrite repeat_app, app_assoc in H. apply app_inv_tail in H. auto.
Qed.
