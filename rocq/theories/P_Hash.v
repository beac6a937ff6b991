(** Lemmas on the hash functions and index iterators. *)
From Coq Require Import Lia.
From Verif Require Import M_Hash Spec_Hash P_Base.
Open Scope N_scope.

(** ** FNV *)
Lemma chunks8_concat_fuel n : forall l, (length l <= n)%nat ->
  concat (fst (chunks8 l)) ++ snd (chunks8 l) = l.
Proof.
  induction n; intros l H.
  - destruct l; cbn in *; auto; lia.
  - do 8 (destruct l as [|? l]; [reflexivity|]). cbn [chunks8].
    destruct (chunks8 l) as [cs r] eqn:E. cbn. specialize (IHn l). rewrite E in IHn. cbn in IHn.
    rewrite IHn; auto. cbn in H. lia.
Qed.
Lemma chunks8_concat l : concat (fst (chunks8 l)) ++ snd (chunks8 l) = l.
Proof. eapply chunks8_concat_fuel; eauto. Qed.
Lemma fold_left_concat {A} (f : N -> A -> N) cs s :
  fold_left (fun s c => fold_left f c s) cs s = fold_left f (concat cs) s.
Proof. revert s; induction cs; cbn; intros; auto. now rewrite fold_left_app, IHcs. Qed.
Lemma fnv_write_fold s l : fnv_write s l = fold_left fnv_byte l s.
Proof.
  unfold fnv_write. pose proof (chunks8_concat l) as H. destruct (chunks8 l) as [cs r]. cbn [fst snd] in H.
  rewrite fold_left_concat. rewrite <- H at 1. rewrite fold_left_app. now destruct r.
Qed.
Lemma fnv_write_app s a b : fnv_write s (a ++ b) = fnv_write (fnv_write s a) b.
Proof. rewrite !fnv_write_fold. apply fold_left_app. Qed.
Lemma fnv_hash_one_spec l : fnv_hash_one l = fnv1 l.
Proof. unfold fnv_hash_one. rewrite fnv_write_fold. reflexivity. Qed.
Lemma lxor_lt x y w : x < 2 ^ w -> y < 2 ^ w -> N.lxor x y < 2 ^ w.
Proof.
  intros. apply lt_pow2_testbit. intros. rewrite N.lxor_spec.
  rewrite (testbit_lt_pow2 x w), (testbit_lt_pow2 y w); auto.
Qed.
Lemma fnv_byte_lt s b : b < 256 -> fnv_byte s b < two64.
Proof. intro. unfold fnv_byte. apply (lxor_lt _ _ 64). apply w64_lt. lia. Qed.

(** ** v1 fingerprint *)
Lemma V1_M_pos : V1_M <> 0. Proof. discriminate. Qed.
Lemma fp_collect_spec data m : m <> 0 -> forall n i c h, i + N.of_nat n = c -> c < two64 ->
  h = dcso_h data (N.to_nat i) ->
  fp_collect n {| fp_h := h; fp_m := m; fp_i := i; fp_count := c |}
  = map (fun j => Ok (dcso_h data (S j) mod m)) (seq (N.to_nat i) n).
Proof.
  intro Hm. induction n; intros i c h Hc Hlt Hh; cbn [fp_collect seq map]; auto.
  unfold fp_next. cbn [fp_i fp_count fp_h fp_m].
  destruct (N.ltb_spec i c); [|lia].
  destruct (N.eqb_spec m 0); [contradiction|]. f_equal.
  - subst h. reflexivity.
  - rewrite (w64_id (i + 1)) by lia. rewrite IHn.
    + now rewrite N2Nat.inj_add, Nat.add_1_r.
    + lia.
    + auto.
    + subst h. rewrite N2Nat.inj_add, Nat.add_1_r. reflexivity.
Qed.
Lemma fp_list_spec k m data : k < two64 -> m <> 0 ->
  fp_list (fp_fingerprint (fp_new k m) data) = map Ok (dcso_positions k m data).
Proof.
  intros Hk Hm. unfold fp_list, fp_fingerprint, fp_new. cbn [fp_i fp_count fp_h fp_m].
  rewrite N.sub_0_r. rewrite (fp_collect_spec data m Hm (N.to_nat k) 0 k).
  - unfold dcso_positions. now rewrite map_map.
  - lia.
  - auto.
  - cbn [N.to_nat dcso_h]. rewrite fnv_hash_one_spec. reflexivity.
Qed.
Lemma fp_list_zero_m k data : fp_list (fp_fingerprint (fp_new k 0) data) = if k =? 0 then [] else [Panic].
Proof.
  unfold fp_list, fp_fingerprint, fp_new. cbn [fp_i fp_count fp_h fp_m]. rewrite N.sub_0_r.
  destruct (N.eqb_spec k 0). now subst. destruct (N.to_nat k) eqn:E; [lia|]. cbn [fp_collect].
  unfold fp_next. cbn [fp_i fp_count fp_h fp_m]. destruct (N.ltb_spec 0 k); [reflexivity|lia].
Qed.
Lemma dcso_positions_length k m d : length (dcso_positions k m d) = N.to_nat k.
Proof. unfold dcso_positions. now rewrite map_length, seq_length. Qed.
Lemma dcso_positions_lt k m d x : m <> 0 -> In x (dcso_positions k m d) -> x < m.
Proof. intros Hm H. apply in_map_iff in H as [i [<- _]]. now apply N.mod_lt. Qed.

(** ** v2 index iterator *)
(** (i^3 - i) / 6 by recursion. *)
Lemma tetra_step i : ((i + 1) ^ 3 - (i + 1)) / 6 = (i ^ 3 - i) / 6 + i * (i + 1) / 2.
Proof.
  assert (E1 : exists q, i * (i + 1) = 2 * q).
  { destruct (N.even i) eqn:E. apply N.even_spec in E as [q ->]. exists (q * (2 * q + 1)). lia.
    rewrite <- N.negb_odd in E. apply negb_false_iff, N.odd_spec in E as [q ->]. exists ((2 * q + 1) * (q + 1)). lia. }
  assert (E2 : exists q, i ^ 3 - i = 6 * q).
  { clear. induction i as [|i [q Hq]] using N.peano_ind. exists 0. reflexivity.
    assert (E1 : exists q, i * (i + 1) = 2 * q).
    { destruct (N.even i) eqn:E. apply N.even_spec in E as [r ->]. exists (r * (2 * r + 1)). lia.
      rewrite <- N.negb_odd in E. apply negb_false_iff, N.odd_spec in E as [r ->]. exists ((2 * r + 1) * (r + 1)). lia. }
    destruct E1 as [r Hr]. exists (q + r). rewrite <- N.add_1_r.
    assert (i <= i ^ 3). { destruct (N.eq_dec i 0). subst; cbn; lia. replace (i ^ 3) with (i * (i * i)) by (rewrite !N.pow_succ_r' || (change 3 with (N.succ (N.succ (N.succ 0))); rewrite !N.pow_succ_r', N.pow_0_r; lia)). nia. }
    assert ((i + 1) ^ 3 = i ^ 3 + 3 * (i * (i + 1)) + 1).
    { change 3 with (N.succ (N.succ (N.succ 0))) at 1 2. rewrite !N.pow_succ_r', !N.pow_0_r. lia. }
    lia. }
  destruct E1 as [r Hr], E2 as [q Hq].
  assert (i <= i ^ 3). { destruct (N.eq_dec i 0). subst; cbn; lia. replace (i ^ 3) with (i * (i * i)) by (change 3 with (N.succ (N.succ (N.succ 0))); rewrite !N.pow_succ_r', N.pow_0_r; lia). nia. }
  assert ((i + 1) ^ 3 = i ^ 3 + 3 * (i * (i + 1)) + 1).
  { change 3 with (N.succ (N.succ (N.succ 0))) at 1 2. rewrite !N.pow_succ_r', !N.pow_0_r. lia. }
  replace ((i + 1) ^ 3 - (i + 1)) with ((q + r) * 6) by lia.
  replace (i ^ 3 - i) with (q * 6) by lia. replace (i * (i + 1)) with (r * 2) by lia.
  rewrite !N.div_mul by discriminate. lia.
Qed.
Lemma tri_step i : (i + 1) * (i + 2) / 2 = i * (i + 1) / 2 + (i + 1).
Proof.
  replace ((i + 1) * (i + 2)) with (i * (i + 1) + (i + 1) * 2) by lia. rewrite N.div_add by discriminate. reflexivity.
Qed.

(** State of the iterator after [i] >= 1 steps. *)
Lemma it_collect_spec wy b h H2 c : H2 = wy_hash_one wy (be_bytes 8 h) -> c < two64 ->
  forall n i, 1 <= i -> i + N.of_nat n = c ->
  forall s1 s2, s1 = w64 (h + (i - 1) * H2 + ((i - 1) ^ 3 - (i - 1)) / 6) ->
  (i = 1 -> s1 = h) ->
  (1 < i -> s2 = w64 (H2 + (i - 1) * i / 2)) ->
  it_collect wy 32768 n {| it_init := b; it_h1 := s1; it_h2 := s2; it_i := i; it_count := c |}
  = map (fun j => edh_index h H2 (N.of_nat j)) (seq (N.to_nat i) n).
Proof.
  intros HH Hc. induction n; intros i Hi Hn s1 s2 H1 H1' Hs2; cbn [it_collect seq map]; auto.
  unfold it_next. cbn [it_i it_count it_h1 it_h2 it_init].
  destruct (N.ltb_spec i c); [|lia]. destruct (N.ltb_spec 0 i); [|lia].
  set (h2 := if i =? 1 then wy_hash_one wy (be_bytes 8 s1) else s2).
  assert (Eh2 : h2 = w64 (H2 + (i - 1) * i / 2)).
  { unfold h2. destruct (N.eqb_spec i 1).
    - rewrite H1' by auto. subst i. rewrite HH. change ((1 - 1) * 1 / 2) with 0. rewrite N.add_0_r.
      unfold wy_hash_one, wy_finish. now rewrite w64_w64.
    - apply Hs2. lia. }
  assert (E1 : w64 (s1 + h2) = w64 (h + i * H2 + (i ^ 3 - i) / 6)).
  { rewrite H1, Eh2, w64_add_l, w64_add_r. f_equal.
    pose proof (tetra_step (i - 1)) as T. replace (i - 1 + 1) with i in T by lia. rewrite T. nia. }
  change (is_power_of_two 32768) with true. cbn [fst snd]. cbv iota beta.
  f_equal.
  - rewrite E1. unfold edh_index. change (32768 - 1) with (N.ones 15). rewrite N.land_ones, N2Nat.id. reflexivity.
  - rewrite (w64_id (i + 1)) by lia. rewrite (IHn (i + 1)); try lia.
    + f_equal. f_equal. lia.
    + rewrite E1. replace (i + 1 - 1) with i by lia. reflexivity.
    + intro. replace (i + 1 - 1) with i by lia. rewrite Eh2, w64_add_l. f_equal.
      rewrite <- N.add_assoc. f_equal. pose proof (tri_step (i - 1)) as T.
      replace (i - 1 + 1) with i in T by lia. replace (i - 1 + 2) with (i + 1) in T by lia. lia.
Qed.

Lemma it_list_spec wy it c : it_i it = 0 -> it_h1 it < two64 -> c < two64 ->
  it_list wy 32768 (it_set_count it c) = edh_positions c (it_h1 it) (wy_hash_one wy (be_bytes 8 (it_h1 it))).
Proof.
  intros Hi Hh Hc. unfold it_list, it_set_count. cbn [it_i it_count]. rewrite Hi, N.sub_0_r.
  unfold edh_positions. destruct (N.to_nat c) as [|n] eqn:E; auto.
  cbn [it_collect seq map]. unfold it_next. cbn [it_i it_count it_h1 it_h2 it_init].
  destruct (N.ltb_spec 0 c); [|lia]. cbn [N.ltb]. change (0 <? 0) with false. cbv iota.
  change (is_power_of_two 32768) with true. cbv iota. f_equal.
  - unfold edh_index, edh_hash. change (N.of_nat 0) with 0. cbn [N.mul]. change ((0 ^ 3 - 0) / 6) with 0.
    rewrite !N.add_0_r. change (32768 - 1) with (N.ones 15). rewrite N.land_ones.
    rewrite (N.mod_small _ (2 ^ 64)); auto.
  - change (w64 (0 + 1)) with 1. rewrite (it_collect_spec wy (it_init it) (it_h1 it) _ c eq_refl Hc n 1); auto; try lia.
    + cbn [N.sub]. change (1 - 1) with 0. change ((0 ^ 3 - 0) / 6) with 0. rewrite N.mul_0_l, !N.add_0_r.
      symmetry. now apply w64_id.
Qed.
Lemma edh_positions_length k a b : length (edh_positions k a b) = N.to_nat k.
Proof. unfold edh_positions. now rewrite map_length, seq_length. Qed.
Lemma edh_positions_lt k a b x : In x (edh_positions k a b) -> x < 32768.
Proof. intro H. apply in_map_iff in H as [i [<- _]]. apply N.mod_lt. discriminate. Qed.

(** Without any range hypothesis: values stay below the bucket size. *)
Lemma it_collect_lt wy n : forall it x, In x (it_collect wy 32768 n it) -> x < 32768.
Proof.
  induction n; cbn [it_collect]; intros it x H; [destruct H|].
  unfold it_next in H. destruct (it_i it <? it_count it); [|destruct H].
  destruct (if 0 <? it_i it then _ else _) as [a b]. change (is_power_of_two 32768) with true in H. cbv iota in H.
  destruct H as [<-|H].
  - change (32768 - 1) with (N.ones 15). rewrite N.land_ones. now apply N.mod_lt.
  - eauto.
Qed.
Lemma it_list_lt wy it x : In x (it_list wy 32768 it) -> x < 32768.
Proof. apply it_collect_lt. Qed.

(** Only [h1] and the count matter when i = 0. *)
Lemma it_collect_h2 wy M n : forall it it', it_i it = 0 -> it_i it' = 0 -> it_h1 it = it_h1 it' ->
  it_count it = it_count it' -> it_collect wy M n it = it_collect wy M n it'.
Proof.
  intros [b1 a1 z1 i1 c1] [b2 a2 z2 i2 c2]; cbn. intros -> -> -> ->.
  destruct n; auto. cbn [it_collect]. unfold it_next. cbn [it_i it_count it_h1 it_h2 it_init].
  destruct (0 <? c2); auto. change (0 <? 0) with false. cbv iota. f_equal.
  destruct n; auto. cbn [it_collect]. unfold it_next. cbn [it_i it_count it_h1 it_h2 it_init].
  change (w64 (0 + 1)) with 1. destruct (1 <? c2); auto. change (0 <? 1) with true. change (1 =? 1) with true. cbv iota.
  f_equal. change (w64 (1 + 1)) with 2.
  generalize (w64 (a2 + wy_hash_one wy (be_bytes 8 a2))) (w64 (wy_hash_one wy (be_bytes 8 a2) + 1)).
  assert (G : forall m i u v, it_collect wy M m {| it_init := b1; it_h1 := u; it_h2 := v; it_i := i; it_count := c2 |}
     = it_collect wy M m {| it_init := b2; it_h1 := u; it_h2 := v; it_i := i; it_count := c2 |}).
  { induction m; intros; cbn [it_collect]; auto. unfold it_next. cbn [it_i it_count it_h1 it_h2 it_init].
    destruct (i <? c2); auto. destruct (if 0 <? i then _ else _). f_equal. apply IHm. }
  intros. apply G.
Qed.
Lemma it_list_h1 wy M it it' c : it_i it = 0 -> it_i it' = 0 -> it_h1 it = it_h1 it' ->
  it_list wy M (it_set_count it c) = it_list wy M (it_set_count it' c).
Proof.
  intros H H' E. unfold it_list, it_set_count. cbn [it_i it_count]. rewrite H, H'.
  apply it_collect_h2; auto.
Qed.

(** ** hashes of keys *)
Lemma of_le_pad8_lt b : bytes_ok b -> len b <= 8 -> of_le (pad8 b) < two64.
Proof.
  intros. apply of_le8_lt. apply Forall_app; split; auto. apply Forall_repeat. lia.
  unfold pad8. rewrite app_length, repeat_length. unfold len in *. lia.
Qed.
Lemma hash_slice_lt wy b : bytes_ok b -> hash_slice wy b < two64.
Proof.
  intro. unfold hash_slice. destruct (N.ltb_spec 8 (len b)). apply w64_lt. now apply of_le_pad8_lt.
Qed.
Lemma hash_pop_lt wy k : key_ok k -> hash_pop wy k < two64.
Proof. destruct k; cbn; intros; try (now apply hash_slice_lt); apply w64_lt. Qed.

Lemma of_le_inj a : forall b, bytes_ok a -> bytes_ok b -> length a = length b -> of_le a = of_le b -> a = b.
Proof.
  intros b Ha Hb Hl H. rewrite <- (le_bytes_of_le a), <- (le_bytes_of_le b) by auto. congruence.
Qed.

(** ** the bucket scramble is a permutation of the 64-bit values *)
Definition lsh (a x : N) : N := N.lxor x (w64 (N.shiftl x a)).
Definition rsh (a x : N) : N := N.lxor x (N.shiftr x a).
Lemma testbit_w64 x j : N.testbit (w64 x) j = (j <? 64) && N.testbit x j.
Proof.
  unfold w64. rewrite two64_pow, <- N.land_ones, N.land_spec.
  destruct (N.ltb_spec j 64). rewrite N.ones_spec_low; auto. now rewrite andb_true_r.
  rewrite N.ones_spec_high; auto. now rewrite andb_false_r.
Qed.
Lemma lsh_lt a x : x < two64 -> lsh a x < two64.
Proof. intro. unfold lsh. apply (lxor_lt _ _ 64); auto. apply w64_lt. Qed.
Lemma rsh_lt a x : x < two64 -> rsh a x < two64.
Proof.
  intro. unfold rsh. apply (lxor_lt _ _ 64); auto. rewrite N.shiftr_div_pow2. eapply N.le_lt_trans; [|exact H].
  apply N.div_le_upper_bound. now apply N.pow_nonzero. rewrite <- (N.mul_1_l x) at 1.
  apply N.mul_le_mono_r. assert (2 ^ a <> 0) by now apply N.pow_nonzero. lia.
Qed.
Lemma lsh_bit a x j : N.testbit (lsh a x) j = xorb (N.testbit x j) ((j <? 64) && (a <=? j) && N.testbit x (j - a)).
Proof.
  unfold lsh. rewrite N.lxor_spec, testbit_w64. f_equal. destruct (N.leb_spec a j).
  - rewrite N.shiftl_spec_high' by auto. now rewrite andb_true_r.
  - rewrite N.shiftl_spec_low by auto. now rewrite !andb_false_r.
Qed.
Lemma rsh_bit a x j : N.testbit (rsh a x) j = xorb (N.testbit x j) (N.testbit x (j + a)).
Proof. unfold rsh. now rewrite N.lxor_spec, N.shiftr_spec'. Qed.
Lemma lsh_twice a x : lsh a (lsh a x) = lsh (2 * a) x.
Proof.
  apply N.bits_inj. intro j. rewrite !lsh_bit.
  destruct (N.ltb_spec j 64); cbn [andb]; [|now rewrite !xorb_false_r].
  destruct (N.leb_spec a j); cbn [andb].
  - destruct (N.ltb_spec (j - a) 64); [|lia]. cbn [andb].
    replace (2 * a <=? j) with (a <=? j - a) by (destruct (N.leb_spec a (j - a)), (N.leb_spec (2 * a) j); auto; lia).
    replace (j - 2 * a) with (j - a - a) by lia.
    destruct (N.testbit x j), (N.testbit x (j - a)), (a <=? j - a), (N.testbit x (j - a - a)); reflexivity.
  - destruct (N.leb_spec (2 * a) j); [lia|]. now rewrite !xorb_false_r.
Qed.
Lemma rsh_twice a x : rsh a (rsh a x) = rsh (2 * a) x.
Proof.
  apply N.bits_inj. intro j. rewrite !rsh_bit. replace (j + 2 * a) with (j + a + a) by lia.
  destruct (N.testbit x j), (N.testbit x (j + a)), (N.testbit x (j + a + a)); reflexivity.
Qed.
Lemma lsh_big a x : 64 <= a -> lsh a x = x.
Proof.
  intro. apply N.bits_inj. intro j. rewrite lsh_bit. destruct (N.ltb_spec j 64), (N.leb_spec a j); cbn [andb];
    try lia; apply xorb_false_r.
Qed.
Lemma rsh_big a x : x < two64 -> 64 <= a -> rsh a x = x.
Proof.
  intros. apply N.bits_inj. intro j. rewrite rsh_bit. rewrite (testbit_lt_pow2 x 64 (j + a)). apply xorb_false_r.
  exact H. lia.
Qed.
Lemma lsh_comm a b x : lsh a (lsh b x) = lsh b (lsh a x).
Proof.
  apply N.bits_inj. intro j. rewrite !lsh_bit.
  destruct (N.ltb_spec j 64); cbn [andb]; [|now rewrite !xorb_false_r].
  destruct (N.ltb_spec (j - a) 64); [|lia]. destruct (N.ltb_spec (j - b) 64); [|lia]. cbn [andb].
  replace (j - a - b) with (j - b - a) by lia.
  destruct (N.leb_spec a j), (N.leb_spec b j), (N.leb_spec b (j - a)), (N.leb_spec a (j - b)); try lia; cbn [andb];
  destruct (N.testbit x j), (N.testbit x (j - a)), (N.testbit x (j - b)), (N.testbit x (j - b - a)); reflexivity.
Qed.
Lemma rsh_comm a b x : rsh a (rsh b x) = rsh b (rsh a x).
Proof.
  apply N.bits_inj. intro j. rewrite !rsh_bit. replace (j + a + b) with (j + b + a) by lia.
  destruct (N.testbit x j), (N.testbit x (j + a)), (N.testbit x (j + b)), (N.testbit x (j + b + a)); reflexivity.
Qed.
Definition xs_unmix (y : N) : N :=
  let z := w64 (y * 6415128727920758069) in
  let u := lsh 27 (lsh 54 z) in
  let v := rsh 25 (rsh 50 u) in
  lsh 12 (lsh 24 (lsh 48 v)).
Lemma xorshift_star_alt x : xorshift_star x = w64 (lsh 27 (rsh 25 (lsh 12 x)) * 2685821657736338717).
Proof. reflexivity. Qed.
Lemma xs_unmix_lt y : xs_unmix y < two64.
Proof. unfold xs_unmix. apply lsh_lt, lsh_lt, lsh_lt, rsh_lt, rsh_lt, lsh_lt, lsh_lt, w64_lt. Qed.
Lemma mul_cancel x a b : a * b mod two64 = 1 -> x < two64 -> w64 (w64 (x * a) * b) = x.
Proof.
  intros H Hx. rewrite w64_mul_l. rewrite <- N.mul_assoc. unfold w64. rewrite N.mul_mod by discriminate. rewrite H.
  rewrite N.mul_1_r, N.mod_mod by discriminate. now apply N.mod_small.
Qed.
Lemma xs_unmix_l x : x < two64 -> xs_unmix (xorshift_star x) = x.
Proof.
  intro H. rewrite xorshift_star_alt. unfold xs_unmix.
  rewrite mul_cancel by (auto using lsh_lt, rsh_lt).
  rewrite (lsh_comm 54 27), lsh_twice. change (2 * 27) with 54. rewrite lsh_twice, (lsh_big (2 * 54)) by lia.
  rewrite (rsh_comm 50 25), rsh_twice. change (2 * 25) with 50. rewrite rsh_twice, rsh_big by (try lia; auto using lsh_lt).
  rewrite (lsh_comm 48 12), (lsh_comm 24 12), lsh_twice. change (2 * 12) with 24. rewrite lsh_twice.
  change (2 * 24) with 48. rewrite lsh_twice, (lsh_big (2 * 48)) by lia. auto.
Qed.
Lemma xs_unmix_r y : y < two64 -> xorshift_star (xs_unmix y) = y.
Proof.
  intro H. rewrite xorshift_star_alt. unfold xs_unmix.
  rewrite lsh_twice. change (2 * 12) with 24. rewrite lsh_twice. change (2 * 24) with 48.
  rewrite lsh_twice, (lsh_big (2 * 48)) by lia.
  rewrite rsh_twice. change (2 * 25) with 50. rewrite rsh_twice, rsh_big by (try lia; auto using lsh_lt, w64_lt).
  rewrite lsh_twice. change (2 * 27) with 54. rewrite lsh_twice, (lsh_big (2 * 54)) by lia.
  now apply mul_cancel.
Qed.
