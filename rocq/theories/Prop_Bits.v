(** Bit sets, bit counts, sizes, the accepted fpp values and insertion order (C31 to C34, C37, C38). *)
From Coq Require Import Lia Permutation SpecFloat.
From Verif Require Import M_Bloom M_RefLibm Spec_Bits Spec_Hash Spec_V2 Spec_V2File Spec_V2Hist Spec_V1 P_Base P_BitSet P_Fpp P_V2 P_V2Sem P_IO P_V2Codec P_V2Make P_V2Merge P_V2Hist P_V2Props P_V2More
  P_V1 P_V1Size P_V1Codec P_V1Hist P_V1More Ex_Base Ex_V1.
Open Scope N_scope.

(** * C31 Bit set set/get laws *)
(** [bit 8 b i] is bit [i mod 8] of byte [i / 8]. Both bit set types of the library are byte lists with these operations. *)
Theorem C31_set b i : let '(b', r) := bs_set b i in
  (i < 8 * len b -> r = Ok (bit 8 b i) /\ len b' = len b /\ forall j, bit 8 b' j = if j =? i then true else bit 8 b j) /\
  (8 * len b <= i -> r = Panic /\ b' = b).
Proof.
  destruct (bs_set b i) as [b' r] eqn:E. destruct (bs_set_spec _ _ _ _ E) as (Hl & Hin & Hout). split; [|exact Hout].
  intro H. destruct (Hin H) as [Hr Hj]. split; [exact Hr|]. split; [exact Hl|]. intro j. rewrite Hj. destruct (j =? i); [apply orb_true_r|apply orb_false_r].
Qed.
Print Assumptions C31_set.
Theorem C31_get b i : bs_get b i = if i <? 8 * len b then Ok (bit 8 b i) else Panic.
Proof. exact (bs_get_spec b i). Qed.
Print Assumptions C31_get.
(** The same without reference to [bit]: what get answers after set. *)
Theorem C31_get_set b i j : i < 8 * len b -> bs_get (fst (bs_set b i)) j = if j =? i then Ok true else bs_get b j.
Proof.
  intro H. pose proof (C31_set b i) as S. destruct (bs_set b i) as [b' r]. cbn [fst]. destruct (proj1 S H) as (_ & L & B).
  rewrite !bs_get_spec, L, B. destruct (N.eqb_spec j i) as [->|]; [|reflexivity]. now rewrite (proj2 (N.ltb_lt _ _) H).
Qed.
Print Assumptions C31_get_set.
Theorem C31_clear b i : len (bs_clear b) = len b /\ bit 8 (bs_clear b) i = false.
Proof. split; [unfold len, bs_clear; now rewrite map_length|apply bit_zeros]. Qed.
Print Assumptions C31_clear.
Example C31_example : bs_set [0; 129] 9 = ([0; 131], Ok false) /\ bs_get [0; 131] 9 = Ok true /\ bs_get [0; 131] 16 = Panic.
Proof. split; [reflexivity|]. split; reflexivity. Qed.

(** * C32 unset_nth_bit clears the bit *)
(** Full statement: after unset_nth_bit(i) bit i reads false and the previous value is returned. False: the function
    never changes anything and always answers true (C32_refuted). What does hold: the other bits are unchanged and an
    index out of range panics. *)
Theorem C32_unset_partial b i : let '(b', r) := bs_unset b i in
  (forall j, bit 8 b' j = bit 8 b j) /\ len b' = len b /\ (r = Panic <-> 8 * len b <= i).
Proof.
  unfold bs_unset, bs_set_value. cbn [N.shiftl]. replace (N.shiftl 0 (N.land i 7)) with 0 by (symmetry; apply N.shiftl_0_l).
  destruct (getN b (i / 8)) as [x|] eqn:G.
  - rewrite N.lor_0_r. assert (E : setN b (i / 8) x = b) by (now apply setN_same). rewrite E. split; [reflexivity|]. split; [reflexivity|].
    split; [discriminate|]. intro H. apply getN_lt in G. assert (len b <= i / 8) by (apply N.div_le_lower_bound; lia). lia.
  - split; [reflexivity|]. split; [reflexivity|]. split; [|reflexivity]. intros _. apply getN_None in G. pose proof (N.mul_div_le i 8). lia.
Qed.
Print Assumptions C32_unset_partial.
Theorem C32_refuted : exists b i, bs_get b i = Ok true /\ bs_get (fst (bs_unset b i)) i = Ok true /\
  exists c j, bs_get c j = Ok false /\ snd (bs_unset c j) = Ok true.
Proof. exists [1], 0. split; [reflexivity|]. split; [reflexivity|]. exists [0], 0. split; reflexivity. Qed.
Print Assumptions C32_refuted.

(** * C33 Bit counting *)
(** [count_below n p] counts the positions below [n] where [p] holds. *)
Theorem C33_bitset b : words_ok 8 b -> bs_count_ones b = count_below (N.to_nat (8 * len b)) (bit 8 b) /\ bs_count_ones b + bs_count_zeros b = 8 * len b.
Proof. intro W. split; [now apply (sumN_count 8)|now apply (sumN_zeros 8)]. Qed.
Print Assumptions C33_bitset.
Theorem C33_common a b : words_ok 8 a -> words_ok 8 b -> len a = len b ->
  arr_common a b = Ok (count_below (N.to_nat (8 * len a)) (fun i => bit 8 a i && bit 8 b i)) /\ vec_common a b = arr_common a b.
Proof.
  intros Wa Wb E. split; [|unfold vec_common; now rewrite E, N.eqb_refl]. unfold arr_common.
  assert (L : (length a <= length b)%nat) by (unfold len in E; lia).
  rewrite zip_with_Ok by exact L. cbn [obind]. f_equal.
  assert (Z : zip_with N.land a b = Ok (map (fun p => N.land (fst p) (snd p)) (combine a b))) by now apply zip_with_Ok.
  rewrite <- (map_map (fun p => N.land (fst p) (snd p)) count_ones). rewrite (sumN_count 8); [|discriminate|].
  - rewrite <- (zip_with_len _ _ _ _ Z). apply count_below_ext. intros i _. now apply (bit_land 8 _ _ _ i E).
  - eapply zip_with_words; [|exact Wa|exact Wb|exact Z]. intros x y Hx Hy. now apply land_lt.
Qed.
Print Assumptions C33_common.
Lemma sum_buckets bks : Forall (fun b => length b = N.to_nat 4096 /\ words_ok 8 b) bks ->
  sumN (map bs_count_ones bks) = sumN (map (fun b => count_below (N.to_nat 32768) (bit 8 b)) bks) /\
  sumN (map bs_count_ones bks) + sumN (map bs_count_zeros bks) = 32768 * len bks.
Proof.
  induction 1 as [|b bks [L W] _ [IH1 IH2]]; [split; reflexivity|]. destruct (C33_bitset b W) as [C1 C2].
  assert (E : len b = 4096) by (unfold len; rewrite L; apply N2Nat.id). rewrite E in C1, C2. unfold sumN in *. cbn [map fold_right]. split.
  - rewrite IH1, C1. reflexivity.
  - unfold len in *. cbn [length]. lia.
Qed.
Theorem C33_v2 wy L f : v2_reach wy L f ->
  v2_count_ones f = sumN (map (fun k => count_below (N.to_nat 32768) (v2_bit f (N.of_nat k))) (seq 0 (length (v2_buckets f)))) /\
  v2_count_ones f + v2_count_zeros f = 32768 * len (v2_buckets f).
Proof.
  intro R. destruct (sum_buckets _ (wf_buckets _ (reach_wf _ _ _ R))) as [A B]. split; [|exact B]. unfold v2_count_ones. rewrite A. f_equal.
  transitivity (map (fun k => count_below (N.to_nat 32768) (fun i => match nth_error (v2_buckets f) k with Some b => bit 8 b i | None => false end)) (seq 0 (length (v2_buckets f)))).
  - clear. generalize (v2_buckets f). intro l. induction l as [|b l IH]; [reflexivity|]. cbn [map length seq nth_error]. f_equal. rewrite <- seq_shift, map_map. exact IH.
  - apply map_ext. intro k. apply count_below_ext. intros i _. unfold v2_bit, getN. now rewrite Nat2N.id.
Qed.
Print Assumptions C33_v2.
(** Full statement for v1: count_ones + count_zeros is the number of bits of the filter. Missing: the unused bits of the
    last word are counted as zeros (C33_v1_refuted), so the sum is the bit count rounded up to 64. *)
Theorem C33_v1_partial L f : v1_reach L f ->
  v1_count_ones f = count_below (N.to_nat (64 * len (v1_bitset f))) (v1_bit f) /\
  v1_count_ones f + v1_count_zeros f = 64 * len (v1_bitset f) /\
  (v1_bit_size f <= 2 ^ 53 -> v1_count_ones f + v1_count_zeros f = 64 * ((v1_bit_size f + 63) / 64)).
Proof.
  intro R. pose proof (v1_reach_wf _ _ R) as W. pose proof (w1_bits _ W) as B. split; [now apply (sumN_count 64)|].
  assert (E : v1_count_ones f + v1_count_zeros f = 64 * len (v1_bitset f)) by now apply (sumN_zeros 64). split; [exact E|].
  intro H. now rewrite E, (w1_len _ W), u64_size_exact.
Qed.
Print Assumptions C33_v1_partial.
Theorem C33_v1_refuted : exists f, v1_with_capacity ref_libm 4 p001 = Ok f /\ v1_bit_size f = 38 /\ v1_count_ones f + v1_count_zeros f = 64.
Proof. exists e0. split; [exact e0_eq|]. split; vm_compute; reflexivity. Qed.
Print Assumptions C33_v1_refuted.
Example C33_example : v2_count_ones fn2 = 14 /\ v2_count_zeros fn2 = 32754 /\ v1_count_ones e2 = 11 /\ arr_common [7; 128] [5; 255] = Ok 3.
Proof. split; [vm_compute; reflexivity|]. split; [vm_compute; reflexivity|]. split; vm_compute; reflexivity. Qed.

(** * C34 size_in_bytes is the storage size *)
Theorem C34_v2_size pr wy L f : v2_reach wy L f ->
  v2_size_in_bytes pr f = Ok (len (concat (v2_buckets f)) + len (v2_index_cache f)) /\
  len (v2_write f) = 56 + (len (concat (v2_buckets f)) + len (v2_index_cache f)) + len (v2_data f).
Proof.
  intro R. pose proof (reach_wf _ _ _ R) as W. pose proof (wf_buckets_len _ W) as HB. pose proof (wf_cache_len _ W) as HC. unfold isize_max, two64 in *.
  rewrite write_len by auto. rewrite (len_concat_fixed 4096) by (eapply Forall_impl; [|exact (wf_buckets _ W)]; now intros ? [? _]).
  split; [|lia]. unfold v2_size_in_bytes, checked_mul, checked_add, BUCKET_SIZE. rewrite (wf_n_buckets _ W), (wf_cache_size _ W).
  unfold two64. rewrite (proj2 (N.ltb_lt _ _)) by lia. cbn [obind]. rewrite (proj2 (N.ltb_lt _ _)) by lia. f_equal. lia.
Qed.
Print Assumptions C34_v2_size.
(** Full statement for v1: size_in_bytes is the number of bytes of the bit vector. False (C34_v1_refuted): it answers
    eight times the number of bits, about 64 times the truth. *)
Theorem C34_v1_size_partial pr L f : v1_reach L f -> v1_bit_size f < 2 ^ 61 ->
  v1_size_in_bytes pr f = Ok (8 * v1_bit_size f) /\ len (v1_write f) = 48 + 8 * len (v1_bitset f) + len (v1_data f) /\
  (v1_bit_size f <= 2 ^ 53 -> 8 * v1_bit_size f <= 64 * (8 * len (v1_bitset f)) <= 8 * v1_bit_size f + 504).
Proof.
  intros R H. pose proof (v1_reach_wf _ _ R) as W. split; [|split; [apply v1_write_len|]].
  - unfold v1_size_in_bytes, v1_size_in_u64, checked_mul, two64. rewrite (proj2 (N.ltb_lt _ _)) by lia. f_equal. apply N.mul_comm.
  - intro H'. rewrite (w1_len _ W), u64_size_exact by exact H'. pose proof (N.div_mod' (v1_bit_size f + 63) 64). pose proof (N.mod_lt (v1_bit_size f + 63) 64 ltac:(discriminate)). revert H0 H1. generalize ((v1_bit_size f + 63) / 64) ((v1_bit_size f + 63) mod 64). intros. lia.
Qed.
Print Assumptions C34_v1_size_partial.
Theorem C34_v1_refuted : exists f, v1_with_capacity ref_libm 4 p001 = Ok f /\ (forall pr, v1_size_in_bytes pr f = Ok 304) /\ 8 * len (v1_bitset f) = 8 /\
  len (v1_write f) = 56.
Proof. exists e0. split; [exact e0_eq|]. split; [intros []; vm_compute; reflexivity|]. split; vm_compute; reflexivity. Qed.
Print Assumptions C34_v1_refuted.
Example C34_example : v2_size_in_bytes Debug fs2 = Ok 4097 /\ len (v2_write fs2) = 4153.
Proof. split; vm_compute; reflexivity. Qed.

(** * C37 fpp acceptance domain *)
(** [b] are the 64 bits of an f64 [x]. Full statement: accepted exactly when 0 < x <= 1. Missing: positive subnormal
    numbers are rejected (C37_refuted); the accepted values are the bit patterns from f64::MIN_POSITIVE to 1.0. *)
Definition fpp_documented (b : N) : bool := SFltb (S754_zero false) (sf_of_bits b) && SFleb (sf_of_bits b) (sf_of_bits 4607182418800017408).
Theorem C37_domain_partial b : b < two64 ->
  (fpp_in_range b = true <-> 4503599627370496 <= b <= 4607182418800017408) /\
  (fpp_in_range b = true -> fpp_documented b = true) /\
  (fpp_documented b = true -> 4503599627370496 <= b -> fpp_in_range b = true).
Proof.
  intro H. pose proof (fpp_in_range_bits b H) as R. split; [exact R|].
  destruct (bits_split b H) as (s & e & m & E & He & Hm). unfold fpp_documented. unfold fpp_in_range. rewrite E, sf_of_bits_build by auto. rewrite <- E.
  rewrite leb_min_positive by auto. unfold f_leb. change 4607182418800017408 with bits_one. fold (f_leb (sf_build s e m) (sf_of_bits bits_one)). split.
  - intro Q. apply andb_true_iff in Q as [Q1 Q2]. unfold f_leb in *. rewrite Q2, andb_true_r. apply andb_true_iff in Q1 as [Q1 Q3]. apply andb_true_iff in Q1 as [Q0 Q1].
    destruct s; [discriminate|]. apply N.ltb_lt in Q1. unfold sf_build. destruct (N.eqb_spec e 0); [lia|].
    destruct (N.eqb_spec e 2047); [destruct (N.eqb_spec m 0); [reflexivity|discriminate]|]. destruct (m + q52) eqn:Z; [unfold q52 in Z; lia|reflexivity].
  - intros Q Hb. apply andb_true_iff in Q as [Q1 Q2]. unfold f_leb in *. rewrite Q2, andb_true_r.
    unfold sf_build in Q1, Q2. destruct s; cbn [negb andb].
    + exfalso. destruct (e =? 0); [destruct m; discriminate|]. destruct (e =? 2047); [destruct (m =? 0); discriminate|]. destruct (m + q52); discriminate.
    + destruct (N.eqb_spec e 0) as [->|Ne]; [unfold q52 in Hm; lia|]. apply andb_true_iff. split; [apply N.ltb_lt; lia|].
      destruct (N.eqb_spec e 2047); [|reflexivity]. destruct (m =? 0); [reflexivity|discriminate].
Qed.
Print Assumptions C37_domain_partial.
(** Every constructor rejects exactly the others, with WrongFpp, whatever the capacity, level and build. *)
Theorem C37_constructors pr L cap b opt :
  (fpp_in_range b = false -> v1_with_capacity L cap b = Err (WrongFpp b) /\ v2_make pr L cap b opt = Err (WrongFpp b) /\
     bf_with_version_capacity_opt pr L 1 cap b opt = Err (WrongFpp b) /\ bf_with_version_capacity_opt pr L 2 cap b opt = Err (WrongFpp b)) /\
  (fpp_in_range b = true -> (exists f, v1_with_capacity L cap b = Ok f) /\ forall e, v2_make pr L cap b opt <> Err e).
Proof.
  split.
  - intro H. unfold bf_with_version_capacity_opt, v1_with_capacity, v2_make. rewrite H. cbn. auto.
  - intro H. split; [now apply v1_make_total|]. intros e. unfold v2_make. rewrite H. cbn [negb].
    assert (NP : forall x, (exists y, next_power_of_two pr x = Ok y) \/ next_power_of_two pr x = Panic).
    { intro x. unfold next_power_of_two. destruct (_ <? two64); [eauto|]. destruct pr; eauto. }
    assert (VO : forall A s (x : A) n, (exists y, vec_of s x n = Ok y) \/ vec_of s x n = Panic). { intros. unfold vec_of. destruct (_ <=? _); eauto. }
    unfold bs_with_bit_capacity.
    destruct opt; cbn [obind];
    repeat match goal with
    | |- context [next_power_of_two pr ?x] => destruct (NP x) as [[? ->]| ->]; cbn [obind]; try discriminate
    | |- context [vec_of ?s ?x ?n] => destruct (VO _ s x n) as [[? ->]| ->]; cbn [obind]; try discriminate
    end.
Qed.
Print Assumptions C37_constructors.
(** The v2 reader: a header with a rejected fpp is refused before anything else is read; an accepted file has a fpp in range. *)
Theorem C37_reader pr cap p rest o res : cap < two64 -> p < two64 -> length res = 6%nat -> fpp_in_range p = false ->
  v2_from_reader pr ((2 :: opt_to_u8 o :: res) ++ le_bytes 8 cap ++ le_bytes 8 p ++ rest) = Err (WrongFpp p).
Proof.
  intros Hc Hp Hr H. unfold v2_from_reader, v2_from_reader_partial. set (c := _ ++ _).
  destruct (read_flags_app (reader_of c) {| fl_version := 2; fl_opt := o; fl_reserved := res |} (le_bytes 8 cap ++ le_bytes 8 p ++ rest) Hr (rest_of c)) as [-> R1].
  cbn [obind fl_version N.eqb Pos.eqb negb]. unfold v2_from_reader_with_flags.
  destruct (read_u64_app _ cap _ Hc R1) as [-> R2]. cbn [obind]. unfold read_le_f64. destruct (read_u64_app _ p _ Hp R2) as [-> R3]. cbn [obind].
  now rewrite H.
Qed.
Print Assumptions C37_reader.
Theorem C37_reader_accepts pr content f : bytes_ok content -> v2_from_reader pr content = Ok f -> fpp_in_range (v2_fpp f) = true.
Proof. intros B E. destruct (v2_load_sound _ _ _ B E) as [cb V]. exact (vf_fpp_range _ _ _ V). Qed.
Print Assumptions C37_reader_accepts.
Example C37_example : fpp_in_range p001 = true /\ fpp_in_range 0 = false /\ fpp_in_range p_nan = false /\ fpp_in_range 4607182418800017409 = false /\
  fpp_in_range (4576918229304087675 + 2 ^ 63) = false /\ fpp_in_range 9218868437227405312 = false.
Proof. split; [reflexivity|]. split; [reflexivity|]. split; [reflexivity|]. split; [reflexivity|]. split; reflexivity. Qed.
(** 5e-324 is strictly between 0 and 1 and is rejected. *)
Theorem C37_refuted : exists b, b < two64 /\ fpp_documented b = true /\ forall pr L cap opt,
  v1_with_capacity L cap b = Err (WrongFpp b) /\ v2_make pr L cap b opt = Err (WrongFpp b).
Proof. exists 1. split; [reflexivity|]. split; [reflexivity|]. intros. split; reflexivity. Qed.
Print Assumptions C37_refuted.

(** * C38 Insertion order does not matter *)
(** [g] is [f] after the inserts of a list of keys, all answering Ok. *)
Inductive v2_inserted (pr : profile) (wy : hasher) : v2 -> list key -> v2 -> Prop :=
| v2i_nil f : v2_inserted pr wy f [] f
| v2i_cons f k g b l h : v2_insert pr wy f k = (g, Ok b) -> v2_inserted pr wy g l h -> v2_inserted pr wy f (k :: l) h.
Inductive v1_inserted (pr : profile) : v1 -> list (list byte) -> v1 -> Prop :=
| v1i_nil f : v1_inserted pr f [] f
| v1i_cons f d g b l h : v1_insert_bytes pr f d = (g, Ok b) -> v1_inserted pr g l h -> v1_inserted pr f (d :: l) h.

Lemma v2_inserted_bits pr wy f l g : v2_wf f -> Forall key_ok l -> v2_inserted pr wy f l g ->
  v2_wf g /\ v2_same_frame f g /\
  (forall b i, v2_bit g b i = true <-> v2_bit f b i = true \/ exists k, In k l /\ key_bit wy f k b i) /\
  (forall i, v2_cbit g i = true <-> v2_cbit f i = true \/ exists k, In k l /\ key_cbit wy f k i).
Proof.
  intros W K H. revert W K. induction H as [f|f k g b l h E H IH]; intros W K.
  - split; [exact W|]. split; [apply frame_refl|]. split; intros; (split; [auto|]); intros [X|(x & [] & _)]; exact X.
  - apply Forall_cons_iff in K as [Kk Kl]. destruct (key_init wy k Kk) as [Hi Hh].
    pose proof (insert_bool _ _ _ _ _ _ W Kk E) as (C0 & B0 & _). unfold v2_insert in E.
    pose proof (v2_insert_iter_sem _ _ _ _ _ _ W Hi Hh C0 B0 E) as I. rewrite build_h1 in I.
    destruct (IH (ie_wf _ _ _ _ _ _ I) Kl) as (Wh & Fh & Bh & Ch). pose proof (ie_frame _ _ _ _ _ _ I) as Fg.
    destruct (ie_cases _ _ _ _ _ _ I) as (_ & _ & (P1 & P2) & _).
    split; [exact Wh|]. split; [exact (frame_trans _ _ _ Fg Fh)|]. split.
    + intros b' i. rewrite Bh, P1, orb_true_iff, andb_true_iff, N.eqb_eq, existsb_exists. split.
      * intros [[X|(X & y & Y & Z)]|(x & X & Y)]; [auto| |]; right.
        -- apply N.eqb_eq in Z. subst y. exists k. split; [left; reflexivity|]. split; auto.
        -- exists x. split; [right; exact X|]. now apply (key_bit_frame wy f g).
      * intros [X|(x & [<-|X] & Y)]; [auto| |].
        -- left. right. destruct Y as [Y1 Y2]. split; [exact Y1|]. exists i. split; [exact Y2|apply N.eqb_refl].
        -- right. exists x. split; [exact X|]. now apply (key_bit_frame wy f g).
    + intro i. rewrite Ch, P2, orb_true_iff, andb_true_iff, N.eqb_eq. split.
      * intros [[X|(X & Y)]|(x & X & Y)]; [auto| |]; right.
        -- exists k. split; [left; reflexivity|]. split; [intro Q; rewrite Q in X; discriminate|exact Y].
        -- exists x. split; [right; exact X|]. now apply (key_cbit_frame wy f g).
      * intros [X|(x & [<-|X] & Y)]; [auto| |].
        -- left. right. destruct Y as [Y1 Y2]. split; [|exact Y2]. destruct (v2_index_cache f); [easy|reflexivity].
        -- right. exists x. split; [exact X|]. now apply (key_cbit_frame wy f g).
Qed.
(** Two lists with the same values (permutations of each other in particular), inserted without failure in the same filter,
    give the same bits and cache, hence the same answers. *)
Theorem C38_v2_order pr pr' wy L f l l' g g' : v2_reach wy L f -> Forall key_ok l -> (forall k, In k l <-> In k l') ->
  v2_inserted pr wy f l g -> v2_inserted pr' wy f l' g' ->
  v2_same_content g g' /\ forall k, v2_contains wy g' k = v2_contains wy g k.
Proof.
  intros R K P I I'. pose proof (reach_wf _ _ _ R) as W. assert (K' : Forall key_ok l'). { rewrite Forall_forall in *. intros k Hk. apply K, P, Hk. }
  destruct (v2_inserted_bits _ _ _ _ _ W K I) as (Wg & Fg & Bg & Cg). destruct (v2_inserted_bits _ _ _ _ _ W K' I') as (Wg' & Fg' & Bg' & Cg').
  assert (F : v2_same_frame g g') by (apply frame_trans with f; [now apply frame_sym|exact Fg']).
  assert (SC : v2_same_content g g').
  { apply same_content_bits; auto.
    - intros b i. apply eq_true_iff_eq. rewrite Bg, Bg'. split; (intros [X|(k & X & Y)]; [auto|right; exists k; split; [now apply P|exact Y]]).
    - intros i. apply eq_true_iff_eq. rewrite Cg, Cg'. split; (intros [X|(k & X & Y)]; [auto|right; exists k; split; [now apply P|exact Y]]). }
  split; [exact SC|]. intro k. destruct SC as (_ & SB & SI). destruct F as (_ & _ & _ & F4 & _ & F6 & _).
  unfold v2_contains, v2_contains_iter, v2_ibucket, v2_cache_index. now rewrite SB, SI, F4, F6.
Qed.
Print Assumptions C38_v2_order.
Theorem C38_v2_permutation pr wy L f l l' g g' : v2_reach wy L f -> Forall key_ok l -> Permutation l l' ->
  v2_inserted pr wy f l g -> v2_inserted pr wy f l' g' -> v2_buckets g' = v2_buckets g /\ v2_index_cache g' = v2_index_cache g.
Proof.
  intros R K P I I'. refine (proj2 (proj1 (C38_v2_order pr pr wy L f l l' g g' R K _ I I'))).
  intro k. split; apply Permutation_in; [exact P|now apply Permutation_sym].
Qed.
Print Assumptions C38_v2_permutation.
Lemma v1_inserted_bits pr f l g : v1_wf f -> v1_inserted pr f l g ->
  v1_wf g /\ v1_same_frame f g /\ forall i, v1_bit g i = true <-> v1_bit f i = true \/ exists d, In d l /\ In i (v1_positions f d).
Proof.
  intros W H. revert W. induction H as [f|f d g b l h E H IH]; intro W.
  - split; [exact W|]. split; [apply v1_frame_refl|]. intros; (split; [auto|]); intros [X|(x & [] & _)]; exact X.
  - pose proof (v1_insert_sem _ _ _ _ _ W E) as I. destruct (IH (i1_wf _ _ _ _ _ I)) as (Wh & Fh & Bh). pose proof (i1_frame _ _ _ _ _ I) as Fg.
    destruct (i1_cases _ _ _ _ _ I) as (_ & _ & _ & _ & _ & P & _).
    split; [exact Wh|]. split; [exact (v1_frame_trans _ _ _ Fg Fh)|]. intro i. rewrite Bh, P, orb_true_iff, existsb_exists. split.
    + intros [[X|(y & Y & Z)]|(x & X & Y)]; [auto| |]; right.
      * apply N.eqb_eq in Z. subst y. exists d. split; [left; reflexivity|exact Y].
      * exists x. split; [right; exact X|]. now rewrite <- (v1_frame_positions f g x Fg).
    + intros [X|(x & [<-|X] & Y)]; [auto| |].
      * left. right. exists i. split; [exact Y|apply N.eqb_refl].
      * right. exists x. split; [exact X|]. now rewrite (v1_frame_positions f g x Fg).
Qed.
Theorem C38_v1_order pr pr' L f l l' g g' : v1_reach L f -> (forall d, In d l <-> In d l') -> v1_inserted pr f l g -> v1_inserted pr' f l' g' ->
  v1_same_content g g' /\ forall d, v1_contains_bytes g' d = v1_contains_bytes g d.
Proof.
  intros R P I I'. pose proof (v1_reach_wf _ _ R) as W.
  destruct (v1_inserted_bits _ _ _ _ W I) as (Wg & Fg & Bg). destruct (v1_inserted_bits _ _ _ _ W I') as (Wg' & Fg' & Bg').
  assert (F : v1_same_frame g g') by (apply v1_frame_trans with f; [now apply v1_frame_sym|exact Fg']).
  assert (B : v1_bitset g' = v1_bitset g).
  { apply v1_bits_ext; [exact Wg'|exact Wg|apply F|]. intro i. apply eq_true_iff_eq. rewrite Bg, Bg'.
    split; (intros [X|(k & X & Y)]; [auto|right; exists k; split; [now apply P|exact Y]]). }
  split; [split; [exact F|exact B]|]. intro d. unfold v1_contains_bytes. destruct F as (_ & _ & _ & _ & _ & -> & _). now rewrite B.
Qed.
Print Assumptions C38_v1_order.
Definition r1 : v1 := Eval vm_compute in ins1 e0 db.
Definition r2 : v1 := Eval vm_compute in ins1 r1 da.
Lemma r1_eq : v1_insert_bytes Release e0 db = (r1, Ok true). Proof. vm_compute. reflexivity. Qed.
Lemma r2_eq : v1_insert_bytes Release r1 da = (r2, Ok true). Proof. vm_compute. reflexivity. Qed.
Example C38_example : v1_inserted Release e0 [da; db] e2 /\ v1_inserted Release e0 [db; da] r2 /\ v1_bitset r2 = v1_bitset e2.
Proof.
  split; [exact (v1i_cons _ _ _ _ _ _ _ e1_eq (v1i_cons _ _ _ _ _ _ _ e2_eq (v1i_nil _ _)))|].
  split; [exact (v1i_cons _ _ _ _ _ _ _ r1_eq (v1i_cons _ _ _ _ _ _ _ r2_eq (v1i_nil _ _)))|reflexivity].
Qed.
Definition rn1 : v2 := Eval vm_compute in ins ex_wy fs0 kb.
Definition rn2 : v2 := Eval vm_compute in ins ex_wy rn1 ka.
Lemma rn1_eq : v2_insert Release ex_wy fs0 kb = (rn1, Ok true). Proof. vm_compute. reflexivity. Qed.
Lemma rn2_eq : v2_insert Release ex_wy rn1 ka = (rn2, Ok true). Proof. vm_compute. reflexivity. Qed.
Example C38_v2_example : v2_inserted Release ex_wy fs0 [ka; kb] fs2 /\ v2_inserted Release ex_wy fs0 [kb; ka] rn2 /\
  v2_index_cache rn2 = v2_index_cache fs2 /\ v2_index_cache fs0 <> v2_index_cache fs2.
Proof.
  split; [exact (v2i_cons _ _ _ _ _ _ _ _ fs1_eq (v2i_cons _ _ _ _ _ _ _ _ fs2_eq (v2i_nil _ _ _)))|].
  split; [exact (v2i_cons _ _ _ _ _ _ _ _ rn1_eq (v2i_cons _ _ _ _ _ _ _ _ rn2_eq (v2i_nil _ _ _)))|].
  split; [reflexivity|]. vm_compute. discriminate.
Qed.
