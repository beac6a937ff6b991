(** C80: the number of entries recomputed after a merge (v1.rs:329-334, v2.rs:574-587). *)
From Coq Require Import Lia Reals Lra.
From Verif Require Import M_Base M_BitSet M_Util M_V1 M_V2 M_RefLibm Spec_Bits Spec_Hash Spec_V1 Spec_V2 Spec_Real Spec_V2Hist Spec_Count P_Base P_BitSet P_V2Merge P_V2More P_V2Hist P_V2Props P_V2Codec P_V1 P_V1Codec P_V1Hist P_V1More.
From Verif Require Import P_Fpp P_Real P_RealLibm P_Est P_Count Ex_Base Ex_V1.
Open Scope N_scope.

(** ** Version 2 *)
(** The count after a union or an intersection is the number of entries that the set bits of the result lead one to expect, less
    at most about one entry per bucket (each bucket's estimate is truncated). *)
Theorem C80_v2_merge pr wy L a b g : libm_accurate L -> v2_reach wy L a -> v2_reach wy L b ->
  v2_union_merge pr L a b = (g, Ok tt) \/ v2_intersection_merge pr L a b = (g, Ok tt) ->
  1 <= v2_n_hash_buck a <= 2 ^ 53 -> len (v2_buckets a) <= 2 ^ 44 -> v2_unsaturated g ->
  let B := INR (length (v2_buckets g)) in
  (v2_ideal g - B * (1 + / 500000) <= IZR (Z.of_N (v2_count_estimate g)) <= v2_ideal g + B * / 500000)%R.
Proof.
  intros HL Ra Rb E Hk Hb U B. pose proof (reach_wf _ _ _ Ra) as Wa. pose proof (reach_wf _ _ _ Rb) as Wb.
  assert (X : exists o, v2_merge_with (vec_op o) (arr_op o) pr L a b = (g, Ok tt)) by (destruct E; [exists op_or|exists op_and]; auto). destruct X as [o X].
  destruct (merge_sum o pr L a b g HL Wa Wb X Hk Hb U) as (Wg & EN & EL & EC & O). change (v2_count_estimate g) with (v2_count g). rewrite EC. unfold v2_ideal, B. rewrite <- (seq_length (length (v2_buckets g)) 0) at 2 6.
  apply sumN_R. intros j Hj. apply in_seq in Hj. apply est_bucket_R; [exact HL|apply O; lia|rewrite EN; exact Hk].
Qed.
Print Assumptions C80_v2_merge.

(** It counts at least one entry for every [k] bits set in a bucket. *)
Theorem C80_v2_lower pr wy L a b g : libm_accurate L -> v2_reach wy L a -> v2_reach wy L b ->
  v2_union_merge pr L a b = (g, Ok tt) \/ v2_intersection_merge pr L a b = (g, Ok tt) ->
  1 <= v2_n_hash_buck a <= 2 ^ 53 -> len (v2_buckets a) <= 2 ^ 44 -> v2_unsaturated g ->
  sumN (map (fun j => v2_ones g j / v2_n_hash_buck a) (seq 0 (length (v2_buckets g)))) <= v2_count_estimate g.
Proof.
  intros HL Ra Rb E Hk Hb U. pose proof (reach_wf _ _ _ Ra) as Wa. pose proof (reach_wf _ _ _ Rb) as Wb.
  assert (X : exists o, v2_merge_with (vec_op o) (arr_op o) pr L a b = (g, Ok tt)) by (destruct E; [exists op_or|exists op_and]; auto). destruct X as [o X].
  destruct (merge_sum o pr L a b g HL Wa Wb X Hk Hb U) as (Wg & EN & EL & EC & O). change (v2_count_estimate g) with (v2_count g). rewrite EC, EN.
  apply sumN_mono. intros j Hj. apply in_seq in Hj. apply est_bucket_lower; [exact HL|apply O; lia|exact Hk].
Qed.
Print Assumptions C80_v2_lower.

(** A bucket of few entries that share no position is counted exactly: with [e j] entries of [k] bits each in bucket [j], the
    count is the sum of the [e j]. *)
Theorem C80_v2_exact pr wy L a b g e : libm_accurate L -> v2_reach wy L a -> v2_reach wy L b ->
  v2_union_merge pr L a b = (g, Ok tt) \/ v2_intersection_merge pr L a b = (g, Ok tt) ->
  1 <= v2_n_hash_buck a <= 2 ^ 53 -> len (v2_buckets a) <= 2 ^ 44 ->
  (forall j, (j < length (v2_buckets g))%nat -> v2_ones g j = v2_n_hash_buck a * e j /\ v2_n_hash_buck a * (e j * (e j + 1)) <= 16384) ->
  v2_count_estimate g = sumN (map e (seq 0 (length (v2_buckets g)))).
Proof.
  intros HL Ra Rb E Hk Hb He. pose proof (reach_wf _ _ _ Ra) as Wa. pose proof (reach_wf _ _ _ Rb) as Wb.
  assert (X : exists o, v2_merge_with (vec_op o) (arr_op o) pr L a b = (g, Ok tt)) by (destruct E; [exists op_or|exists op_and]; auto). destruct X as [o X].
  assert (U : v2_unsaturated g).
  { apply v2_ones_unsaturated. intros j Hj. destruct (He j Hj) as [-> P]. apply N.le_lt_trans with (v2_n_hash_buck a * (e j * (e j + 1))); [|lia].
    apply N.mul_le_mono_l. rewrite <- (N.mul_1_r (e j)) at 1. apply N.mul_le_mono_l. lia. }
  destruct (merge_sum o pr L a b g HL Wa Wb X Hk Hb U) as (Wg & EN & EL & EC & _). change (v2_count_estimate g) with (v2_count g). rewrite EC, EN.
  apply sumN_eq. intros j Hj. apply in_seq in Hj. destruct (He j ltac:(lia)) as [-> P]. destruct (N.eq_dec (e j) 0) as [Z|Z].
  - rewrite Z, N.mul_0_r. apply est_zero; [exact HL|lia|exact Hk].
  - assert (v2_n_hash_buck a * 1 <= v2_n_hash_buck a * e j) by (apply N.mul_le_mono_l; lia). apply est_exact; [exact HL|lia|lia| | |lia].
    + replace (2 * v2_n_hash_buck a * e j * (e j + 1)) with (2 * (v2_n_hash_buck a * (e j * (e j + 1)))) by ring. lia.
    + replace (4194304 * v2_n_hash_buck a * e j) with (4194304 * (v2_n_hash_buck a * e j)) by ring. lia.
Qed.
Print Assumptions C80_v2_exact.
Lemma fu_wf : v2_wf fu.
Proof. exact (reach_wf _ _ _ (ex_intro _ _ (vh_union _ _ _ _ _ _ _ _ fa3_hist fc3_hist fu_eq))). Qed.
Lemma fu_ones : v2_ones fu 0 = 35.
Proof. rewrite <- v2_ones_eq; [vm_compute; reflexivity|exact fu_wf|vm_compute; constructor]. Qed.
Example C80_v2_example : v2_union_merge Debug ref_libm fa3 fc3 = (fu, Ok tt) /\ v2_n_hash_buck fa3 = 7 /\ v2_ones fu 0 = 35 /\ 7 * (5 * 6) <= 16384 /\ v2_count_estimate fu = 5.
Proof. split; [exact fu_eq|]. split; [reflexivity|]. split; [exact fu_ones|]. split; [lia|reflexivity]. Qed.

(** The hypotheses hold of the same filters with the correctly rounded logarithm: loaded from their files and united, they count 5. *)
Example C80_v2_real_example : exists g, v2_union_merge Release real_libm fa3 fc3 = (g, Ok tt) /\ v2_count_estimate g = 5.
Proof.
  assert (R : forall f, v2_wf f -> fl_reserved (v2_flags f) = [0;0;0;0;0;0] -> file_size_ok (v2_write f) -> v2_reach ex_wy real_libm f).
  { intros f W Z S. eexists. refine (vh_load ex_wy real_libm Debug _ f (write_bytes _ W) S _). rewrite v2_roundtrip by auto. now rewrite v2_canon_id. }
  pose proof (reach_wf _ _ _ (ex_intro _ _ fa3_hist)) as Wa. pose proof (reach_wf _ _ _ (ex_intro _ _ fc3_hist)) as Wc.
  assert (Ra : v2_reach ex_wy real_libm fa3) by (apply R; [exact Wa|reflexivity|unfold file_size_ok; rewrite write_len by exact Wa; reflexivity]).
  assert (Rc : v2_reach ex_wy real_libm fc3) by (apply R; [exact Wc|reflexivity|unfold file_size_ok; rewrite write_len by exact Wc; reflexivity]).
  destruct (v2_merge_ok op_or Release real_libm fa3 fc3 Wa Wc ltac:(vm_compute; reflexivity)) as (g & r & E & M). pose proof (me_cases _ _ _ _ _ _ _ M) as Cs.
  destruct r as [[]|e|]; [|contradiction|destruct Cs; discriminate]. exists g. split; [exact E|]. assert (EL : len (v2_buckets g) = 1) by (destruct (me_frame _ _ _ _ _ _ _ M) as (_ & _ & _ & _ & _ & _ & Q & _); exact Q).
  assert (E1 : length (v2_buckets g) = 1%nat) by (unfold len in EL; lia).
  rewrite (C80_v2_exact Release ex_wy real_libm fa3 fc3 g (fun _ => 5) real_libm_accurate Ra Rc (or_introl E)); [now rewrite E1|vm_compute; split; discriminate|vm_compute; discriminate|].
  intros j Hj. assert (j = 0%nat) by lia. subst j. split; [|vm_compute; discriminate]. transitivity (v2_ones fu 0); [|exact fu_ones].
  destruct (v2_merge_sem op_or _ _ _ _ _ _ Wa Wc fu_eq) as [(_ & _ & Q)|(_ & M')]; [discriminate|].
  rewrite !v2_ones_def. apply count_below_ext. intros i _. now rewrite (me_bits _ _ _ _ _ _ _ M), (me_bits _ _ _ _ _ _ _ M').
Qed.

(** ** Version 1 *)
Theorem C80_v1_merge L a b g : libm_accurate L -> v1_reach L a -> v1_reach L b -> v1_union_merge L a b = (g, Ok tt) ->
  1 <= v1_n_hash a <= 2 ^ 53 -> 1 <= v1_bit_size a <= 2 ^ 40 -> 4 * v1_ones g <= 3 * v1_bit_size a ->
  (ideal_count (v1_bit_size a) (v1_ones g) (v1_n_hash a) - (1 + / 100) <= IZR (Z.of_N (v1_count_estimate g)) <= ideal_count (v1_bit_size a) (v1_ones g) (v1_n_hash a) + / 100)%R.
Proof.
  intros HL Ra Rb E Hk Hm Ho. pose proof (v1_reach_wf _ _ Ra) as Wa. pose proof (v1_reach_wf _ _ Rb) as Wb. destruct (v1_union_sem _ _ _ _ _ Wa Wb E) as [(_ & _ & Q)|(_ & _ & V)]; [discriminate|].
  change (v1_count_estimate g) with (v1_count g). rewrite (u1_count _ _ _ _ V), (v1_ones_eq g (u1_wf _ _ _ _ V)). destruct (u1_frame _ _ _ _ V) as (_ & _ & _ & -> & -> & _). now apply est_v1_R.
Qed.
Print Assumptions C80_v1_merge.
(** Full statement: the union of filters that hold few entries without common positions counts exactly these entries. Missing:
    filters of more than 2^22 bits per position set, where a lone entry may be counted as none (C80_v1_refuted). *)
Theorem C80_v1_exact_partial L a b g e : libm_accurate L -> v1_reach L a -> v1_reach L b -> v1_union_merge L a b = (g, Ok tt) ->
  1 <= v1_n_hash a -> 1 <= v1_bit_size a <= 2 ^ 50 -> v1_ones g = v1_n_hash a * e -> 2 * v1_n_hash a * e * (e + 1) <= v1_bit_size a ->
  e = 0 /\ v1_n_hash a <= 2 ^ 53 \/ v1_bit_size a <= 2 ^ 22 * v1_n_hash a * e ->
  v1_count_estimate g = e.
Proof.
  intros HL Ra Rb E Hk Hm Ho Hl Hu. pose proof (v1_reach_wf _ _ Ra) as Wa. pose proof (v1_reach_wf _ _ Rb) as Wb. destruct (v1_union_sem _ _ _ _ _ Wa Wb E) as [(_ & _ & Q)|(_ & _ & V)]; [discriminate|].
  change (v1_count_estimate g) with (v1_count g). rewrite (u1_count _ _ _ _ V), (v1_ones_eq g (u1_wf _ _ _ _ V)), Ho. destruct (u1_frame _ _ _ _ V) as (_ & _ & _ & -> & -> & _).
  destruct (N.eq_dec e 0) as [Z|Z].
  - destruct Hu as [[_ K]|Hu]; [|subst e; rewrite N.mul_0_r in Hu; lia]. subst e. rewrite N.mul_0_r. apply est_zero; [exact HL|exact Hm|split; [exact Hk|exact K]].
  - destruct Hu as [[-> _]|Hu]; [congruence|]. apply est_exact; [exact HL|exact Hk|lia|exact Hl|exact Hu|apply Hm].
Qed.
Print Assumptions C80_v1_exact_partial.
Definition m0 : v1 := Eval vm_compute in match v1_with_capacity ref_libm 100 p001 with Ok f => f | _ => e0 end.
Definition m1 : v1 := Eval vm_compute in fst (v1_insert_bytes Release m0 [1]).
Lemma m0_eq : v1_with_capacity ref_libm 100 p001 = Ok m0. Proof. vm_compute. reflexivity. Qed.
Lemma m1_eq : v1_insert_bytes Release m0 [1] = (m1, Ok true). Proof. vm_compute. reflexivity. Qed.
(** One entry in a filter for 100: the union with the empty filter counts 1, also with the correctly rounded logarithm. *)
Example C80_v1_example : v1_bit_size m0 = 958 /\ v1_n_hash m0 = 7 /\ exists g, v1_union_merge real_libm m0 m1 = (g, Ok tt) /\ v1_count_estimate g = 1.
Proof.
  split; [reflexivity|]. split; [reflexivity|]. pose proof (h1_make ref_libm 100 p001 m0 ltac:(reflexivity) ltac:(reflexivity) m0_eq) as H0. pose proof (h1_insert _ _ _ _ _ _ _ H0 m1_eq) as H1.
  pose proof (v1_reach_wf _ _ (ex_intro _ _ H0)) as W0. pose proof (v1_reach_wf _ _ (ex_intro _ _ H1)) as W1.
  assert (R : forall f, v1_wf f -> v1_flags f = flags_new 1 -> v1_reach real_libm f).
  { intros f W F. eexists. refine (h1_load real_libm Debug _ f (v1_write_bytes _ W) _). rewrite v1_roundtrip by auto. now rewrite v1_canon_id. }
  destruct (v1_union_merge real_libm m0 m1) as [g r] eqn:E. destruct (v1_union_sem _ _ _ _ _ W0 W1 E) as [(Q & _)|(Sh & -> & V)]; [vm_compute in Q; discriminate|]. exists g. split; [reflexivity|].
  apply (C80_v1_exact_partial real_libm m0 m1 g 1 real_libm_accurate (R _ W0 eq_refl) (R _ W1 eq_refl) E); [vm_compute; discriminate|vm_compute; split; discriminate| |vm_compute; discriminate|right; vm_compute; discriminate].
  unfold v1_ones. destruct (u1_frame _ _ _ _ V) as (_ & _ & _ & _ & _ & _ & ->). transitivity (count_below (N.to_nat (64 * len (v1_bitset m0))) (fun i => v1_bit m0 i || v1_bit m1 i)); [|vm_compute; reflexivity].
  apply count_below_ext. intros i _. apply (u1_bits _ _ _ _ V).
Qed.
(** A filter of 792041189 bits with a single entry, whose seven positions are distinct: its count is 1, the count of its union with
    the empty filter is 0. *)
Theorem C80_v1_refuted : exists a b g, v1_with_capacity ref_libm 82632902 p001 = Ok a /\ v1_insert_bytes Release a [1] = (b, Ok true) /\ v1_count_estimate b = 1 /\
  v1_union_merge ref_libm a b = (g, Ok tt) /\ v1_bit_size a = 792041189 /\ v1_ones g = v1_n_hash a * 1 /\ v1_contains_bytes g [1] = Ok true /\ v1_count_estimate g = 0.
Proof.
  destruct (v1_make_total ref_libm 82632902 p001 ltac:(vm_compute; reflexivity)) as [a Ea]. pose proof (v1_make_created _ _ _ _ Ea) as Cr.
  pose proof (h1_make ref_libm 82632902 p001 a ltac:(reflexivity) ltac:(reflexivity) Ea) as H0. pose proof (v1_reach_wf _ _ (ex_intro _ _ H0)) as Wa.
  assert (Bs : v1_bit_size a = 792041189) by (rewrite (c1_bit_size _ _ _ _ Cr); vm_compute; reflexivity). assert (Nh : v1_n_hash a = 7) by (rewrite (c1_n_hash _ _ _ _ Cr), Bs; vm_compute; reflexivity).
  assert (Ps : v1_positions a [1] = [97999435; 144057746; 352802804; 654604453; 763758645; 346755168; 277685771]) by (unfold v1_positions; rewrite Bs, Nh; vm_compute; reflexivity).
  assert (Le : len (v1_bitset a) = 12375644) by (rewrite (w1_len _ Wa), Bs; vm_compute; reflexivity).
  destruct (v1_insert_bytes Release a [1]) as [b r] eqn:Eb. pose proof (v1_insert_usable _ _ _ _ _ Wa (v1_created_usable _ _ _ _ Cr) Eb) as NP. pose proof (v1_insert_sem _ _ _ _ _ Wa Eb) as [Fr _ Wb _ Cs].
  destruct r as [new|e|]; [|destruct Cs as (_ & _ & [Z|[Z _]]); rewrite (c1_capacity _ _ _ _ Cr), ?(c1_count _ _ _ _ Cr) in Z; exfalso; [discriminate|vm_compute in Z; now apply Z]|congruence].
  destruct Cs as (_ & _ & _ & En & _ & Bb & _ & Cb). assert (Hn : new = true). { rewrite En. unfold v1_covered. rewrite Ps. cbn [forallb]. now rewrite (v1_created_bits _ _ _ _ _ Cr). } clear En. subst new.
  destruct (v1_union_merge ref_libm a b) as [g r] eqn:Eg. destruct (v1_union_sem _ _ _ _ _ Wa Wb Eg) as [(Q & _)|(Sh & -> & V)].
  { exfalso. rewrite (proj2 (v1_same_params_iff a b)) in Q; [discriminate|]. destruct Fr as (F1 & F2 & F3 & F4 & F5 & F6 & F7). unfold v1_same_shape. rewrite F3, fpp_eqb_refl, (c1_fpp _ _ _ _ Cr).
    split; [exact F1|]. split; [exact F2|]. split; [vm_compute; reflexivity|]. split; [exact F4|]. split; [exact F5|exact F7]. }
  assert (On : v1_ones g = 7).
  { unfold v1_ones. destruct (u1_frame _ _ _ _ V) as (_ & _ & _ & _ & _ & _ & ->). rewrite Le. rewrite (count_below_ext _ _ (fun i => existsb (N.eqb i) (v1_positions a [1]))).
    - rewrite Ps. rewrite count_list; [reflexivity| |].
      + repeat (apply NoDup_cons; [cbn [In]; intuition discriminate|]). apply NoDup_nil.
      + intros i Hi. rewrite N2Nat.id. revert i Hi. apply Forall_forall. repeat (apply Forall_cons; [reflexivity|]). apply Forall_nil.
    - intros i _. rewrite (u1_bits _ _ _ _ V), Bb, (v1_created_bits _ _ _ _ _ Cr). reflexivity. }
  exists a, b, g. split; [exact Ea|]. split; [exact Eb|]. split; [unfold v1_count_estimate; rewrite (Cb eq_refl), (c1_count _ _ _ _ Cr); reflexivity|]. split; [exact Eg|]. split; [exact Bs|]. split; [rewrite On, Nh; reflexivity|]. split.
  - pose proof (h1_insert _ _ _ _ _ _ _ H0 Eb) as H1. pose proof (h1_union _ _ _ _ _ _ H0 H1 Eg) as H2. apply (v1_hist_contains _ _ _ _ H2); [right; now left|]. destruct (u1_frame _ _ _ _ V) as (_ & _ & _ & _ & -> & _). rewrite Bs. discriminate.
  - unfold v1_count_estimate. rewrite (u1_count _ _ _ _ V), (v1_ones_eq g (u1_wf _ _ _ _ V)), On. destruct (u1_frame _ _ _ _ V) as (_ & _ & _ & -> & -> & _). rewrite Bs, Nh. vm_compute. reflexivity.
Qed.
Print Assumptions C80_v1_refuted.
