(** v2 filters: unions, intersections, common entries and attached data (C11 to C15, C54 to C56). *)
From Coq Require Import Lia.
From Verif Require Import M_V2 M_RefLibm Spec_Bits Spec_Hash Spec_V2 Spec_V2File Spec_V2Hist Spec_Libm P_Base P_V2 P_V2Sem P_V2Codec P_V2Make P_V2Merge P_V2Hist P_V2Props P_V2More P_V2Sat Ex_Base.
Open Scope N_scope.

(** * C11 Capacity remains enforced after merging *)
(** Full statement: a filter whose count estimate has reached or passed its capacity reports full and refuses new
    entries. Missing: a count above the capacity, which a union can produce (C11_refuted). *)
Theorem C11_v2_capacity_partial pr wy L f k g r : v2_reach wy L f -> v2_usable f -> key_ok k -> v2_insert pr wy f k = (g, r) ->
  v2_count_estimate f = v2_capacity f ->
  v2_is_full f = true /\ (v2_capacity f = 0 \/ v2_covered wy f (hash_pop wy k) = false -> g = f /\ r = Err TooManyEntries).
Proof.
  intros R U Hk E C. pose proof (reach_wf _ _ _ R) as W. split; [unfold v2_is_full; now apply N.eqb_eq|]. intro N.
  destruct (key_init wy k Hk) as [Hi Hh]. unfold v2_insert in E.
  destruct (N.eq_dec (v2_capacity f) 0) as [Z|Z].
  { rewrite v2_insert_iter_cap0 in E by auto. apply pair_inj in E as [<- <-]. auto. }
  destruct N as [N|N]; [easy|].
  pose proof (v2_insert_iter_sem _ _ _ _ _ _ W Hi Hh Z (U Z) E) as [_ _ _ M]. rewrite build_h1 in M. unfold v2_count_estimate in C.
  destruct r as [b|e|].
  - destruct M as (M1 & M2 & _). rewrite N in M1. specialize (M2 M1). easy.
  - destruct M as (-> & -> & _). auto.
  - destruct M as (_ & _ & M & _). easy.
Qed.
Print Assumptions C11_v2_capacity_partial.
Example C11_v2_example : v2_solo ex_wy fb0 fb2 2 /\ v2_count_estimate fb2 = v2_capacity fb2 /\ v2_covered ex_wy fb2 (hash_pop ex_wy kc) = false.
Proof. split; [exact fb2_solo|]. split; vm_compute; reflexivity. Qed.
(** Two filters of capacity 4 with three keys each: the union estimates 5 entries, is not reported as full, and takes a
    new entry, giving a count of 6. *)
Theorem C11_refuted : exists f, v2_reach ex_wy ref_libm f /\ v2_capacity f = 4 /\ v2_count_estimate f = 5 /\ v2_is_full f = false /\
  exists k g, key_ok k /\ v2_insert Release ex_wy f k = (g, Ok true) /\ v2_count_estimate g = 6.
Proof.
  exists fu. split; [eexists; exact (vh_union _ _ _ _ _ _ _ _ fa3_hist fc3_hist fu_eq)|]. split; [vm_compute; reflexivity|]. split; [vm_compute; reflexivity|].
  split; [vm_compute; reflexivity|]. exists (KSlice [99]), (ins ex_wy fu (KSlice [99])). split; [bytes|]. split; [|vm_compute; reflexivity].
  apply ins_eq. vm_compute. reflexivity.
Qed.
Print Assumptions C11_refuted.

(** * C12 Union contains both sides *)
Theorem C12_v2_union pr wy L a b g : v2_reach wy L a -> v2_reach wy L b -> v2_union_merge pr L a b = (g, Ok tt) ->
  v2_same_frame a g /\ v2_data g = v2_data a /\
  (forall k i, v2_bit g k i = v2_bit a k i || v2_bit b k i) /\ (forall i, v2_cbit g i = v2_cbit a i || v2_cbit b i) /\
  (forall k, key_ok k -> v2_contains wy a k = Ok true \/ v2_contains wy b k = Ok true -> v2_contains wy g k = Ok true).
Proof.
  intros Ra Rb E. pose proof (reach_wf _ _ _ Ra) as Wa. pose proof (reach_wf _ _ _ Rb) as Wb.
  destruct (union_bits _ _ _ _ _ Wa Wb E) as (F & D & B & C). split; [exact F|]. split; [exact D|]. split; [exact B|]. split; [exact C|].
  intros k Hk. exact (union_contains pr wy L a b g k Wa Wb E Hk).
Qed.
Print Assumptions C12_v2_union.
Theorem C12_v2_union_commutative pr wy L a b g h : v2_reach wy L a -> v2_reach wy L b ->
  v2_union_merge pr L a b = (g, Ok tt) -> v2_union_merge pr L b a = (h, Ok tt) -> v2_same_content g h /\ v2_count_estimate h = v2_count_estimate g.
Proof. intros Ra Rb. exact (union_comm pr L a b g h (reach_wf _ _ _ Ra) (reach_wf _ _ _ Rb)). Qed.
Print Assumptions C12_v2_union_commutative.
Theorem C12_v2_union_associative pr wy L a b c ab abc bc abc' : v2_reach wy L a -> v2_reach wy L b -> v2_reach wy L c ->
  v2_union_merge pr L a b = (ab, Ok tt) -> v2_union_merge pr L ab c = (abc, Ok tt) ->
  v2_union_merge pr L b c = (bc, Ok tt) -> v2_union_merge pr L a bc = (abc', Ok tt) ->
  v2_same_content abc abc' /\ v2_count_estimate abc' = v2_count_estimate abc.
Proof. intros Ra Rb Rc. exact (union_assoc pr L a b c ab abc bc abc' (reach_wf _ _ _ Ra) (reach_wf _ _ _ Rb) (reach_wf _ _ _ Rc)). Qed.
Print Assumptions C12_v2_union_associative.
Theorem C12_v2_union_idempotent pr wy L a g : v2_reach wy L a -> v2_union_merge pr L a a = (g, Ok tt) -> v2_same_content a g.
Proof. intros Ra. exact (union_idem pr L a g (reach_wf _ _ _ Ra)). Qed.
Print Assumptions C12_v2_union_idempotent.
(** Whatever way a filter [c] of the same parameters received the keys of [a] and of [b] (for instance inserting those of
    [a], then those of [b]), it has the bits of the union. *)
Theorem C12_v2_union_is_insertion pr wy L a b c g Ka Ca Kb Cb : v2_kept wy L a Ka Ca -> v2_kept wy L b Kb Cb ->
  v2_kept wy L c (fun x => Ka x \/ Kb x) (fun x => Ca x \/ Cb x) -> v2_same_frame a c -> v2_union_merge pr L a b = (g, Ok tt) ->
  v2_same_content c g.
Proof. exact (union_as_inserts pr wy L a b c g Ka Ca Kb Cb). Qed.
Print Assumptions C12_v2_union_is_insertion.
Example C12_v2_example : v2_union_merge Release ref_libm fa3 fc3 = (fu, Ok tt) /\
  v2_contains ex_wy fc3 (KSlice [1; 2; 3]) = Ok false /\ v2_contains ex_wy fu (KSlice [1; 2; 3]) = Ok true /\ v2_contains ex_wy fu (KSlice [15; 6]) = Ok true.
Proof. split; [exact fu_eq|]. split; [vm_compute; reflexivity|]. split; vm_compute; reflexivity. Qed.

(** * C13 Intersection is exact on queries *)
Theorem C13_v2_intersection pr wy L a b g : v2_reach wy L a -> v2_reach wy L b -> v2_intersection_merge pr L a b = (g, Ok tt) ->
  v2_same_frame a g /\ v2_data g = v2_data a /\
  (forall k i, v2_bit g k i = v2_bit a k i && v2_bit b k i) /\ (forall i, v2_cbit g i = v2_cbit a i && v2_cbit b i) /\
  (forall k, key_ok k -> (v2_contains wy g k = Ok true <-> v2_contains wy a k = Ok true /\ v2_contains wy b k = Ok true)).
Proof.
  intros Ra Rb E. pose proof (reach_wf _ _ _ Ra) as Wa. pose proof (reach_wf _ _ _ Rb) as Wb.
  destruct (inter_bits _ _ _ _ _ Wa Wb E) as (F & D & B & C). split; [exact F|]. split; [exact D|]. split; [exact B|]. split; [exact C|].
  intros k Hk. exact (inter_contains pr wy L a b g k Wa Wb E Hk).
Qed.
Print Assumptions C13_v2_intersection.
Example C13_v2_example : v2_intersection_merge Release ref_libm fa3 fc3 = (fi, Ok tt) /\
  v2_contains ex_wy fi (KSlice [1; 2; 3]) = Ok false /\ v2_contains ex_wy fi (KSlice [7]) = Ok true.
Proof. split; [exact fi_eq|]. split; vm_compute; reflexivity. Qed.

(** * C14 Incompatible merges are refused without effect *)
(** [v2_same_frame a b] says that version, optimisation level, reserved bytes, capacity, fpp, hash count, number of buckets
    and cache size are equal. A panic can only come from the overflow of the sum of the estimates in a debug build. *)
Theorem C14_v2_merge pr wy L a b g r : v2_reach wy L a -> v2_reach wy L b ->
  v2_union_merge pr L a b = (g, r) \/ v2_intersection_merge pr L a b = (g, r) ->
  ((exists e, r = Err e) <-> ~ v2_same_frame a b) /\ (forall e, r = Err e -> e = Merge /\ g = a) /\
  (r = Panic -> pr = Debug /\ two64 <= sumN (v2_estimates L g)).
Proof.
  intros Ra Rb E. pose proof (reach_wf _ _ _ Ra) as Wa. pose proof (reach_wf _ _ _ Rb) as Wb.
  rewrite v2_union_merge_op, v2_intersection_merge_op in E. destruct E as [E|E]; apply merge_result in E; tauto.
Qed.
Print Assumptions C14_v2_merge.
Theorem C14_v2_common pr wy L a b : v2_reach wy L a -> v2_reach wy L b ->
  ((exists e, v2_count_common_entries pr L a b = Err e) <-> ~ v2_same_frame a b) /\
  (v2_count_common_entries pr L a b = Panic -> pr = Debug /\ two64 <= sumN (common_estimates L a b)).
Proof.
  intros Ra Rb. pose proof (reach_wf _ _ _ Ra) as Wa. pose proof (reach_wf _ _ _ Rb) as Wb. rewrite common_eq by auto.
  pose proof (same_params_wf a b Wa Wb) as S. destruct (v2_has_same_params a b).
  - rewrite checked_sum_spec. split; [|destruct (N.ltb_spec (sumN (common_estimates L a b)) two64); [discriminate|]; destruct pr; [auto|discriminate]].
    split; [|intro X; destruct X; now apply S]. intros [e E]. destruct (_ <? _); [discriminate|]. destruct pr; discriminate.
  - split; [|discriminate]. split; [|eauto]. intros _ F. apply S in F. discriminate.
Qed.
Print Assumptions C14_v2_common.
Example C14_v2_example : v2_reach ex_wy ref_libm fs2 /\ v2_reach ex_wy ref_libm fn2 /\ v2_union_merge Release ref_libm fs2 fn2 = (fs2, Err Merge) /\
  v2_count_common_entries Release ref_libm fs2 fn2 = Err Merge.
Proof. split; [eexists; exact fs2_hist|]. split; [eexists; exact fn2_hist|]. split; vm_compute; reflexivity. Qed.

(** * C15 has_same_params is an equivalence *)
Theorem C15_v2_equivalence wy L a b c : v2_reach wy L a -> v2_reach wy L b -> v2_reach wy L c ->
  v2_has_same_params a a = true /\ v2_has_same_params a b = v2_has_same_params b a /\
  (v2_has_same_params a b = true -> v2_has_same_params b c = true -> v2_has_same_params a c = true) /\
  (v2_has_same_params a b = true <-> v2_same_frame a b).
Proof.
  intros Ra Rb Rc. pose proof (reach_wf _ _ _ Ra) as Wa. pose proof (reach_wf _ _ _ Rb) as Wb. pose proof (reach_wf _ _ _ Rc) as Wc.
  split; [now apply same_params_refl|]. split; [now apply same_params_sym|]. split; [now apply same_params_trans|now apply same_params_wf].
Qed.
Print Assumptions C15_v2_equivalence.
Example C15_v2_example : v2_has_same_params fn2 fa3 = true /\ v2_has_same_params fa3 fu = true /\ v2_has_same_params fn2 fs2 = false.
Proof. split; [vm_compute; reflexivity|]. split; vm_compute; reflexivity. Qed.

(** * C54 count_common_entries *)
Theorem C54_v2_common pr wy L a b : v2_reach wy L a -> v2_reach wy L b ->
  v2_count_common_entries pr L a b = v2_count_common_entries pr L b a /\
  ((exists e, v2_count_common_entries pr L a b = Err e) <-> ~ v2_same_frame a b) /\
  (libm_ln1 L -> v2_same_frame a b -> (forall k i, v2_bit a k i && v2_bit b k i = false) -> v2_count_common_entries pr L a b = Ok 0).
Proof.
  intros Ra Rb. pose proof (reach_wf _ _ _ Ra) as Wa. pose proof (reach_wf _ _ _ Rb) as Wb.
  split; [now apply common_sym|]. split; [exact (proj1 (C14_v2_common pr wy L a b Ra Rb))|]. intros H1 F D. now apply common_disjoint.
Qed.
Print Assumptions C54_v2_common.
(** The estimate is the one of the intersection: common entries of [a] and [b] is the count that intersection_merge computes. *)
Theorem C54_v2_common_is_intersection pr wy L a b g : v2_reach wy L a -> v2_reach wy L b -> v2_intersection_merge pr L a b = (g, Ok tt) ->
  v2_count_common_entries pr L a b = Ok (v2_count_estimate g).
Proof. intros Ra Rb. exact (common_is_inter pr L a b g (reach_wf _ _ _ Ra) (reach_wf _ _ _ Rb)). Qed.
Print Assumptions C54_v2_common_is_intersection.
Example C54_v2_example : libm_ln1 ref_libm /\ v2_count_common_entries Debug ref_libm fa3 fc3 = Ok 1 /\ v2_count_common_entries Debug ref_libm fa3 fn0 = Ok 0.
Proof. split; [vm_compute; reflexivity|]. split; vm_compute; reflexivity. Qed.

(** * C55 Merging never overflows *)
(** Full statement: merges of compatible filters never panic and never make a later insert panic. Missing: debug builds
    when a bucket of the result has no zero bit left (C55_refuted), and more than 2^39 buckets (2 PiB). *)
Theorem C55_v2_merge_partial pr wy L a b g r : libm_ln_range L -> v2_reach wy L a -> v2_reach wy L b ->
  v2_union_merge pr L a b = (g, r) \/ v2_intersection_merge pr L a b = (g, r) -> v2_same_frame a b ->
  pr = Release \/ (v2_n_hash_buck a <> 0 /\ len (v2_buckets a) <= 2 ^ 39 /\ v2_unsaturated g) ->
  r = Ok tt /\
  forall k h r', v2_usable g -> key_ok k -> v2_insert pr wy g k = (h, r') -> r' <> Panic.
Proof.
  intros HL Ra Rb E F H. pose proof (reach_wf _ _ _ Ra) as Wa. pose proof (reach_wf _ _ _ Rb) as Wb.
  assert (X : exists o, v2_merge_with (vec_op o) (arr_op o) pr L a b = (g, r)) by (destruct E; [exists op_or|exists op_and]; auto).
  clear E. destruct X as [o E]. assert (Wg : v2_wf g).
  { destruct (v2_merge_sem _ _ _ _ _ _ _ Wa Wb E) as [(_ & -> & _)|(_ & M)]; auto. apply (me_wf _ _ _ _ _ _ _ M). }
  destruct H as [->|(Hn & Hl & U)].
  - split; [exact (merge_release o L a b g r Wa Wb E F)|]. intros k h r' Ug Hk I. eapply insert_no_panic; eauto.
  - change (2 ^ 39) with 549755813888 in Hl. destruct (merge_no_panic o pr L a b g r HL Wa Wb E F Hn Hl U) as [-> C]. split; [reflexivity|].
    intros k h r' Ug Hk I. refine (insert_no_panic pr wy g k h r' Wg Ug Hk (or_intror _) I). unfold u64_max. lia.
Qed.
Print Assumptions C55_v2_merge_partial.
Example C55_v2_example : v2_union_merge Debug ref_libm fa3 fc3 = (fu, Ok tt) /\ v2_n_hash_buck fa3 = 7 /\ len (v2_buckets fa3) = 1 /\ v2_bit fu 0 1 = false.
Proof. split; [vm_compute; reflexivity|]. split; [vm_compute; reflexivity|]. split; vm_compute; reflexivity. Qed.

(** Two buckets, both full of ones: merging the filter with itself panics in a debug build; in a release build the count
    wraps around. One full bucket: the count is u64::MAX, and in a debug build inserting "\x05" panics. *)
Definition sat_filter (b0 b1 : list N) : v2 :=
  {| v2_flags := flags_new 2; v2_index_cache := []; v2_n_buckets := 2; v2_cache_byte_size := 0; v2_capacity := 10; v2_fpp := p001;
     v2_n_hash_buck := 1; v2_count := 0; v2_buckets := [b0; b1]; v2_data := [] |}.
Definition ones_bucket : list N := repeat 255 (N.to_nat 4096).
Lemma sat_wf b0 b1 : length b0 = N.to_nat 4096 /\ words_ok 8 b0 -> length b1 = N.to_nat 4096 /\ words_ok 8 b1 -> v2_wf (sat_filter b0 b1).
Proof.
  intros H0 H1. constructor; cbn [sat_filter v2_flags v2_index_cache v2_n_buckets v2_cache_byte_size v2_capacity v2_fpp v2_n_hash_buck v2_count v2_buckets v2_data].
  - reflexivity.
  - split; [reflexivity|]. repeat constructor.
  - reflexivity.
  - reflexivity.
  - vm_compute. reflexivity.
  - reflexivity.
  - reflexivity.
  - constructor; [exact H0|]. constructor; [exact H1|constructor].
  - reflexivity.
  - discriminate.
  - constructor.
  - reflexivity.
  - vm_compute. reflexivity.
  - reflexivity.
  - constructor.
Qed.
Lemma ones_ok : length ones_bucket = N.to_nat 4096 /\ words_ok 8 ones_bucket.
Proof. split; [apply repeat_length|]. apply Forall_repeat. reflexivity. Qed.
Lemma sat_reach wy L b0 b1 : length b0 = N.to_nat 4096 /\ words_ok 8 b0 -> length b1 = N.to_nat 4096 /\ words_ok 8 b1 ->
  exists content, bytes_ok content /\ file_size_ok content /\ (forall pr, v2_from_reader pr content = Ok (sat_filter b0 b1)) /\ v2_reach wy L (sat_filter b0 b1).
Proof.
  intros H0 H1. pose proof (sat_wf b0 b1 H0 H1) as W.
  assert (R : forall pr, v2_from_reader pr (v2_write (sat_filter b0 b1)) = Ok (sat_filter b0 b1)).
  { intro pr. rewrite v2_roundtrip by auto. now rewrite v2_canon_id by reflexivity. }
  pose proof (write_bytes _ W) as B.
  assert (S : file_size_ok (v2_write (sat_filter b0 b1))).
  { unfold file_size_ok. rewrite write_len by auto. reflexivity. }
  exists (v2_write (sat_filter b0 b1)). split; [exact B|]. split; [exact S|]. split; [exact R|]. eexists. exact (vh_load wy L Debug _ _ B S (R Debug)).
Qed.
Lemma sat_estimate L n : lm_ln L (S754_zero false) = S754_infinity true -> 1 <= n -> n < two64 -> estimate_count L bucket_bit_size 32768 n = u64_max.
Proof.
  intros H H1 Hn. unfold estimate_count. replace (f_sub f_one (f_div (f_of_u64 32768) (f_of_u64 bucket_bit_size))) with (S754_zero false) by (vm_compute; reflexivity).
  rewrite H. replace (f_opp (f_mul (f_of_u64 bucket_bit_size) (S754_infinity true))) with (S754_infinity false) by (vm_compute; reflexivity).
  destruct (f_of_u64_pos n H1 Hn) as (m & e & ->). reflexivity.
Qed.
Theorem C55_refuted : forall (wy : hasher) L, lm_ln L (S754_zero false) = S754_infinity true ->
  exists content f g, bytes_ok content /\ v2_from_reader Debug content = Ok f /\ v2_has_same_params f f = true /\
    v2_union_merge Debug L f f = (g, Panic) /\ exists h, v2_union_merge Release L f f = (h, Ok tt) /\ v2_count_estimate h = 2 ^ 64 - 2.
Proof.
  intros wy L HL. destruct (sat_reach wy L _ _ ones_ok ones_ok) as (content & B & _ & R & Re). set (f := sat_filter ones_bucket ones_bucket) in *.
  pose proof (reach_wf _ _ _ Re) as W. pose proof (same_params_refl f W) as S.
  assert (E : sumN (v2_estimates L f) = 2 ^ 65 - 2).
  { unfold f, v2_estimates. cbn [sat_filter v2_buckets map v2_n_hash_buck]. replace (bs_count_ones ones_bucket) with 32768 by (vm_compute; reflexivity).
    rewrite sat_estimate by (auto; reflexivity || discriminate). reflexivity. }
  assert (Q : forall g r pr, v2_union_merge pr L f f = (g, r) -> v2_estimates L g = v2_estimates L f /\ v2_merge_effect op_or pr L f f g r).
  { intros g r pr X. rewrite v2_union_merge_op in X. destruct (v2_merge_sem _ _ _ _ _ _ _ W W X) as [(S' & _)|(_ & M)]; [congruence|]. split; auto.
    assert (SC : v2_same_content f g).
    { apply same_content_bits; [auto|apply (me_wf _ _ _ _ _ _ _ M)|apply (me_frame _ _ _ _ _ _ _ M)| |]; intros;
      [rewrite (me_bits _ _ _ _ _ _ _ M)|rewrite (me_cbits _ _ _ _ _ _ _ M)]; apply orb_diag. }
    destruct SC as (SF & SB & _). unfold v2_estimates. rewrite SB. destruct SF as (_ & _ & _ & _ & _ & -> & _). reflexivity. }
  destruct (v2_union_merge Debug L f f) as [g r] eqn:ED. destruct (v2_union_merge Release L f f) as [h r'] eqn:ER.
  exists content, f, g. split; [exact B|]. split; [apply R|]. split; [exact S|]. split; [|exists h].
  - destruct (Q _ _ _ ED) as [Eg M]. pose proof (me_cases _ _ _ _ _ _ _ M) as C. destruct r as [u|e|]; [|easy|exact ED].
    rewrite Eg, checked_sum_spec, E in C. discriminate.
  - destruct (Q _ _ _ ER) as [Eg M]. pose proof (me_cases _ _ _ _ _ _ _ M) as C. destruct r' as [[]|e|]; [|easy|destruct C; discriminate].
    split; [exact ER|]. rewrite Eg, checked_sum_spec, E in C. apply Ok_inj in C. unfold v2_count_estimate. rewrite <- C. reflexivity.
Qed.
Print Assumptions C55_refuted.
Theorem C55_insert_refuted : exists content f g, bytes_ok content /\ v2_from_reader Debug content = Ok f /\
  v2_union_merge Debug ref_libm f f = (g, Ok tt) /\ v2_count_estimate g = u64_max /\ forall wy, snd (v2_insert Debug wy g k1) = Panic.
Proof.
  destruct (sat_reach ex_wy ref_libm _ _ ones_ok bucket_new_ok) as (content & B & _ & R & Re). set (f := sat_filter ones_bucket bucket_new) in *.
  exists content, f, (fst (v2_union_merge Debug ref_libm f f)). split; [exact B|]. split; [apply R|]. split; [vm_compute; reflexivity|].
  split; [vm_compute; reflexivity|]. intro wy. vm_compute. reflexivity.
Qed.
Print Assumptions C55_insert_refuted.

(** * C56 Attached data is inert *)
Theorem C56_v2_data pr wy L a b d d' k :
  v2_contains wy (v2_set_data a d) k = v2_contains wy a k /\
  v2_count_estimate (v2_set_data a d) = v2_count_estimate a /\ v2_is_full (v2_set_data a d) = v2_is_full a /\
  v2_has_same_params (v2_set_data a d) (v2_set_data b d') = v2_has_same_params a b /\
  v2_count_common_entries pr L (v2_set_data a d) (v2_set_data b d') = v2_count_common_entries pr L a b /\
  v2_clear (v2_set_data a d) = v2_set_data (v2_clear a) d /\
  v2_insert pr wy (v2_set_data a d) k = (v2_set_data (fst (v2_insert pr wy a k)) d, snd (v2_insert pr wy a k)) /\
  v2_union_merge pr L (v2_set_data a d) (v2_set_data b d') = (v2_set_data (fst (v2_union_merge pr L a b)) d, snd (v2_union_merge pr L a b)) /\
  v2_intersection_merge pr L (v2_set_data a d) (v2_set_data b d') =
    (v2_set_data (fst (v2_intersection_merge pr L a b)) d, snd (v2_intersection_merge pr L a b)).
Proof.
  split; [reflexivity|]. split; [reflexivity|]. split; [reflexivity|]. split; [reflexivity|]. split; [reflexivity|]. split; [reflexivity|].
  split; [apply data_insert_iter, surjective_pairing|]. split; apply data_merge, surjective_pairing.
Qed.
Print Assumptions C56_v2_data.
(** Nothing but an assignment changes the data. *)
Theorem C56_v2_data_kept pr wy L a b k : v2_reach wy L a -> v2_reach wy L b -> key_ok k ->
  v2_data (fst (v2_insert pr wy a k)) = v2_data a /\ v2_data (v2_clear a) = v2_data a /\
  v2_data (fst (v2_union_merge pr L a b)) = v2_data a /\ v2_data (fst (v2_intersection_merge pr L a b)) = v2_data a.
Proof.
  intros Ra Rb Hk. pose proof (reach_wf _ _ _ Ra) as Wa. pose proof (reach_wf _ _ _ Rb) as Wb. split; [|split; [reflexivity|]].
  - exact (proj1 (proj2 (proj2 (v2_insert_any pr wy a k _ _ Wa Hk (surjective_pairing _))))).
  - rewrite v2_union_merge_op, v2_intersection_merge_op.
    split; [destruct (v2_merge_sem op_or pr L a b _ _ Wa Wb (surjective_pairing _)) as [(_ & -> & _)|(_ & M)]
           |destruct (v2_merge_sem op_and pr L a b _ _ Wa Wb (surjective_pairing _)) as [(_ & -> & _)|(_ & M)]]; auto; apply (me_data _ _ _ _ _ _ _ M).
Qed.
Print Assumptions C56_v2_data_kept.
Example C56_v2_example : v2_contains ex_wy (v2_set_data fn2 [1; 2; 3]) ka = Ok true /\ v2_data (fst (v2_union_merge Release ref_libm (v2_set_data fa3 [1; 2]) (v2_set_data fc3 [9]))) = [1; 2].
Proof. split; vm_compute; reflexivity. Qed.
