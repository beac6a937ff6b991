(** v1 (DCSO) filters: C02 to C12, C14, C15, C28 and C54 to C56. *)
From Coq Require Import Lia.
From Verif Require Import M_V1 M_RefLibm Spec_Bits Spec_Hash Spec_V2 Spec_V1 Spec_Libm P_Base P_BitSet P_Hash P_Fpp P_V1 P_V1Size P_V1Codec P_V1Hist P_V1More Ex_Base Ex_V1.
Open Scope N_scope.

(** * C02 No false negatives (v1) *)
(** Full statement: a value whose insert answered Ok is contained until the filter is cleared. Missing: filters of zero
    bits, which with_capacity accepts to create (C02_refuted). *)
Theorem C02_v1_no_false_negatives_partial L f K d : v1_hist L f K -> K d -> v1_bit_size f <> 0 -> v1_contains_bytes f d = Ok true.
Proof. exact (v1_hist_contains L f K d). Qed.
Print Assumptions C02_v1_no_false_negatives_partial.
Example C02_v1_example : v1_hist ref_libm e2 (fun x => x = db \/ x = da \/ False) /\ v1_bit_size e2 = 38 /\ v1_contains_bytes e2 dc = Ok false.
Proof. split; [exact e2_hist|]. split; vm_compute; reflexivity. Qed.
(** Capacity 10 and fpp 1.0 are accepted, "hello" is inserted with answer Ok, and is not contained. *)
Theorem C02_refuted : exists f g, v1_with_capacity ref_libm 10 p1 = Ok f /\ (forall pr, v1_insert_bytes pr f da = (g, Ok false)) /\
  v1_contains_bytes g da = Ok false.
Proof. exists z0, z0. split; [exact z0_eq|]. split; [exact z1_eq|vm_compute; reflexivity]. Qed.
Print Assumptions C02_refuted.

(** * C03 Exact membership semantics *)
Theorem C03_v1_exact L f K d : v1_kept L f K ->
  (v1_contains_bytes f d = Ok true <->
   v1_bit_size f <> 0 /\ forall i, In i (v1_positions f d) -> exists x, K x /\ In i (v1_positions f x)).
Proof. exact (v1_kept_contains L f K d). Qed.
Print Assumptions C03_v1_exact.
Theorem C03_v1_bits L f B : v1_built L f B -> forall i, v1_bit f i = true <-> B i.
Proof. intro H. exact (proj2 (v1_built_inv L f B H)). Qed.
Print Assumptions C03_v1_bits.
Example C03_v1_example : v1_kept ref_libm e2 (fun x => x = db \/ x = da \/ False) /\ v1_contains_bytes e2 da = Ok true /\
  v1_contains_bytes e2 dc = Ok false /\ v1_positions e2 da = [19; 5; 7; 17; 9; 3; 21].
Proof. split; [exact e2_kept|]. split; [vm_compute; reflexivity|]. split; vm_compute; reflexivity. Qed.

(** * C04 A fresh filter contains nothing *)
Theorem C04_v1_fresh_empty L cap fpp f d : libm_ln2 L -> cap < two64 -> fpp < two64 -> v1_with_capacity L cap fpp = Ok f ->
  v1_contains_bytes f d = Ok false /\ v1_count_estimate f = 0.
Proof.
  intros HL Hc Hf E. pose proof (v1_make_created _ _ _ _ E) as C. split; [|exact (c1_count _ _ _ _ C)].
  apply (v1_fresh_contains L cap fpp); auto. exact (v1_created_hash L cap fpp f HL Hc C).
Qed.
Print Assumptions C04_v1_fresh_empty.
Example C04_v1_example : libm_ln2 ref_libm /\ v1_with_capacity ref_libm 4 p001 = Ok e0 /\ v1_contains_bytes e0 da = Ok false.
Proof. split; [vm_compute; reflexivity|]. split; [exact e0_eq|vm_compute; reflexivity]. Qed.

(** * C05 clear empties the filter *)
(** For every filter built by this library. A file made elsewhere can announce bits and no hash function: such a filter
    contains everything, cleared or not (C05_v1_loaded_refuted). *)
Theorem C05_v1_clear L f K d : libm_ln2 L -> v1_kept L f K ->
  v1_contains_bytes (v1_clear f) d = Ok false /\ v1_count_estimate (v1_clear f) = 0 /\ v1_same_frame f (v1_clear f) /\
  v1_data (v1_clear f) = v1_data f /\ forall i, v1_bit (v1_clear f) i = false.
Proof.
  intros HL H. pose proof (v1_kept_inv _ _ _ H) as (W & U & _).
  split; [exact (v1_clear_contains_any f d W U (v1_kept_hash L f K HL H))|]. split; [reflexivity|]. split; [exact (v1_clear_frame f)|]. split; [reflexivity|].
  exact (v1_clear_bit f).
Qed.
Print Assumptions C05_v1_clear.
Theorem C05_v1_clear_is_fresh L cap fpp f0 f n : cap < two64 -> fpp < two64 -> v1_with_capacity L cap fpp = Ok f0 -> v1_solo f0 f n ->
  v1_clear f = v1_set_data f0 (v1_data f).
Proof. exact (v1_solo_clear_fresh L cap fpp f0 f n). Qed.
Print Assumptions C05_v1_clear_is_fresh.
Example C05_v1_example : v1_kept ref_libm e2 (fun x => x = db \/ x = da \/ False) /\ v1_solo e0 e2 2 /\ v1_contains_bytes e2 da = Ok true /\
  v1_contains_bytes (v1_clear e2) da = Ok false.
Proof. split; [exact e2_kept|]. split; [exact e2_solo|]. split; vm_compute; reflexivity. Qed.
Theorem C05_v1_loaded_refuted : exists content f, bytes_ok content /\ v1_from_reader Release content = Ok f /\
  forall d, v1_contains_bytes (v1_clear f) d = Ok true.
Proof.
  exists (tiny_file ONone p001 0 50 [0]), (tiny ONone p001 0 50 [0]). split; [vm_compute; bytes|]. split; [vm_compute; reflexivity|].
  intro d. reflexivity.
Qed.
Print Assumptions C05_v1_loaded_refuted.

(** * C06 Meaning of insert's boolean *)
(** Full statement: Ok(true) exactly when the value was not contained just before. Missing: filters of zero bits
    (C06_v1_refuted). *)
Theorem C06_v1_insert_bool_partial pr L f d g b : v1_reach L f -> v1_bit_size f <> 0 -> v1_insert_bytes pr f d = (g, Ok b) ->
  (b = true <-> v1_contains_bytes f d = Ok false) /\ (b = false <-> v1_contains_bytes f d = Ok true).
Proof.
  intros R Z E. rewrite (v1_insert_bool pr f d g b (v1_reach_wf _ _ R) Z E). destruct b; cbn; split; split; congruence.
Qed.
Print Assumptions C06_v1_insert_bool_partial.
Example C06_v1_example : v1_insert_bytes Release e1 db = (e2, Ok true) /\ v1_contains_bytes e1 db = Ok false /\ v1_bit_size e1 = 38.
Proof. split; [exact e2_eq|]. split; vm_compute; reflexivity. Qed.
Theorem C06_v1_refuted : exists f, v1_with_capacity ref_libm 10 p1 = Ok f /\ v1_contains_bytes f da = Ok false /\
  forall pr, snd (v1_insert_bytes pr f da) = Ok false.
Proof. exists z0. split; [exact z0_eq|]. split; [vm_compute; reflexivity|]. intro pr. now rewrite z1_eq. Qed.
Print Assumptions C06_v1_refuted.

(** * C07 Insert is idempotent *)
Theorem C07_v1_idempotent pr L f K d : v1_hist L f K -> K d -> v1_insert_bytes pr f d = (f, Ok false).
Proof. intros H Hd. exact (v1_hist_reinsert pr L f K d H Hd (v1_hist_capacity L f K d H Hd)). Qed.
Print Assumptions C07_v1_idempotent.
Example C07_v1_example : v1_hist ref_libm e2 (fun x => x = db \/ x = da \/ False) /\ snd (v1_insert_bytes Debug e2 da) = Ok false.
Proof. split; [exact e2_hist|vm_compute; reflexivity]. Qed.

(** * C08, C09 Count and capacity *)
Lemma v1_created_pre L cap fpp f0 : cap < two64 -> fpp < two64 -> v1_with_capacity L cap fpp = Ok f0 ->
  v1_wf f0 /\ v1_usable f0 /\ v1_flags f0 = flags_new 1 /\ v1_count f0 = 0 /\ v1_capacity f0 = cap.
Proof.
  intros Hc Hf E. pose proof (v1_make_created _ _ _ _ E) as C. split; [exact (v1_created_wf _ _ _ _ Hc Hf C)|].
  split; [exact (v1_created_usable _ _ _ _ C)|]. split; [exact (c1_flags _ _ _ _ C)|]. split; [exact (c1_count _ _ _ _ C)|exact (c1_capacity _ _ _ _ C)].
Qed.
Theorem C08_v1_count L cap fpp f0 f n : cap < two64 -> fpp < two64 -> v1_with_capacity L cap fpp = Ok f0 -> v1_solo f0 f n -> v1_count_estimate f = n.
Proof. intros Hc Hf E S. destruct (v1_created_pre _ _ _ _ Hc Hf E) as (W & _ & F & C & _). apply (v1_solo_inv f0 f n W F C S). Qed.
Print Assumptions C08_v1_count.
Example C08_v1_example : v1_solo e0 e2 2 /\ v1_count_estimate e2 = 2.
Proof. split; [exact e2_solo|vm_compute; reflexivity]. Qed.
Theorem C09_v1_capacity L cap fpp f0 f n : cap < two64 -> fpp < two64 -> v1_with_capacity L cap fpp = Ok f0 -> v1_solo f0 f n ->
  v1_count_estimate f <= cap /\
  forall pr d g r, v1_insert_bytes pr f d = (g, r) ->
    r <> Panic /\ (v1_count_estimate f < cap -> exists b, r = Ok b) /\
    (cap <> 0 -> v1_count_estimate f = cap -> (r = Err TooManyEntries <-> v1_covered f d = false)) /\
    (cap = 0 -> r = Err TooManyEntries).
Proof.
  intros Hc Hf E S. destruct (v1_created_pre _ _ _ _ Hc Hf E) as (W & U & F & C & Ca).
  destruct (v1_solo_inv f0 f n W F C S) as (W' & Fr & Cn & Le). assert (Cf : v1_capacity f = cap) by (rewrite <- Ca; apply Fr).
  unfold v1_count_estimate. rewrite Cn. split; [rewrite <- Ca; exact Le|]. intros pr d g r I.
  destruct (v1_solo_insert pr f0 f n d g r W U F C S I) as (P & A & B). rewrite Cf in A, B.
  split; [exact P|]. split; [exact A|]. split; [exact B|]. intro Z. unfold v1_insert_bytes in I. rewrite Cf, Z in I. cbn [N.eqb] in I.
  apply pair_inj in I as [_ <-]. reflexivity.
Qed.
Print Assumptions C09_v1_capacity.
Example C09_v1_example : v1_with_capacity ref_libm 2 p001 = Ok q0 /\ v1_solo q0 q2 2 /\ v1_count_estimate q2 = 2 /\
  snd (v1_insert_bytes Release q2 dc) = Err TooManyEntries /\ snd (v1_insert_bytes Release q2 da) = Ok false.
Proof. split; [exact q0_eq|]. split; [exact q2_solo|]. split; [vm_compute; reflexivity|]. split; vm_compute; reflexivity. Qed.

(** * C10 Failed insert changes nothing *)
Theorem C10_v1_failed_insert pr L f d g e : v1_reach L f -> v1_insert_bytes pr f d = (g, Err e) -> g = f /\ e = TooManyEntries.
Proof. intros R E. destruct (i1_cases _ _ _ _ _ (v1_insert_sem _ _ _ _ _ (v1_reach_wf _ _ R) E)) as (-> & -> & _). auto. Qed.
Print Assumptions C10_v1_failed_insert.
Example C10_v1_example : v1_insert_bytes Release q2 dc = (q2, Err TooManyEntries).
Proof. vm_compute. reflexivity. Qed.

(** * C11 Capacity remains enforced after merging *)
(** v1 does refuse new entries at or above the capacity. Full statement: it also reports full. Missing: counts strictly
    above the capacity, where is_full answers false (C11_v1_refuted). *)
Theorem C11_v1_capacity_partial pr L f d g r : v1_reach L f -> v1_usable f -> v1_insert_bytes pr f d = (g, r) -> v1_capacity f <= v1_count_estimate f ->
  (v1_capacity f = 0 \/ v1_covered f d = false -> g = f /\ r = Err TooManyEntries) /\
  (v1_count_estimate f = v1_capacity f -> v1_is_full f = true).
Proof.
  intros R U E C. pose proof (v1_reach_wf _ _ R) as W. split; [|intro H; unfold v1_is_full; now apply N.eqb_eq]. intro H.
  pose proof (v1_insert_usable _ _ _ _ _ W U E) as NP. pose proof (i1_cases _ _ _ _ _ (v1_insert_sem _ _ _ _ _ W E)) as M. unfold v1_count_estimate in C.
  destruct r as [b|e|]; [|destruct M as (-> & -> & _); auto|easy].
  destruct M as (M0 & _ & _ & M1 & M2 & _). destruct H as [H|H]; [easy|]. rewrite H in M1. specialize (M2 M1). lia.
Qed.
Print Assumptions C11_v1_capacity_partial.
Example C11_v1_example : v1_reach ref_libm u1 /\ v1_usable u1 /\ v1_count_estimate u1 = 5 /\ v1_capacity u1 = 4 /\
  v1_insert_bytes Release u1 [99] = (u1, Err TooManyEntries).
Proof.
  split; [eexists; exact (h1_union _ _ _ _ _ _ a3_hist c3_hist u1_eq)|]. split; [split; vm_compute; discriminate|]. split; [vm_compute; reflexivity|].
  split; vm_compute; reflexivity.
Qed.
Theorem C11_v1_refuted : exists f, v1_reach ref_libm f /\ v1_capacity f = 4 /\ v1_count_estimate f = 5 /\ v1_is_full f = false.
Proof.
  exists u1. split; [eexists; exact (h1_union _ _ _ _ _ _ a3_hist c3_hist u1_eq)|]. split; [vm_compute; reflexivity|]. split; vm_compute; reflexivity.
Qed.
Print Assumptions C11_v1_refuted.

(** * C12 Union contains both sides *)
Theorem C12_v1_union L a b g : v1_reach L a -> v1_reach L b -> v1_union_merge L a b = (g, Ok tt) ->
  v1_same_frame a g /\ v1_data g = v1_data a /\ (forall i, v1_bit g i = v1_bit a i || v1_bit b i) /\
  (forall d, v1_contains_bytes a d = Ok true \/ v1_contains_bytes b d = Ok true -> v1_contains_bytes g d = Ok true).
Proof.
  intros Ra Rb E. pose proof (v1_reach_wf _ _ Ra) as Wa. pose proof (v1_reach_wf _ _ Rb) as Wb. destruct (v1_union_ok _ _ _ _ Wa Wb E) as [_ U].
  split; [exact (u1_frame _ _ _ _ U)|]. split; [exact (u1_data _ _ _ _ U)|]. split; [exact (u1_bits _ _ _ _ U)|].
  intro d. exact (v1_union_contains L a b g d Wa Wb E).
Qed.
Print Assumptions C12_v1_union.
Theorem C12_v1_union_commutative L a b g h : v1_reach L a -> v1_reach L b ->
  v1_union_merge L a b = (g, Ok tt) -> v1_union_merge L b a = (h, Ok tt) -> v1_bitset h = v1_bitset g /\ v1_count_estimate h = v1_count_estimate g.
Proof. intros Ra Rb. exact (v1_union_comm L a b g h (v1_reach_wf _ _ Ra) (v1_reach_wf _ _ Rb)). Qed.
Print Assumptions C12_v1_union_commutative.
Theorem C12_v1_union_associative L a b c ab abc bc abc' : v1_reach L a -> v1_reach L b -> v1_reach L c ->
  v1_union_merge L a b = (ab, Ok tt) -> v1_union_merge L ab c = (abc, Ok tt) ->
  v1_union_merge L b c = (bc, Ok tt) -> v1_union_merge L a bc = (abc', Ok tt) ->
  v1_same_content abc abc' /\ v1_count_estimate abc' = v1_count_estimate abc.
Proof. intros Ra Rb Rc. exact (v1_union_assoc L a b c ab abc bc abc' (v1_reach_wf _ _ Ra) (v1_reach_wf _ _ Rb) (v1_reach_wf _ _ Rc)). Qed.
Print Assumptions C12_v1_union_associative.
Theorem C12_v1_union_idempotent L a g : v1_reach L a -> v1_union_merge L a a = (g, Ok tt) -> v1_same_content a g.
Proof. intro Ra. exact (v1_union_idem L a g (v1_reach_wf _ _ Ra)). Qed.
Print Assumptions C12_v1_union_idempotent.
Theorem C12_v1_union_is_insertion L a b c g Ka Kb : v1_kept L a Ka -> v1_kept L b Kb -> v1_kept L c (fun x => Ka x \/ Kb x) -> v1_same_frame a c ->
  v1_union_merge L a b = (g, Ok tt) -> v1_same_content c g.
Proof. exact (v1_union_as_inserts L a b c g Ka Kb). Qed.
Print Assumptions C12_v1_union_is_insertion.
Example C12_v1_example : v1_union_merge ref_libm a3 c3 = (u1, Ok tt) /\ v1_contains_bytes c3 [5; 6] = Ok false /\
  v1_contains_bytes u1 [5; 6] = Ok true /\ v1_contains_bytes u1 [15; 6] = Ok true.
Proof. split; [exact u1_eq|]. split; [vm_compute; reflexivity|]. split; vm_compute; reflexivity. Qed.

(** * C14 Incompatible merges are refused without effect *)
(** [v1_same_shape a b]: same flags, capacity, hash count, bit count, vector length, and equal fpp as f64 values. *)
Theorem C14_v1_merge L a b g r : v1_reach L a -> v1_reach L b -> v1_union_merge L a b = (g, r) ->
  ((exists e, r = Err e) <-> ~ v1_same_shape a b) /\ (forall e, r = Err e -> e = Merge /\ g = a) /\ r <> Panic /\
  ((exists e, v1_count_common_entries L a b = Err e) <-> ~ v1_same_shape a b) /\ v1_count_common_entries L a b <> Panic.
Proof.
  intros Ra Rb E. pose proof (v1_reach_wf _ _ Ra) as Wa. pose proof (v1_reach_wf _ _ Rb) as Wb. pose proof (v1_same_params_iff a b) as S. rewrite v1_common_eq.
  destruct (v1_union_sem _ _ _ _ _ Wa Wb E) as [(F & -> & ->)|(F & -> & U)].
  - rewrite F. assert (X : ~ v1_same_shape a b) by (intro X; apply S in X; congruence). split; [split; eauto|]. split; [intros e Q; now inversion Q|].
    split; [discriminate|]. split; [split; eauto|discriminate].
  - rewrite (proj2 S F). split; [split; [intros [e Q]; discriminate|easy]|]. split; [discriminate|]. split; [discriminate|]. split; [|discriminate].
    split; [intros [e Q]; discriminate|easy].
Qed.
Print Assumptions C14_v1_merge.
Example C14_v1_example : v1_reach ref_libm e2 /\ v1_union_merge ref_libm e2 q2 = (e2, Err Merge) /\ v1_count_common_entries ref_libm e2 q2 = Err Merge /\
  snd (v1_union_merge ref_libm e2 a3) = Ok tt.
Proof. split; [eexists; exact e2_hist|]. split; [vm_compute; reflexivity|]. split; vm_compute; reflexivity. Qed.

(** * C15 has_same_params is an equivalence *)
(** Full statement: reflexive, symmetric and transitive on all filters. Missing: reflexivity when the fpp is a NaN, which
    the v1 reader accepts (C15_v1_refuted). *)
Theorem C15_v1_equivalence_partial a b c :
  (is_nan (v1_fpp a) = false -> v1_has_same_params a a = true) /\ v1_has_same_params a b = v1_has_same_params b a /\
  (v1_has_same_params a b = true -> v1_has_same_params b c = true -> v1_has_same_params a c = true).
Proof.
  split; [|split; [apply v1_same_params_sym|]].
  - intro H. apply v1_same_params_iff. unfold v1_same_shape. rewrite fpp_eqb_refl, H. auto 10.
  - rewrite !v1_same_params_iff. intros (? & ? & A & ? & ? & ?) (? & ? & B & ? & ? & ?).
    split; [congruence|]. split; [congruence|]. split; [exact (fpp_eqb_trans _ _ _ A B)|]. split; [congruence|]. split; congruence.
Qed.
Print Assumptions C15_v1_equivalence_partial.
Example C15_v1_example : is_nan (v1_fpp e2) = false /\ v1_has_same_params e2 a3 = true /\ v1_has_same_params a3 u1 = true /\ v1_has_same_params e2 q2 = false.
Proof. split; [vm_compute; reflexivity|]. split; [vm_compute; reflexivity|]. split; vm_compute; reflexivity. Qed.
Theorem C15_v1_refuted : exists content f, bytes_ok content /\ (forall pr, v1_from_reader pr content = Ok f) /\ v1_has_same_params f f = false /\
  forall L, v1_union_merge L f f = (f, Err Merge).
Proof.
  exists (tiny_file ONone p_nan 3 50 [5]), (tiny ONone p_nan 3 50 [5]). split; [vm_compute; bytes|]. split; [intros []; vm_compute; reflexivity|].
  split; [vm_compute; reflexivity|]. intro L. reflexivity.
Qed.
Print Assumptions C15_v1_refuted.

(** * C28 v1 positions follow the DCSO sequence and stay in range *)
Theorem C28_v1_positions L cap fpp f0 f n d : cap < two64 -> fpp < two64 -> v1_with_capacity L cap fpp = Ok f0 -> v1_solo f0 f n ->
  fp_list (fp_fingerprint (v1_fp f) d) = map Ok (dcso_positions (v1_n_hash f) (v1_bit_size f) d) /\
  len (dcso_positions (v1_n_hash f) (v1_bit_size f) d) = v1_n_hash f /\
  forall i, In i (dcso_positions (v1_n_hash f) (v1_bit_size f) d) -> i < v1_bit_size f /\ i / 64 < len (v1_bitset f).
Proof.
  intros Hc Hf E S. destruct (v1_created_pre _ _ _ _ Hc Hf E) as (W & U & F & C & _). destruct (v1_solo_inv f0 f n W F C S) as (W' & Fr & _).
  pose proof (v1_usable_frame _ _ Fr U) as U'. destruct (fp_list_usable f d W' U') as [A B]. split; [exact A|].
  split; [unfold len; rewrite dcso_positions_length; apply N2Nat.id|]. intros i Hi. split.
  - destruct (N.eq_dec (v1_n_hash f) 0) as [Z|Z]; [rewrite Z in Hi; destruct Hi|]. eapply dcso_positions_lt; [exact (proj2 U' Z)|exact Hi].
  - apply div_lt_len; [discriminate|]. unfold in_range64 in B. rewrite Forall_forall in B. exact (B i Hi).
Qed.
Print Assumptions C28_v1_positions.
(** Filters loaded from any file, up to 2^53 bits (beyond, the number of words is computed from a rounded bit count). *)
Theorem C28_v1_positions_loaded_partial pr content f d : bytes_ok content -> v1_from_reader pr content = Ok f -> v1_bit_size f <> 0 -> v1_bit_size f <= 2 ^ 53 ->
  fp_list (fp_fingerprint (v1_fp f) d) = map Ok (dcso_positions (v1_n_hash f) (v1_bit_size f) d) /\
  forall i, In i (dcso_positions (v1_n_hash f) (v1_bit_size f) d) -> i < v1_bit_size f /\ i / 64 < len (v1_bitset f).
Proof.
  intros B E Z S. pose proof (v1_load_wf _ _ _ B E) as W. assert (U : v1_usable f) by (apply v1_usable_small; auto).
  destruct (fp_list_usable f d W U) as [P Q]. split; [exact P|]. intros i Hi. split; [eapply dcso_positions_lt; [exact Z|exact Hi]|].
  apply div_lt_len; [discriminate|]. unfold in_range64 in Q. rewrite Forall_forall in Q. exact (Q i Hi).
Qed.
Print Assumptions C28_v1_positions_loaded_partial.
(** Beyond 2^53 bits the property fails: a file announcing 10424355269317487387 bits has 162880551083085728 words, and the only
    position of the value [1] is in word 162880551083085740, so that a query panics. *)
Definition big_words : N := 162880551083085728.
Definition big_bits : N := 10424355269317487387.
Definition big_v1 : v1 := {| v1_flags := flags_new 1; v1_bitset := repeat 0 (N.to_nat big_words); v1_capacity := 1; v1_fpp := p001; v1_n_hash := 1;
  v1_bit_size := big_bits; v1_count := 0; v1_data := []; v1_fp := fp_new 1 big_bits |}.
Lemma len_big : len (v1_bitset big_v1) = big_words.
Proof. cbn [v1_bitset big_v1]. now rewrite len_repeat, N2Nat.id. Qed.
Lemma big_wf : v1_wf big_v1.
Proof.
  constructor; [reflexivity|cbn [v1_flags big_v1]; vm_compute; split; [reflexivity|repeat constructor]|reflexivity..| | |reflexivity|constructor].
  - cbn [v1_bitset big_v1]. apply Forall_repeat. reflexivity.
  - rewrite len_big. cbn [v1_bit_size big_v1]. vm_compute. reflexivity.
Qed.
Lemma big_canon : v1_canon big_v1 = big_v1.
Proof. unfold v1_canon. cbn [v1_flags v1_bitset v1_capacity v1_fpp v1_n_hash v1_bit_size v1_count v1_data v1_fp big_v1]. reflexivity. Qed.
Theorem C28_refuted : exists content f d i, bytes_ok content /\ file_size_ok content /\ (forall pr, v1_from_reader pr content = Ok f) /\ v1_bit_size f <> 0 /\
  In i (dcso_positions (v1_n_hash f) (v1_bit_size f) d) /\ len (v1_bitset f) <= i / 64 /\ v1_contains_bytes f d = Panic.
Proof.
  exists (v1_write big_v1), big_v1, [1], 10424355269317487386. split; [exact (v1_write_bytes _ big_wf)|].
  split; [unfold file_size_ok; rewrite v1_write_len, len_big; cbn [v1_data big_v1]; vm_compute; reflexivity|]. split; [intro pr; rewrite (v1_roundtrip pr _ big_wf), big_canon; reflexivity|]. split; [cbn [v1_bit_size big_v1]; discriminate|].
  assert (P : dcso_positions 1 big_bits [1] = [10424355269317487386]) by (vm_compute; reflexivity).
  split; [cbn [v1_n_hash v1_bit_size big_v1]; rewrite P; now left|]. split; [rewrite len_big; vm_compute; discriminate|].
  unfold v1_contains_bytes. change (v1_fp big_v1) with (fp_new 1 big_bits). assert (Q : fp_list (fp_fingerprint (fp_new 1 big_bits) [1]) = [Ok 10424355269317487386]) by (vm_compute; reflexivity). rewrite Q.
  assert (G : getN (v1_bitset big_v1) (10424355269317487386 / 64) = None) by (apply getN_None; rewrite len_big; vm_compute; discriminate).
  cbn [v1_contains_loop]. unfold v1_get_nth_bit. rewrite G. cbn [obind]. pose proof len_big as Lb. destruct (v1_bitset big_v1); [discriminate|reflexivity].
Qed.
Print Assumptions C28_refuted.
(** The vector of the DCSO test in v1.rs. *)
Example C28_v1_example : dcso_positions 7 958505 dc = [20311; 36825; 412501; 835777; 658914; 853361; 307361] /\ v1_solo e0 e2 2 /\
  v1_bit_size e2 = 38 /\ v1_n_hash e2 = 7 /\ len (v1_bitset e2) = 1.
Proof. split; [vm_compute; reflexivity|]. split; [exact e2_solo|]. split; [vm_compute; reflexivity|]. split; vm_compute; reflexivity. Qed.

(** * C54 count_common_entries *)
Theorem C54_v1_common L a b : v1_reach L a -> v1_reach L b ->
  v1_count_common_entries L a b = v1_count_common_entries L b a /\
  ((exists e, v1_count_common_entries L a b = Err e) <-> v1_has_same_params a b = false) /\
  (libm_ln1 L -> v1_has_same_params a b = true -> (forall i, v1_bit a i && v1_bit b i = false) -> v1_count_common_entries L a b = Ok 0).
Proof.
  intros Ra Rb. pose proof (v1_reach_wf _ _ Ra) as Wa. pose proof (v1_reach_wf _ _ Rb) as Wb.
  split; [apply v1_common_sym|]. split; [|intros HL S D; now apply v1_common_disjoint].
  rewrite v1_common_eq. destruct (v1_has_same_params a b); split; try congruence; [intros [e Q]; discriminate|eauto].
Qed.
Print Assumptions C54_v1_common.
(** The estimate is computed from the number of positions set in both filters. *)
Theorem C54_v1_common_bits L a b : v1_reach L a -> v1_reach L b -> v1_has_same_params a b = true ->
  v1_count_common_entries L a b =
  Ok (estimate_count L (v1_bit_size a) (count_below (N.to_nat (64 * len (v1_bitset a))) (fun i => v1_bit a i && v1_bit b i)) (v1_n_hash a)).
Proof.
  intros Ra Rb S. rewrite v1_common_eq, S. apply v1_same_params_iff in S as (_ & _ & _ & _ & _ & E).
  rewrite v1_common_ones; [reflexivity|exact (v1_reach_wf _ _ Ra)|exact (v1_reach_wf _ _ Rb)|now symmetry].
Qed.
Print Assumptions C54_v1_common_bits.
Example C54_v1_example : libm_ln1 ref_libm /\ v1_count_common_entries ref_libm a3 c3 = Ok 1 /\ v1_count_common_entries ref_libm a3 e0 = Ok 0.
Proof. split; [vm_compute; reflexivity|]. split; vm_compute; reflexivity. Qed.

(** * C55 Merging never overflows *)
Theorem C55_v1_merge pr L a b g r : v1_reach L a -> v1_reach L b -> v1_union_merge L a b = (g, r) ->
  r <> Panic /\ (v1_usable a -> forall d h r', v1_insert_bytes pr g d = (h, r') -> r' <> Panic).
Proof.
  intros Ra Rb E. pose proof (v1_reach_wf _ _ Ra) as Wa. pose proof (v1_reach_wf _ _ Rb) as Wb.
  destruct (v1_union_sem _ _ _ _ _ Wa Wb E) as [(_ & -> & ->)|(_ & -> & U)]; (split; [discriminate|]); intros Ua d h r' I.
  - exact (v1_insert_usable _ _ _ _ _ Wa Ua I).
  - exact (v1_insert_usable _ _ _ _ _ (u1_wf _ _ _ _ U) (v1_usable_frame _ _ (u1_frame _ _ _ _ U) Ua) I).
Qed.
Print Assumptions C55_v1_merge.
Example C55_v1_example : v1_usable a3 /\ v1_union_merge ref_libm a3 c3 = (u1, Ok tt).
Proof. split; [split; vm_compute; discriminate|exact u1_eq]. Qed.

(** * C56 Attached data is inert *)
Theorem C56_v1_data pr L a b d d' x :
  v1_contains_bytes (v1_set_data a d) x = v1_contains_bytes a x /\
  v1_count_estimate (v1_set_data a d) = v1_count_estimate a /\ v1_is_full (v1_set_data a d) = v1_is_full a /\
  v1_has_same_params (v1_set_data a d) (v1_set_data b d') = v1_has_same_params a b /\
  v1_count_common_entries L (v1_set_data a d) (v1_set_data b d') = v1_count_common_entries L a b /\
  v1_clear (v1_set_data a d) = v1_set_data (v1_clear a) d /\
  v1_insert_bytes pr (v1_set_data a d) x = (v1_set_data (fst (v1_insert_bytes pr a x)) d, snd (v1_insert_bytes pr a x)) /\
  v1_union_merge L (v1_set_data a d) (v1_set_data b d') = (v1_set_data (fst (v1_union_merge L a b)) d, snd (v1_union_merge L a b)).
Proof.
  split; [reflexivity|]. split; [reflexivity|]. split; [reflexivity|]. split; [reflexivity|]. split; [reflexivity|]. split; [reflexivity|].
  split; [apply v1_data_insert, surjective_pairing|apply v1_data_union, surjective_pairing].
Qed.
Print Assumptions C56_v1_data.
Theorem C56_v1_data_kept pr L a b x : v1_reach L a -> v1_reach L b ->
  v1_data (fst (v1_insert_bytes pr a x)) = v1_data a /\ v1_data (v1_clear a) = v1_data a /\ v1_data (fst (v1_union_merge L a b)) = v1_data a.
Proof.
  intros Ra Rb. pose proof (v1_reach_wf _ _ Ra) as Wa. pose proof (v1_reach_wf _ _ Rb) as Wb.
  split; [exact (i1_data _ _ _ _ _ (v1_insert_sem pr a x _ _ Wa (surjective_pairing _)))|]. split; [reflexivity|].
  destruct (v1_union_sem L a b _ _ Wa Wb (surjective_pairing _)) as [(_ & -> & _)|(_ & _ & U)]; [reflexivity|exact (u1_data _ _ _ _ U)].
Qed.
Print Assumptions C56_v1_data_kept.
Example C56_v1_example : v1_contains_bytes (v1_set_data e2 [1; 2; 3]) da = Ok true /\
  v1_data (fst (v1_union_merge ref_libm (v1_set_data a3 [1; 2]) (v1_set_data c3 [9]))) = [1; 2].
Proof. split; vm_compute; reflexivity. Qed.
