(** v2 filters: membership, fresh and cleared filters, meaning of insert (C01, C03 to C10). *)
From Verif Require Import M_V2 M_RefLibm Spec_Bits Spec_Hash Spec_V2 Spec_V2Hist Spec_Libm P_Base P_V2Sem P_V2Make P_V2Size P_V2Hist P_V2Props Ex_Base.
Open Scope N_scope.

(** * C01 No false negatives *)
(** Whatever the tree of calls (creation, loading of any file, succeeding, failing or panicking inserts, clears, unions,
    intersections, assignments of data, save and reload, in debug or release builds), whatever WyHash and the math
    library compute: a key that must be held is reported as contained. *)
Theorem C01_v2_no_false_negatives wy L f K k : v2_hist wy L f K -> K k -> v2_contains wy f k = Ok true.
Proof. exact (hist_contains wy L f K k). Qed.
Print Assumptions C01_v2_no_false_negatives.
Example C01_v2_example : v2_hist ex_wy ref_libm fs2 (fun x => x = kb \/ x = ka \/ False) /\ v2_contains ex_wy fs2 kc = Ok false.
Proof. split; [exact fs2_hist|vm_compute; reflexivity]. Qed.

(** * C03 Exact membership semantics *)
(** A positive answer is explained by inserted keys: each position of the key in its bucket belongs to a key inserted
    since the last clear that selects the same bucket, and (with a cache) some inserted key has its cache position. *)
Theorem C03_v2_exact wy L f K C k : v2_kept wy L f K C -> key_ok k ->
  (v2_contains wy f k = Ok true <->
   v2_capacity f <> 0 /\ len (v2_buckets f) <> 0 /\
   (forall i, In i (v2_positions wy f (hash_pop wy k)) ->
      exists x, K x /\ v2_bucket_of f (hash_pop wy x) = v2_bucket_of f (hash_pop wy k) /\ In i (v2_positions wy f (hash_pop wy x))) /\
   (v2_index_cache f = [] \/ exists x, C x /\ v2_cache_of f (hash_pop wy x) = v2_cache_of f (hash_pop wy k))).
Proof. exact (kept_contains wy L f K C k). Qed.
Print Assumptions C03_v2_exact.
(** No phantom bits: over all calls, intersections and loaded files included, the bits are exactly the specified sets. *)
Theorem C03_v2_bits wy L f B C : v2_built wy L f B C ->
  (forall b i, v2_bit f b i = true <-> B b i) /\ (forall i, v2_cbit f i = true <-> C i).
Proof. intro H. exact (proj2 (v2_built_inv wy L f B C H)). Qed.
Print Assumptions C03_v2_bits.
Example C03_v2_example : v2_kept ex_wy ref_libm fs2 (fun x => x = kb \/ x = ka \/ False) (fun x => x = kb \/ x = ka \/ False) /\
  v2_contains ex_wy fs2 ka = Ok true /\ v2_contains ex_wy fs2 kc = Ok false /\
  len (v2_positions ex_wy fs2 (hash_pop ex_wy ka)) = 5.
Proof. split; [exact fs2_kept|]. split; [vm_compute; reflexivity|]. split; vm_compute; reflexivity. Qed.

(** * C04 A fresh filter contains nothing *)
(** Full statement: for every creation that succeeds, every query answers false and the count is 0.
    Missing: levels speed and best with a capacity above 2^63 in a release build (no cache: see C04_refuted). *)
Theorem C04_v2_fresh_empty_partial pr wy L cap fpp opt f k : libm_ln2 L -> cap < two64 -> fpp < two64 -> v2_make pr L cap fpp opt = Ok f ->
  opt = ONone \/ opt = OSpace \/ pr = Debug \/ (cap <= 9223372036854775808 /\ v2_usable f) ->
  key_ok k -> v2_contains wy f k = Ok false /\ v2_count_estimate f = 0.
Proof.
  intros HL Hc Hf E O Hk. split; [|exact (cr_count _ _ _ _ (v2_make_created _ _ _ _ _ _ E))].
  assert (U : v2_usable f). { destruct O as [->|[->|[->|[_ U]]]]; [| | |exact U]; (eapply make_usable_any; [exact Hc| |exact E]); (left; discriminate) || (right; reflexivity). }
  apply (fresh_contains pr wy L cap fpp opt); auto. destruct opt.
  - left. eapply make_n_hash; eauto.
  - left. eapply make_n_hash; eauto.
  - right. eapply make_cache; eauto. destruct O as [O|[O|[O|[O _]]]]; auto; discriminate.
  - right. eapply make_cache; eauto. destruct O as [O|[O|[O|[O _]]]]; auto; discriminate.
Qed.
Print Assumptions C04_v2_fresh_empty_partial.
(** The side condition v2_usable always holds with a sensible math library. *)
Theorem C04_v2_created_usable pr L cap fpp opt f : libm_ln2_sq L -> libm_ln_range L -> cap < two64 ->
  v2_make pr L cap fpp opt = Ok f -> v2_usable f.
Proof. exact (make_usable pr L cap fpp opt f). Qed.
Print Assumptions C04_v2_created_usable.
Example C04_v2_example : libm_ln2 ref_libm /\ libm_ln2_sq ref_libm /\ v2_make Release ref_libm 4 p001 OSpeed = Ok fs0 /\ v2_usable fs0 /\
  v2_contains ex_wy fs0 ka = Ok false.
Proof.
  assert (E1 : libm_ln2 ref_libm) by (vm_compute; reflexivity).
  split; [exact E1|]. split; [split; [exact E1|vm_compute; reflexivity]|]. split; [exact fs0_eq|].
  split; [|vm_compute; reflexivity]. intros _. vm_compute. discriminate.
Qed.
(** A release build with capacity 2^63+1, fpp 1.0 and level speed accepts the parameters and creates a filter with no
    hash function and no cache, because next_power_of_two wraps to 0: it claims to contain every key. *)
Theorem C04_refuted : exists cap fpp f, cap < two64 /\ fpp < two64 /\ v2_make Release ref_libm cap fpp OSpeed = Ok f /\
  forall wy k, key_ok k -> v2_contains wy f k = Ok true.
Proof.
  exists (2 ^ 63 + 1), p1, fhuge. split; [reflexivity|]. split; [reflexivity|]. split; [exact fhuge_eq|]. intros wy k Hk.
  apply no_hash_contains; [|exact Hk|reflexivity|discriminate|discriminate|reflexivity].
  apply (created_wf (2 ^ 63 + 1) p1 OSpeed); [reflexivity|reflexivity|]. exact (v2_make_created _ _ _ _ _ _ fhuge_eq).
Qed.
Print Assumptions C04_refuted.

(** * C05 clear empties the filter *)
(** Full statement: after clear every query answers false, count is 0, parameters and data are unchanged, and the filter
    behaves as a new one. Missing: filters with no hash function (fpp above about 0.78 at level speed or best), and equality
    of behaviour with a new filter when there is a cache, which clear leaves as it is. *)
Theorem C05_v2_clear_partial wy L f : v2_reach wy L f ->
  v2_count_estimate (v2_clear f) = 0 /\ v2_same_frame f (v2_clear f) /\ v2_data (v2_clear f) = v2_data f /\
  (forall b i, v2_bit (v2_clear f) b i = false) /\
  (forall k, key_ok k -> v2_usable f -> v2_n_hash_buck f <> 0 -> v2_contains wy (v2_clear f) k = Ok false).
Proof.
  intro R. split; [reflexivity|]. split; [exact (clear_frame f)|]. split; [reflexivity|]. split; [exact (clear_bits f)|].
  intros k Hk U Hn. exact (clear_contains wy f k (reach_wf _ _ _ R) U Hk Hn).
Qed.
Print Assumptions C05_v2_clear_partial.
(** Without a cache (levels none and space) clear gives back the created filter itself, with the data. *)
Theorem C05_v2_clear_is_fresh wy pr L cap fpp opt f0 f n : cap < two64 -> fpp < two64 -> v2_make pr L cap fpp opt = Ok f0 ->
  opt = ONone \/ opt = OSpace -> v2_solo wy f0 f n -> v2_clear f = v2_set_data f0 (v2_data f).
Proof.
  intros Hc Hf E O S. apply (solo_clear_fresh wy pr L cap fpp opt f0 f n Hc Hf E); [|exact S|].
  - apply (make_usable_any pr L cap fpp opt f0 Hc); [|exact E]. left. destruct O; congruence.
  - pose proof (cr_cache_opt _ _ _ _ (v2_make_created _ _ _ _ _ _ E)). destruct O; subst opt; auto.
Qed.
Print Assumptions C05_v2_clear_is_fresh.
Example C05_v2_example : v2_reach ex_wy ref_libm fn2 /\ v2_usable fn2 /\ v2_n_hash_buck fn2 = 7 /\ v2_solo ex_wy fn0 fn2 2 /\
  v2_contains ex_wy fn2 ka = Ok true /\ v2_contains ex_wy (v2_clear fn2) ka = Ok false.
Proof.
  split; [exists (fun x => x = kb \/ x = ka \/ False); exact fn2_hist|]. split; [intros _; vm_compute; discriminate|].
  split; [vm_compute; reflexivity|]. split; [exact fn2_solo|]. split; vm_compute; reflexivity.
Qed.
(** Capacity 4, fpp 0.8, level speed: after insert of "\x05" and clear, the filter still contains it. *)
Theorem C05_refuted : exists f0 f, v2_make Release ref_libm 4 p08 OSpeed = Ok f0 /\
  forall wy, v2_insert Release wy f0 k1 = (f, Ok false) /\ v2_contains wy (v2_clear f) k1 = Ok true.
Proof.
  exists f80, f81. split; [exact f80_eq|]. intro wy. split; [exact (f81_eq wy)|vm_compute; reflexivity].
Qed.
Print Assumptions C05_refuted.
(** Capacity 4, fpp 0.7, level speed: a cleared filter and a new one differ after the same insert. *)
Theorem C05_fresh_refuted : exists f0 f, v2_make Release ref_libm 4 p07 OSpeed = Ok f0 /\
  forall wy, v2_insert Release wy f0 k2 = (f, Ok true) /\
    v2_contains wy (fst (v2_insert Release wy (v2_clear f) k1)) k2 = Ok true /\
    v2_contains wy (fst (v2_insert Release wy f0 k1)) k2 = Ok false.
Proof.
  exists f70, f72. split; [exact f70_eq|]. intro wy. split; [exact (f72_eq wy)|]. split; vm_compute; reflexivity.
Qed.
Print Assumptions C05_fresh_refuted.

(** * C06 Meaning of insert's boolean *)
(** Full statement: Ok(true) exactly when the value was not contained just before. Missing: with a cache, Ok(false) does
    not imply that the value was contained (C06_refuted). *)
Theorem C06_v2_insert_bool_partial pr wy L f k g b : v2_reach wy L f -> key_ok k -> v2_insert pr wy f k = (g, Ok b) ->
  (b = true -> v2_contains wy f k = Ok false) /\ (v2_contains wy f k = Ok true -> b = false) /\
  (v2_index_cache f = [] -> v2_contains wy f k = Ok (negb b)).
Proof.
  intros R Hk E. pose proof (reach_wf _ _ _ R) as W. split; [|split].
  - intros ->. eapply insert_true_new; eauto.
  - eapply insert_contained; eauto.
  - intro C. eapply insert_nocache; eauto.
Qed.
Print Assumptions C06_v2_insert_bool_partial.
(** Levels none and space: the full statement holds. *)
Theorem C06_v2_insert_bool_nocache pr wy L f k g b : v2_reach wy L f -> v2_index_cache f = [] -> key_ok k -> v2_insert pr wy f k = (g, Ok b) ->
  (b = true <-> v2_contains wy f k = Ok false) /\ (b = false <-> v2_contains wy f k = Ok true).
Proof.
  intros R C Hk E. rewrite (insert_nocache pr wy f k g b (reach_wf _ _ _ R) Hk C E). destruct b; cbn; split; split; congruence.
Qed.
Print Assumptions C06_v2_insert_bool_nocache.
Example C06_v2_example : v2_insert Release ex_wy fn1 kb = (fn2, Ok true) /\ v2_index_cache fn1 = [] /\ v2_contains ex_wy fn1 kb = Ok false.
Proof. split; [exact fn2_eq|]. split; vm_compute; reflexivity. Qed.
(** Capacity 4, fpp 0.7, level speed: insert of a value that was not contained answers Ok(false). *)
Theorem C06_refuted : exists f0 f, v2_make Release ref_libm 4 p07 OSpeed = Ok f0 /\
  forall wy, v2_insert Release wy f0 k1 = (f, Ok true) /\ v2_contains wy f k2 = Ok false /\ snd (v2_insert Release wy f k2) = Ok false.
Proof.
  exists f70, f71. split; [exact f70_eq|]. intro wy. split; [exact (f71_eq wy)|]. split; vm_compute; reflexivity.
Qed.
Print Assumptions C06_refuted.

(** * C07 Insert is idempotent *)
(** A key that must be held is re-inserted with answer Ok(false) and no change at all, whatever the count. *)
Theorem C07_v2_idempotent pr wy L f K k : v2_hist wy L f K -> K k -> v2_insert pr wy f k = (f, Ok false).
Proof. exact (hist_reinsert pr wy L f K k). Qed.
Print Assumptions C07_v2_idempotent.
Example C07_v2_example : v2_hist ex_wy ref_libm fs2 (fun x => x = kb \/ x = ka \/ False) /\ snd (v2_insert Debug ex_wy fs2 ka) = Ok false.
Proof. split; [exact fs2_hist|vm_compute; reflexivity]. Qed.

(** * C08 count_estimate counts the new insertions *)
Lemma created_solo_pre pr L cap fpp opt f0 : cap < two64 -> fpp < two64 -> v2_make pr L cap fpp opt = Ok f0 ->
  v2_wf f0 /\ fl_reserved (v2_flags f0) = [0;0;0;0;0;0] /\ v2_count f0 = 0 /\ v2_capacity f0 = cap.
Proof.
  intros Hc Hf E. apply v2_make_created in E as Cr. split; [exact (created_wf _ _ _ _ Hc Hf Cr)|].
  rewrite (cr_flags _ _ _ _ Cr), (cr_count _ _ _ _ Cr), (cr_capacity _ _ _ _ Cr). auto.
Qed.
Theorem C08_v2_count pr wy L cap fpp opt f0 f n : cap < two64 -> fpp < two64 -> v2_make pr L cap fpp opt = Ok f0 -> v2_usable f0 ->
  v2_solo wy f0 f n -> v2_count_estimate f = n.
Proof.
  intros Hc Hf E U S. destruct (created_solo_pre _ _ _ _ _ _ Hc Hf E) as (W & R & C & _).
  apply (solo_inv wy f0 f n W U R C S).
Qed.
Print Assumptions C08_v2_count.
Example C08_v2_example : v2_solo ex_wy fn0 fn2 2 /\ v2_count_estimate fn2 = 2.
Proof. split; [exact fn2_solo|vm_compute; reflexivity]. Qed.

(** * C09 Capacity is never exceeded and only blocks new entries *)
Theorem C09_v2_capacity pr wy L cap fpp opt f0 f n : cap < two64 -> fpp < two64 -> v2_make pr L cap fpp opt = Ok f0 -> v2_usable f0 ->
  v2_solo wy f0 f n ->
  v2_count_estimate f <= cap /\
  forall pr' k g r, key_ok k -> v2_insert pr' wy f k = (g, r) ->
    r <> Panic /\ (v2_count_estimate f < cap -> exists b, r = Ok b) /\
    (cap <> 0 -> v2_count_estimate f = cap -> (r = Err TooManyEntries <-> v2_covered wy f (hash_pop wy k) = false)) /\
    (cap = 0 -> r = Err TooManyEntries).
Proof.
  intros Hc Hf E U S. destruct (created_solo_pre _ _ _ _ _ _ Hc Hf E) as (W & R & C & Ca).
  destruct (solo_inv wy f0 f n W U R C S) as (W' & F & Cn & Le). assert (Cf : v2_capacity f = cap) by (rewrite <- Ca; apply F).
  unfold v2_count_estimate. rewrite Cn. split; [rewrite <- Ca; exact Le|]. intros pr' k g r Hk I.
  destruct (solo_insert pr' wy f0 f n k g r W U R C S Hk I) as (P & A & B). rewrite Cf in A, B.
  split; [exact P|]. split; [exact A|]. split; [exact B|]. intro Z. unfold v2_insert in I.
  rewrite P_V2.v2_insert_iter_cap0 in I; [|apply (key_init wy k Hk)|rewrite Cf; exact Z]. apply pair_inj in I as [_ <-]. reflexivity.
Qed.
Print Assumptions C09_v2_capacity.
Example C09_v2_example : v2_make Release ref_libm 2 p001 OBest = Ok fb0 /\ v2_solo ex_wy fb0 fb2 2 /\ v2_count_estimate fb2 = 2 /\
  snd (v2_insert Release ex_wy fb2 kc) = Err TooManyEntries /\ snd (v2_insert Release ex_wy fb2 ka) = Ok false.
Proof. split; [exact fb0_eq|]. split; [exact fb2_solo|]. split; [vm_compute; reflexivity|]. split; vm_compute; reflexivity. Qed.

(** * C10 Failed insert changes nothing *)
Theorem C10_v2_failed_insert pr wy L f k g e : v2_reach wy L f -> key_ok k -> v2_insert pr wy f k = (g, Err e) -> g = f /\ e = TooManyEntries.
Proof. intro R. exact (insert_err pr wy f k g e (reach_wf _ _ _ R)). Qed.
Print Assumptions C10_v2_failed_insert.
Example C10_v2_example : v2_insert Release ex_wy fb2 kc = (fb2, Err TooManyEntries).
Proof. vm_compute. reflexivity. Qed.
