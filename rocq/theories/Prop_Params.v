(** Parameters (C74), the bits of a v1 filter as a list (C75), union and intersection by value (C76). *)
From Coq Require Import Lia.
From Verif Require Import M_Bloom M_RefLibm Spec_Bits Spec_Hash Spec_V2 Spec_V2Hist Spec_V1 Spec_Bloom P_Base P_V1 P_V1Codec P_V1Hist P_V2Codec P_V2Make P_V2Hist Prop_V2Merge Ex_Base Ex_V1.
Open Scope N_scope.

(** * C74 *)
(** Starting from [params_new], each setter changes its own field only. *)
Theorem C74_builder cap fpp v o : let p := params_new cap fpp in
  (p_version p, p_capacity p, p_fpp p, p_opt p) = (2, cap, fpp, ONone) /\
  (let q := params_version p v in (p_version q, p_capacity q, p_fpp q, p_opt q) = (v, cap, fpp, ONone)) /\
  (let q := params_opt p o in (p_version q, p_capacity q, p_fpp q, p_opt q) = (2, cap, fpp, o)) /\
  params_opt (params_version p v) o = params_version (params_opt p o) v.
Proof. repeat split. Qed.
Print Assumptions C74_builder.
(** The conversion to a generic filter is the one to the version asked for, and gives a filter of these parameters. *)
Theorem C74_conversion pr L p : p_capacity p < two64 -> p_fpp p < two64 ->
  (p_version p = 1 -> bf_of_params pr L p = match params_try_into_v1 L p with Ok f => Ok (V1 f) | Err e => Err e | Panic => Panic end) /\
  (p_version p = 2 -> bf_of_params pr L p = match params_try_into_v2 pr L p with Ok f => Ok (V2 f) | Err e => Err e | Panic => Panic end) /\
  (forall f, params_try_into_v1 L p = Ok f -> v1_capacity f = p_capacity p /\ v1_fpp f = p_fpp p /\ v1_count f = 0 /\ v1_data f = [] /\ forall i, v1_bit f i = false) /\
  (forall f, params_try_into_v2 pr L p = Ok f -> v2_capacity f = p_capacity p /\ v2_fpp f = p_fpp p /\ v2_count f = 0 /\ v2_data f = [] /\ fl_opt (v2_flags f) = p_opt p /\ forall k i, v2_bit f k i = false) /\
  (fpp_in_range (p_fpp p) = false -> params_try_into_v1 L p = Err (WrongFpp (p_fpp p)) /\ params_try_into_v2 pr L p = Err (WrongFpp (p_fpp p))) /\
  (fpp_in_range (p_fpp p) = true -> exists f, params_try_into_v1 L p = Ok f).
Proof.
  intros Hc Hf. unfold bf_of_params, bf_with_version_capacity_opt, params_try_into_v1, params_try_into_v2.
  split. { intros ->. cbn. destruct (v1_with_capacity L (p_capacity p) (p_fpp p)); reflexivity. }
  split. { intros ->. cbn. destruct (v2_make pr L (p_capacity p) (p_fpp p) (p_opt p)); reflexivity. }
  split. { intros f E. apply v1_make_created in E. pose proof (fun i => v1_created_bits _ _ _ _ i E) as B. destruct E; auto. }
  split. { intros f E. apply v2_make_created in E. pose proof (proj1 (created_bits _ _ _ _ E)) as B. destruct E as [Fl]. rewrite Fl. auto 10. }
  split. { intro R. unfold v1_with_capacity, v2_make. rewrite R. auto. }
  intro R. now apply v1_make_total.
Qed.
Print Assumptions C74_conversion.
(** The conversions to a given version disregard the version asked for, and the one to v1 the level. *)
Theorem C74_version_refuted : exists p f g, p_version p = 2 /\ p_opt p = OBest /\ params_try_into_v1 ref_libm p = Ok f /\ fl_opt (v1_flags f) = ONone /\
  params_try_into_v2 Release ref_libm (params_version p 1) = Ok g /\ fl_version (v2_flags g) = 2.
Proof.
  exists (params_opt (params_new 4 p001) OBest). eexists. eexists. split; [reflexivity|]. split; [reflexivity|]. split; [exact e0_eq|]. split; [reflexivity|]. split; [vm_compute; reflexivity|reflexivity].
Qed.
Print Assumptions C74_version_refuted.
Example C74_example : let p := params_version (params_new 4 p001) 1 in p_capacity p < two64 /\ p_fpp p < two64 /\ bf_of_params Debug ref_libm p = Ok (V1 e0) /\
  params_try_into_v1 ref_libm (params_new 4 0) = Err (WrongFpp 0).
Proof. split; [reflexivity|]. split; [reflexivity|]. split; vm_compute; reflexivity. Qed.

(** * C75 *)
Lemma v1_bits_from_spec bits n : forall start, start + N.of_nat n <= 64 * len bits -> exists l, v1_bits_from bits start n = Ok l /\ length l = n /\
  forall i, (i < n)%nat -> nth_error l i = Some (bit 64 bits (start + N.of_nat i)).
Proof.
  induction n as [|n IH]; intros start H; cbn [v1_bits_from]; [exists []; split; [reflexivity|]; split; [reflexivity|lia]|].
  rewrite v1_get_spec. rewrite (proj2 (N.ltb_lt _ _)) by lia. cbn [obind]. destruct (IH (start + 1)) as (l & E & Ln & Nt); [lia|]. rewrite E. cbn [obind]. eexists. split; [reflexivity|]. split; [cbn; now rewrite Ln|].
  intros [|i] Hi; cbn [nth_error]; [do 2 f_equal; lia|]. rewrite Nt by lia. do 2 f_equal. lia.
Qed.
(** [bits] lists the bits of the filter, as many as it has, in order; it never panics on a filter whose bit vector is complete. *)
Theorem C75_bits f : v1_usable f -> exists l, v1_bits f = Ok l /\ len l = v1_bit_size f /\ forall i, i < v1_bit_size f -> nth_error l (N.to_nat i) = Some (v1_bit f i).
Proof.
  intros [U _]. unfold v1_bits. destruct (v1_bits_from_spec (v1_bitset f) (N.to_nat (v1_bit_size f)) 0) as (l & E & Ln & Nt); [rewrite N2Nat.id; lia|]. exists l. split; [exact E|].
  split; [unfold len; rewrite Ln; apply N2Nat.id|]. intros i Hi. rewrite Nt by lia. rewrite N2Nat.id. reflexivity.
Qed.
Print Assumptions C75_bits.
(** For a filter built by the library: the listed bits that are set are the positions of its entries. *)
Theorem C75_bits_of_entries L f K : v1_kept L f K -> exists l, v1_bits f = Ok l /\ len l = v1_bit_size f /\
  forall i, i < v1_bit_size f -> (nth_error l (N.to_nat i) = Some true <-> exists d, K d /\ In i (v1_positions f d)).
Proof.
  intro H. destruct (v1_kept_inv _ _ _ H) as (W & U & P). destruct (C75_bits f U) as (l & E & Ln & Nt). exists l. split; [exact E|]. split; [exact Ln|]. intros i Hi. rewrite Nt by exact Hi. rewrite <- P. split; congruence.
Qed.
Print Assumptions C75_bits_of_entries.
Example C75_example : v1_kept ref_libm e2 (fun x => x = db \/ x = da \/ False) /\ v1_usable e2 /\ exists l, v1_bits e2 = Ok l /\ length l = 38%nat /\ count_occ Bool.bool_dec l true = 11%nat.
Proof. split; [exact e2_kept|]. split; [split; [vm_compute; discriminate|discriminate]|]. eexists. split; [vm_compute; reflexivity|]. split; reflexivity. Qed.

(** * C76 *)
Lemma by_value {A} (m : A * outcome unit) (g : A) : (let '(a', r) := m in let? _ := r in Ok a') = Ok g <-> m = (g, Ok tt).
Proof.
  destruct m as [a' r]. split.
  - destruct r as [[]|e|]; cbn; try discriminate. intro E. apply Ok_inj in E. now subst.
  - intro E. apply pair_inj in E as [-> ->]. reflexivity.
Qed.
Lemma by_value_err {A} (m : A * outcome unit) e : (let '(a', r) := m in let? _ := r in Ok a') = Err e <-> snd m = Err e.
Proof. destruct m as [a' [[]|e'|]]; cbn; split; congruence. Qed.
(** Union and intersection by value: an error exactly when the parameters differ; otherwise the filter with the bits of either,
    respectively both. *)
Theorem C76_by_value pr wy L a b : v2_reach wy L a -> v2_reach wy L b ->
  (((exists e, v2_union pr L a b = Err e) <-> ~ v2_same_frame a b) /\ ((exists e, v2_intersection pr L a b = Err e) <-> ~ v2_same_frame a b)) /\
  (forall g, v2_union pr L a b = Ok g -> v2_same_frame a g /\ v2_data g = v2_data a /\ (forall k i, v2_bit g k i = v2_bit a k i || v2_bit b k i) /\
     forall k, key_ok k -> v2_contains wy a k = Ok true \/ v2_contains wy b k = Ok true -> v2_contains wy g k = Ok true) /\
  (forall g, v2_intersection pr L a b = Ok g -> v2_same_frame a g /\ v2_data g = v2_data a /\ (forall k i, v2_bit g k i = v2_bit a k i && v2_bit b k i) /\
     forall k, key_ok k -> (v2_contains wy g k = Ok true <-> v2_contains wy a k = Ok true /\ v2_contains wy b k = Ok true)).
Proof.
  intros Ra Rb. split; [split|split].
  - destruct (v2_union_merge pr L a b) as [g r] eqn:E. rewrite <- (proj1 (C14_v2_merge pr wy L a b g r Ra Rb (or_introl E))). unfold v2_union. rewrite E. split; intros [e Q]; exists e; [exact (proj1 (by_value_err (g, r) e) Q)|exact (proj2 (by_value_err (g, r) e) Q)].
  - destruct (v2_intersection_merge pr L a b) as [g r] eqn:E. rewrite <- (proj1 (C14_v2_merge pr wy L a b g r Ra Rb (or_intror E))). unfold v2_intersection. rewrite E. split; intros [e Q]; exists e; [exact (proj1 (by_value_err (g, r) e) Q)|exact (proj2 (by_value_err (g, r) e) Q)].
  - intros g E. apply (by_value (v2_union_merge pr L a b)) in E. destruct (C12_v2_union pr wy L a b g Ra Rb E) as (A & B & C & _ & D). auto.
  - intros g E. apply (by_value (v2_intersection_merge pr L a b)) in E. destruct (C13_v2_intersection pr wy L a b g Ra Rb E) as (A & B & C & _ & D). auto.
Qed.
Print Assumptions C76_by_value.
Example C76_example : v2_union Release ref_libm fa3 fc3 = Ok fu /\ v2_intersection Release ref_libm fa3 fc3 = Ok fi /\ v2_union Release ref_libm fa3 fb0 = Err Merge.
Proof. split; [apply by_value; exact fu_eq|]. split; [apply by_value; vm_compute; reflexivity|vm_compute; reflexivity]. Qed.
