(** Created, loaded, cleared and merged v2 filters: representation invariant and bits. *)
From Coq Require Import Lia.
From Verif Require Import M_V2 Spec_Bits Spec_Hash Spec_V2 Spec_V2File P_Base P_BitSet P_Hash P_V2 P_V2Sem P_IO P_V2Codec.
Open Scope N_scope.

(** ** make *)
Lemma f_to_u64_lt x : f_to_u64 x < two64.
Proof.
  unfold f_to_u64. destruct x as [| [] | | [] m [|e|e]]; try reflexivity; try (apply N.le_lt_trans with u64_max; [apply N.le_min_l|reflexivity]).
  destruct (Z.leb 64 (Z.pos e)); [reflexivity|]. apply N.le_lt_trans with u64_max; [apply N.le_min_l|reflexivity].
Qed.
Fixpoint all_below (n : nat) (p : N -> bool) : bool := match n with O => true | S n' => p (N.of_nat n') && all_below n' p end.
Lemma all_below_spec n p i : all_below n p = true -> i < N.of_nat n -> p i = true.
Proof.
  induction n; cbn [all_below]; intros H Hi; [lia|]. apply andb_prop in H as [H1 H2].
  destruct (N.eq_dec i (N.of_nat n)); [subst; auto|]. apply IHn; auto. lia.
Qed.
Lemma byte_cap_pow2 k : k < 64 -> byte_cap_from_bit_cap (2 ^ k) = if k <? 3 then 1 else 2 ^ (k - 3).
Proof.
  intro H. apply N.eqb_eq.
  change 64 with (N.of_nat 64) in H. revert k H.
  assert (A : all_below 64 (fun k => byte_cap_from_bit_cap (2 ^ k) =? (if k <? 3 then 1 else 2 ^ (k - 3))) = true) by (vm_compute; reflexivity).
  intros k H. apply (all_below_spec _ _ _ A H).
Qed.
Lemma byte_cap_0 : byte_cap_from_bit_cap 0 = 0.
Proof. vm_compute. reflexivity. Qed.
Lemma next_pow2_spec pr x r : next_power_of_two pr x = Ok r -> r = 0 \/ exists k, k < 64 /\ r = 2 ^ k.
Proof.
  unfold next_power_of_two. set (y := if x <=? 1 then 1 else _).
  assert (E : exists k, y = 2 ^ k). { subst y. destruct (x <=? 1). exists 0. reflexivity. eauto. }
  destruct E as [k E]. rewrite E. destruct (N.ltb_spec (2 ^ k) two64).
  - intro X. apply Ok_inj in X as <-. right. exists k. split; auto. apply N.pow_lt_mono_r_iff with 2; [lia|]. exact H.
  - destruct pr; [discriminate|]. intro X. apply Ok_inj in X as <-. now left.
Qed.
Lemma byte_cap_next pr x r : next_power_of_two pr x = Ok r ->
  byte_cap_from_bit_cap (8 * byte_cap_from_bit_cap r) = byte_cap_from_bit_cap r /\ byte_cap_from_bit_cap r <= 2 ^ 60.
Proof.
  intro H. apply next_pow2_spec in H as [->|(k & Hk & ->)].
  - rewrite byte_cap_0, N.mul_0_r, byte_cap_0. split; auto. apply N.le_0_l.
  - rewrite (byte_cap_pow2 k) by auto. destruct (N.ltb_spec k 3).
    + split. vm_compute. reflexivity. apply N.le_trans with (2 ^ 0); [reflexivity|]. apply N.pow_le_mono_r; lia.
    + change 8 with (2 ^ 3). rewrite <- N.pow_add_r. replace (3 + (k - 3)) with k by lia. rewrite byte_cap_pow2 by auto.
      destruct (N.ltb_spec k 3); [lia|]. split; auto. apply N.pow_le_mono_r; lia.
Qed.

Lemma bucket_new_ok : length bucket_new = N.to_nat 4096 /\ words_ok 8 bucket_new.
Proof. unfold bucket_new, bs_new. split. now rewrite repeat_length. apply Forall_repeat. reflexivity. Qed.

(** What every successful creation gives. *)
Record v2_created (cap : N) (fpp : N) (opt : optlevel) (f : v2) : Prop := {
  cr_flags : v2_flags f = {| fl_version := 2; fl_opt := opt; fl_reserved := [0;0;0;0;0;0] |};
  cr_capacity : v2_capacity f = cap;
  cr_fpp : v2_fpp f = fpp;
  cr_fpp_range : fpp_in_range fpp = true;
  cr_count : v2_count f = 0;
  cr_data : v2_data f = [];
  cr_buckets : v2_buckets f = repeat bucket_new (N.to_nat (v2_n_buckets f));
  cr_buckets_len : v2_n_buckets f * 4096 <= isize_max;
  cr_cache : v2_index_cache f = repeat 0 (N.to_nat (v2_cache_byte_size f));
  cr_cache_cap : byte_cap_from_bit_cap (8 * v2_cache_byte_size f) = v2_cache_byte_size f;
  cr_cache_len : 8 * v2_cache_byte_size f < two64;
  cr_n_hash : v2_n_hash_buck f < two64;
  cr_cache_opt : match opt with ONone | OSpace => v2_index_cache f = [] | _ => True end
}.
Lemma v2_make_created pr L cap fpp opt f : v2_make pr L cap fpp opt = Ok f -> v2_created cap fpp opt f.
Proof.
  unfold v2_make. destruct (fpp_in_range fpp) eqn:FR; cbn [negb]; [|discriminate]. cbv zeta.
  intro E. apply obind_Ok_inv in E as ([[cbs nb] nh] & E0 & E).
  apply obind_Ok_inv in E as (ic & E1 & E). apply obind_Ok_inv in E as (bks & E2 & E). apply Ok_inj in E. subst f.
  unfold bs_with_bit_capacity in E1. apply vec_of_Ok in E1 as [-> _]. apply vec_of_Ok in E2 as [-> BL].
  assert (C : byte_cap_from_bit_cap (8 * byte_cap_from_bit_cap cbs) = byte_cap_from_bit_cap cbs /\ byte_cap_from_bit_cap cbs <= 2 ^ 60 /\
              nh < two64 /\ match opt with ONone | OSpace => cbs = 0 | _ => True end).
  { destruct opt.
    - apply Ok_inj in E0. injection E0 as <- _ <-. split; [|split; [|split; auto using f_to_u64_lt]]; vm_compute; congruence.
    - apply Ok_inj in E0. injection E0 as <- _ <-. split; [|split; [|split; auto using f_to_u64_lt]]; vm_compute; congruence.
    - apply obind_Ok_inv in E0 as (c & E0 & E1). apply obind_Ok_inv in E1 as (n & E1 & E2). apply Ok_inj in E2. injection E2 as <- _ <-.
      apply byte_cap_next in E0 as [? ?]. repeat split; auto. apply f_to_u64_lt.
    - apply obind_Ok_inv in E0 as (c & E0 & E1). apply Ok_inj in E1. injection E1 as <- _ <-.
      apply byte_cap_next in E0 as [? ?]. repeat split; auto. apply f_to_u64_lt. }
  destruct C as (C1 & C2 & C3 & C4).
  assert (LC : bs_byte_len (repeat 0 (N.to_nat (byte_cap_from_bit_cap cbs))) = byte_cap_from_bit_cap cbs).
  { unfold bs_byte_len. rewrite len_repeat. apply N2Nat.id. }
  constructor; cbn [v2_flags v2_index_cache v2_n_buckets v2_cache_byte_size v2_capacity v2_fpp v2_n_hash_buck v2_count v2_buckets v2_data]; auto.
  - rewrite LC. reflexivity.
  - rewrite LC. exact C1.
  - rewrite LC. apply N.le_lt_trans with (8 * 2 ^ 60). lia. reflexivity.
  - destruct opt; auto; subst cbs; rewrite byte_cap_0; reflexivity.
Qed.
Lemma len_repeatN {A} (x : A) n : len (repeat x (N.to_nat n)) = n.
Proof. rewrite len_repeat. apply N2Nat.id. Qed.
Lemma created_wf cap fpp opt f : cap < two64 -> fpp < two64 -> v2_created cap fpp opt f -> v2_wf f.
Proof.
  intros Hc Hf C. destruct C.
  assert (LB : len (v2_buckets f) = v2_n_buckets f) by (rewrite cr_buckets0; apply len_repeatN).
  assert (LC : len (v2_index_cache f) = v2_cache_byte_size f) by (rewrite cr_cache0; apply len_repeatN).
  constructor; rewrite ?LB, ?LC; auto; try congruence.
  - now rewrite cr_flags0.
  - rewrite cr_flags0. split; [reflexivity|]. repeat constructor.
  - rewrite cr_count0. reflexivity.
  - rewrite cr_buckets0. apply Forall_repeat. apply bucket_new_ok.
  - rewrite cr_cache0. apply Forall_repeat. reflexivity.
  - rewrite cr_data0. constructor.
Qed.
Lemma created_bits cap fpp opt f : v2_created cap fpp opt f -> (forall b i, v2_bit f b i = false) /\ (forall i, v2_cbit f i = false).
Proof.
  intro C. split; intros.
  - unfold v2_bit. rewrite (cr_buckets _ _ _ _ C). destruct (getN _ b) eqn:G; auto. apply getN_In, repeat_spec in G. subst.
    apply bit_repeat0.
  - unfold v2_cbit. rewrite (cr_cache _ _ _ _ C). apply bit_repeat0.
Qed.

(** ** clear *)
Lemma clear_frame f : v2_same_frame f (v2_clear f).
Proof. apply v2_upd_frame; auto. apply len_map. Qed.
Lemma clear_wf f : v2_wf f -> v2_wf (v2_clear f).
Proof.
  intro W. apply v2_upd_wf; auto. apply len_map.
  - pose proof (wf_buckets _ W) as B. rewrite Forall_map. eapply Forall_impl; [|exact B]. intros b [L _].
    unfold bs_clear. rewrite map_length. split; auto. unfold words_ok. rewrite Forall_map. apply Forall_forall. intros. reflexivity.
  - apply (wf_cache _ W).
  - reflexivity.
Qed.
Lemma clear_bits f b i : v2_bit (v2_clear f) b i = false.
Proof. unfold v2_bit. cbn [v2_clear v2_upd v2_buckets]. rewrite getN_map. destruct (getN _ b); auto. cbn. apply bit_zeros. Qed.
Lemma clear_cbits f i : v2_cbit (v2_clear f) i = v2_cbit f i.
Proof. reflexivity. Qed.

(** ** data *)
Lemma set_data_wf f d : v2_wf f -> words_ok 8 d -> v2_wf (v2_set_data f d).
Proof. intros [] Hd. constructor; auto. Qed.

(** ** has_same_params *)
Lemma list_eqb_eq a : forall b, list_eqb a b = true <-> a = b.
Proof.
  induction a; destruct b; cbn; split; intro H; try discriminate; auto.
  - apply andb_prop in H as [H1 H2]. apply N.eqb_eq in H1. apply IHa in H2. congruence.
  - injection H as -> ->. rewrite N.eqb_refl. now apply IHa.
Qed.
Lemma flags_eqb_eq a b : flags_eqb a b = true <-> a = b.
Proof.
  unfold flags_eqb, opt_eqb. rewrite !andb_true_iff, !N.eqb_eq, list_eqb_eq. destruct a, b; cbn. split.
  - intros [[-> E] ->]. apply opt_to_u8_inj in E as ->. reflexivity.
  - intro E. injection E as -> -> ->. auto.
Qed.
