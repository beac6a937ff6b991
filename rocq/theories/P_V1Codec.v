(** The v1 reader and writer against the file format of Spec_V1, and the invariants of created, loaded, cleared and
    merged v1 filters. *)
From Coq Require Import Lia.
From Verif Require Import M_V1 Spec_Bits Spec_Hash Spec_V2 Spec_V1 P_Base P_BitSet P_Hash P_V1 P_IO P_V2Codec P_V2Make P_V1Size P_Fpp.
Open Scope N_scope.

Lemma of_le_list ws : Forall (fun b => len b = 8) ws -> Forall bytes_ok ws -> concat (map (le_bytes 8) (map of_le ws)) = concat ws.
Proof.
  induction 1 as [|b ws Hb _ IH]; intro F; [reflexivity|]. inversion F; subst. cbn [map concat]. rewrite IH by auto. f_equal.
  assert (E : length b = 8%nat) by (unfold len in Hb; lia). rewrite <- E. now apply le_bytes_of_le.
Qed.
Lemma of_le_words ws : Forall (fun b => len b = 8) ws -> Forall bytes_ok ws -> words_ok 64 (map of_le ws).
Proof.
  induction 1 as [|b ws Hb _ IH]; intro F; [constructor|]. inversion F; subst. constructor; [|now apply IH].
  cbv beta. change (2 ^ 64) with two64. apply of_le8_lt; auto. unfold len in Hb. lia.
Qed.
Lemma le_of_list l : words_ok 64 l -> map of_le (map (le_bytes 8) l) = l.
Proof. induction 1; cbn [map]; auto. rewrite IHForall, le8_rt; auto. Qed.

Theorem v1_load_sound pr content f : bytes_ok content -> v1_from_reader pr content = Ok f -> v1_file content f.
Proof.
  intros Hb E. unfold v1_from_reader, v1_from_reader_partial in E.
  apply obind_Ok_inv in E as ([fl r0] & E0 & E).
  apply read_flags_inv in E0 as (A0 & L0 & R0).
  rewrite rest_of in A0.
  destruct (N.eqb_spec (fl_version fl) 1) as [V|V]; cbn [negb] in E; [|discriminate].
  unfold v1_from_reader_with_flags in E.
  assert (H0 : r_all r0 = content) by (subst r0; reflexivity).
  apply obind_Ok_inv in E as ([cap r1] & E1 & E). apply read_u64_inv in E1 as (A1 & B1 & R1); [|congruence].
  apply obind_Ok_inv in E as ([fpp r2] & E2 & E). apply read_u64_inv in E2 as (A2 & B2 & R2); [|subst r1; rewrite advance_all; congruence].
  apply obind_Ok_inv in E as ([nh r3] & E3 & E). apply read_u64_inv in E3 as (A3 & B3 & R3); [|subst r2 r1; rewrite ?advance_all; congruence].
  apply obind_Ok_inv in E as ([bs r4] & E4 & E). apply read_u64_inv in E4 as (A4 & B4 & R4); [|subst r3 r2 r1; rewrite ?advance_all; congruence].
  apply obind_Ok_inv in E as ([cnt r5] & E5 & E). apply read_u64_inv in E5 as (A5 & B5 & R5); [|subst r4 r3 r2 r1; rewrite ?advance_all; congruence].
  cbv zeta in E. apply obind_Ok_inv in E as ([bits r6] & E6 & E).
  apply obind_Ok_inv in E6 as (z & Ez & E6). apply obind_Ok_inv in E6 as ([ws r7] & E6 & E7). apply Ok_inj, pair_inj in E7 as [<- <-].
  apply read_many_inv in E6 as (A6 & L6 & F6 & _). apply Ok_inj in E. subst f.
  assert (Hr5 : bytes_ok (r_rest r5)). { apply bytes_ok_rest. subst r5 r4 r3 r2 r1. rewrite ?advance_all. congruence. }
  rewrite A6 in Hr5. apply bytes_ok_app in Hr5 as [Hws _]. apply Forall_concat_inv in Hws.
  constructor; cbn [v1_flags v1_bitset v1_capacity v1_fpp v1_n_hash v1_bit_size v1_count v1_data v1_fp]; auto.
  - unfold v1_image. cbn [v1_flags v1_bitset v1_capacity v1_fpp v1_n_hash v1_bit_size v1_count v1_data v1_fp].
    rewrite of_le_list by auto. rewrite A0, A1, A2, A3, A4, A5, A6. reflexivity.
  - now apply of_le_words.
  - rewrite len_map. now apply len_toN.
Qed.

Theorem v1_load_complete pr content f : v1_file content f -> v1_from_reader pr content = Ok f.
Proof.
  intros [HB HV HR Hc Hf Hn Hbs Hct Hw Hl Hfp].
  unfold v1_from_reader, v1_from_reader_partial.
  assert (S0 : r_rest (reader_of content) = flag_bytes (v1_flags f) ++ le_bytes 8 (v1_capacity f) ++ le_bytes 8 (v1_fpp f) ++ le_bytes 8 (v1_n_hash f)
     ++ le_bytes 8 (v1_bit_size f) ++ le_bytes 8 (v1_count f) ++ concat (map (le_bytes 8) (v1_bitset f)) ++ v1_data f). { rewrite rest_of, HB. reflexivity. }
  destruct (read_flags_app _ _ _ HR S0) as [-> S1]. cbn [obind]. rewrite HV. cbn [N.eqb Pos.eqb negb].
  unfold v1_from_reader_with_flags, read_le_f64.
  destruct (read_u64_app _ _ _ Hc S1) as [-> S2]. cbn [obind].
  destruct (read_u64_app _ _ _ Hf S2) as [-> S3]. cbn [obind].
  destruct (read_u64_app _ _ _ Hn S3) as [-> S4]. cbn [obind].
  destruct (read_u64_app _ _ _ Hbs S4) as [-> S5]. cbn [obind].
  destruct (read_u64_app _ _ _ Hct S5) as [-> S6]. cbn [obind]. cbv zeta.
  unfold vec_of. replace (v1_u64_size (v1_bit_size f) * 8 <=? isize_max) with true by (symmetry; apply N.leb_le; now apply u64_size_alloc).
  cbn [obind].
  destruct (read_many_app 8 _ _ _ S6) as (r' & E & S9 & _).
  { apply Forall_forall. intros x Hx. apply in_map_iff in Hx as (y & <- & _). apply le_bytes_len. }
  rewrite map_length in E. rewrite <- Hl. unfold len at 1. rewrite Nat2N.id, E. cbn [obind]. unfold read_to_end. rewrite S9, le_of_list by auto.
  rewrite <- Hfp. destruct f; reflexivity.
Qed.

(** The writer always emits fresh flags: version 1, no optimisation level, zero reserved bytes. *)
Definition v1_canon (f : v1) : v1 :=
  {| v1_flags := flags_new 1; v1_bitset := v1_bitset f; v1_capacity := v1_capacity f; v1_fpp := v1_fpp f; v1_n_hash := v1_n_hash f;
     v1_bit_size := v1_bit_size f; v1_count := v1_count f; v1_data := v1_data f; v1_fp := v1_fp f |}.
Lemma v1_canon_id f : v1_flags f = flags_new 1 -> v1_canon f = f.
Proof. intro H. destruct f. cbn in *. subst. reflexivity. Qed.
Lemma v1_write_image f : v1_write f = v1_image [1;0;0;0;0;0;0;0] f.
Proof.
  unfold v1_write, v1_write_calls, v1_image. rewrite concat_app. cbn [concat]. rewrite concat_app. cbn [concat]. rewrite !app_nil_r.
  rewrite <- !app_assoc. reflexivity.
Qed.
Lemma v1_wf_file f : v1_wf f -> v1_file (v1_write f) (v1_canon f).
Proof. intros []. constructor; auto. rewrite v1_write_image. reflexivity. Qed.
Theorem v1_roundtrip pr f : v1_wf f -> v1_from_reader pr (v1_write f) = Ok (v1_canon f).
Proof. intro W. apply v1_load_complete. now apply v1_wf_file. Qed.
Lemma v1_canon_wf f : v1_wf f -> v1_wf (v1_canon f).
Proof. intros []. constructor; auto. split; [reflexivity|]. repeat constructor. Qed.

Lemma v1_load_wf pr content f : bytes_ok content -> v1_from_reader pr content = Ok f -> v1_wf f.
Proof.
  intros Hb E. pose proof (v1_load_sound _ _ _ Hb E) as F. rewrite (f1_bytes _ _ F) in Hb. unfold v1_image in Hb.
  apply bytes_ok_app in Hb as [H Hb]. do 6 (apply bytes_ok_app in Hb as [? Hb]). destruct F. constructor; auto.
  - apply Forall_cons_iff in H as [_ H]. apply Forall_cons_iff in H as [_ H]. split; auto.
Qed.
Lemma v1_bytes_concat l : bytes_ok (concat (map (le_bytes 8) l)).
Proof. apply bytes_ok_concat. apply Forall_forall. intros x Hx. apply in_map_iff in Hx as (y & <- & _). apply le_bytes_ok. Qed.
Lemma v1_write_bytes f : v1_wf f -> bytes_ok (v1_write f).
Proof.
  intro W. rewrite v1_write_image. unfold v1_image. rewrite !bytes_ok_app. repeat split; try apply le_bytes_ok.
  - repeat constructor. - apply v1_bytes_concat. - apply bytes_words. apply W.
Qed.
Lemma v1_write_len f : len (v1_write f) = 48 + 8 * len (v1_bitset f) + len (v1_data f).
Proof.
  rewrite v1_write_image. unfold v1_image. rewrite !len_app, !le_bytes_len. rewrite (len_concat_fixed 8), len_map. change (len [1;0;0;0;0;0;0;0]) with 8. lia.
  apply Forall_forall. intros x Hx. apply in_map_iff in Hx as (y & <- & _). apply le_bytes_length.
Qed.

(** ** created filters *)
Record v1_created (L : libm) (cap fpp : N) (f : v1) : Prop := {
  c1_flags : v1_flags f = flags_new 1;
  c1_capacity : v1_capacity f = cap;
  c1_fpp : v1_fpp f = fpp;
  c1_fpp_range : fpp_in_range fpp = true;
  c1_count : v1_count f = 0;
  c1_data : v1_data f = [];
  c1_bit_size : v1_bit_size f = bu_bit_size L cap fpp;
  c1_n_hash : v1_n_hash f = bu_k L (v1_bit_size f) cap;
  c1_bits : v1_bitset f = repeat 0 (N.to_nat (v1_u64_size (v1_bit_size f)));
  c1_fp : v1_fp f = fp_new (v1_n_hash f) (v1_bit_size f)
}.
Lemma v1_make_created L cap fpp f : v1_with_capacity L cap fpp = Ok f -> v1_created L cap fpp f.
Proof.
  unfold v1_with_capacity. destruct (fpp_in_range fpp) eqn:R; cbn [negb]; [|discriminate]. cbv zeta. intro E.
  apply obind_Ok_inv in E as (bits & E1 & E). apply vec_of_Ok in E1 as [-> _]. apply Ok_inj in E. subst f. constructor; auto.
Qed.
(** Creation succeeds exactly on the accepted error rates. *)
Lemma v1_make_total L cap fpp : fpp_in_range fpp = true -> exists f, v1_with_capacity L cap fpp = Ok f.
Proof.
  intro R. unfold v1_with_capacity. rewrite R. cbn [negb]. cbv zeta. unfold vec_of.
  replace (_ <=? isize_max) with true; [cbn [obind]; eauto|]. symmetry. apply N.leb_le. apply u64_size_alloc. apply bu_bit_size_lt.
Qed.
Lemma v1_created_wf L cap fpp f : cap < two64 -> fpp < two64 -> v1_created L cap fpp f -> v1_wf f.
Proof.
  intros Hc Hf [A B C D E F G H I J]. assert (HB : v1_bit_size f < two64) by (rewrite G; apply bu_bit_size_lt). constructor; rewrite ?A, ?B, ?C, ?E, ?F; auto.
  - split; [reflexivity|repeat constructor].
  - rewrite H. unfold bu_k. apply f_to_u64_lt.
  - reflexivity.
  - rewrite I. apply Forall_repeat. reflexivity.
  - rewrite I. now rewrite len_repeat, N2Nat.id.
  - constructor.
Qed.
Lemma v1_created_usable L cap fpp f : v1_created L cap fpp f -> v1_usable f.
Proof.
  intros [A B C D E F G H I J]. split.
  - rewrite I, len_repeat, N2Nat.id, G. apply bu_bit_size_covers.
  - intros NH Z. apply NH. rewrite H, Z. apply bu_k_zero.
Qed.
Lemma v1_created_bits L cap fpp f i : v1_created L cap fpp f -> v1_bit f i = false.
Proof. intros C. unfold v1_bit. rewrite (c1_bits _ _ _ _ C). apply bit_repeat0. Qed.
Lemma v1_nil_iff f : v1_wf f -> (v1_bitset f = [] <-> v1_bit_size f = 0).
Proof.
  intro W. pose proof (w1_len f W) as E. pose proof (w1_bit_size f W) as B. split; intro H.
  - rewrite H in E. cbn in E. destruct (N.eq_dec (v1_bit_size f) 0) as [|N0]; auto. pose proof (u64_size_pos _ B N0). change (len (@nil N)) with 0 in E. lia.
  - rewrite H, u64_size_0 in E. destruct (v1_bitset f); auto. rewrite len_cons in E. lia.
Qed.
Lemma v1_usable_small f : v1_wf f -> v1_bit_size f <= 9007199254740992 -> (v1_n_hash f <> 0 -> v1_bit_size f <> 0) -> v1_usable f.
Proof. intros W B N0. split; auto. rewrite (w1_len f W). now apply u64_size_small. Qed.
Lemma v1_usable_frame f g : v1_same_frame f g -> v1_usable f -> v1_usable g.
Proof. intros (_&_&_&A&B&_&C) [U V]. unfold v1_usable. rewrite A, B, C. auto. Qed.

(** ** clear and data *)
Lemma v1_clear_frame f : v1_same_frame f (v1_clear f).
Proof. apply set_bits_frame. apply len_map. Qed.
Lemma v1_clear_wf f : v1_wf f -> v1_wf (v1_clear f).
Proof.
  intro W. apply set_bits_wf; auto; [apply len_map| |reflexivity]. apply Forall_forall. intros x Hx. apply in_map_iff in Hx as (_ & <- & _). reflexivity.
Qed.
Lemma v1_clear_bit f i : v1_bit (v1_clear f) i = false.
Proof. apply bit_zeros. Qed.
Lemma v1_set_data_wf f d : v1_wf f -> words_ok 8 d -> v1_wf (v1_set_data f d).
Proof. intros [] H. constructor; auto. Qed.
Lemma v1_set_data_frame f d : v1_same_frame f (v1_set_data f d).
Proof. repeat split. Qed.

(** ** union *)
(** Parameters compared by has_same_params ([fpp_eqb] identifies 0.0 and -0.0 and rejects NaN). *)
Definition v1_same_shape (a b : v1) : Prop :=
  v1_flags b = v1_flags a /\ v1_capacity b = v1_capacity a /\ fpp_eqb (v1_fpp a) (v1_fpp b) = true /\ v1_n_hash b = v1_n_hash a /\
  v1_bit_size b = v1_bit_size a /\ len (v1_bitset b) = len (v1_bitset a).
Lemma v1_same_params_iff a b : v1_has_same_params a b = true <-> v1_same_shape a b.
Proof.
  unfold v1_has_same_params, v1_same_shape. rewrite !andb_true_iff, !N.eqb_eq, flags_eqb_eq. split; intros; intuition congruence.
Qed.
Record v1_union_effect (L : libm) (a b g : v1) : Prop := {
  u1_frame : v1_same_frame a g;
  u1_data : v1_data g = v1_data a;
  u1_wf : v1_wf g;
  u1_bits : forall i, v1_bit g i = v1_bit a i || v1_bit b i;
  u1_count : v1_count g = estimate_count L (v1_bit_size g) (v1_count_ones g) (v1_n_hash g)
}.
Lemma v1_union_sem L a b g r : v1_wf a -> v1_wf b -> v1_union_merge L a b = (g, r) ->
  (v1_has_same_params a b = false /\ g = a /\ r = Err Merge) \/
  (v1_same_shape a b /\ r = Ok tt /\ v1_union_effect L a b g).
Proof.
  intros Wa Wb E. unfold v1_union_merge in E. destruct (v1_has_same_params a b) eqn:S; cbn [negb] in E.
  2:{ apply pair_inj in E as [<- <-]. left. auto. }
  right. apply v1_same_params_iff in S. split; auto. assert (Ln : len (v1_bitset a) = len (v1_bitset b)) by (symmetry; apply S).
  destruct (zip_with N.lor (v1_bitset a) (v1_bitset b)) as [bits|e|] eqn:Z.
  - apply pair_inj in E as [<- <-]. split; auto. pose proof (zip_with_len _ _ _ _ Z) as Lb.
    assert (Wb' : words_ok 64 bits).
    { eapply (zip_with_words 64 N.lor); [|exact (w1_bits a Wa)|exact (w1_bits b Wb)|exact Z]. intros x y Hx Hy. now apply lor_lt. }
    constructor; auto.
    + apply (set_bits_frame a bits). exact Lb.
    + apply (set_bits_wf a bits); auto. apply f_to_u64_lt.
    + intro i. apply (bit_lor 64); auto.
  - now apply zip_with_not_Err in Z.
  - exfalso. rewrite zip_with_Ok in Z; [discriminate|]. unfold len in Ln. lia.
Qed.
