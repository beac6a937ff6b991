(** The v2 reader and writer against the file format of Spec_V2File. *)
From Coq Require Import Lia.
From Verif Require Import M_V2 Spec_Bits Spec_V2 Spec_V2File P_Base P_BitSet P_IO P_V2Sem.
Open Scope N_scope.

Lemma len_length {A} (l : list A) n : len l = N.of_nat n <-> length l = n.
Proof. unfold len. lia. Qed.
Lemma len_toN {A} (l : list A) n : len l = n <-> length l = N.to_nat n.
Proof. unfold len. lia. Qed.

Theorem v2_load_sound pr content f : bytes_ok content -> v2_from_reader pr content = Ok f -> exists cb, v2_file content f cb.
Proof.
  intros Hb E. unfold v2_from_reader, v2_from_reader_partial in E.
  apply obind_Ok_inv in E as ([fl r0] & E0 & E).
  apply read_flags_inv in E0 as (A0 & L0 & R0).
  rewrite rest_of in A0.
  destruct (N.eqb_spec (fl_version fl) 2) as [V|V]; cbn [negb] in E; [|discriminate].
  unfold v2_from_reader_with_flags in E.
  assert (H0 : r_all r0 = content) by (subst r0; reflexivity).
  apply obind_Ok_inv in E as ([cap r1] & E1 & E). apply read_u64_inv in E1 as (A1 & B1 & R1); [|congruence].
  apply obind_Ok_inv in E as ([fpp r2] & E2 & E). apply read_u64_inv in E2 as (A2 & B2 & R2); [|subst r1; rewrite advance_all; congruence].
  destruct (fpp_in_range fpp) eqn:FR; cbn [negb] in E; [|discriminate].
  apply obind_Ok_inv in E as ([nh r3] & E3 & E). apply read_u64_inv in E3 as (A3 & B3 & R3); [|subst r2 r1; rewrite ?advance_all; congruence].
  apply obind_Ok_inv in E as ([cnt r4] & E4 & E). apply read_u64_inv in E4 as (A4 & B4 & R4); [|subst r3 r2 r1; rewrite ?advance_all; congruence].
  apply obind_Ok_inv in E as ([cb r5] & E5 & E). apply read_u64_inv in E5 as (A5 & B5 & R5); [|subst r4 r3 r2 r1; rewrite ?advance_all; congruence].
  cbv zeta in E.
  apply obind_Ok_inv in E as ([ic r6] & E6 & E).
  apply obind_Ok_inv in E6 as (ic0 & E6 & E6'). apply obind_Ok_inv in E6' as ([b r6'] & E6' & E6'').
  apply Ok_inj, pair_inj in E6'' as [-> ->].
  unfold bs_with_bit_capacity in E6. apply vec_of_Ok in E6 as [-> C6].
  apply read_exact_inv in E6' as (A6 & B6 & R6). rewrite len_repeat, N2Nat.id in B6, R6.
  apply obind_Ok_inv in E as ([nb r7] & E7 & E). apply read_u64_inv in E7 as (A7 & B7 & R7); [|subst r6 r5 r4 r3 r2 r1; rewrite ?advance_all; congruence].
  apply obind_Ok_inv in E as ([bks r8] & E8 & E). apply obind_Ok_inv in E8 as (? & E8 & E8').
  apply vec_of_Ok in E8 as [_ C8].
  apply read_many_inv in E8' as (A8 & L8 & F8 & _).
  apply Ok_inj in E. subst f. exists cb.
  assert (Lb : len bks = nb) by (apply len_toN; auto).
  constructor; cbn [v2_flags v2_index_cache v2_n_buckets v2_cache_byte_size v2_capacity v2_fpp v2_n_hash_buck v2_count v2_buckets v2_data]; auto; try lia.
  - unfold v2_image, v2_head. cbn [v2_flags v2_index_cache v2_n_buckets v2_cache_byte_size v2_capacity v2_fpp v2_n_hash_buck v2_count v2_buckets v2_data].
    rewrite A0, A1, A2, A3, A4, A5, A6, A7, A8, Lb. unfold flag_bytes, read_to_end. rewrite <- !app_assoc. reflexivity.
  - eapply Forall_impl; [|exact F8]. intros a Ha. now apply len_toN.
  - rewrite Lb. exact C8.
Qed.

Theorem v2_load_complete pr content f cb : v2_file content f cb -> v2_from_reader pr content = Ok f.
Proof.
  intro F. destruct F as [HB HV HR Hc Hf Hfr Hn Hct Hcb Hca Hcs Hcl Hnb Hbk Hbl].
  unfold v2_from_reader, v2_from_reader_partial.
  assert (S0 : r_rest (reader_of content) = flag_bytes (v2_flags f) ++ v2_head f ++ le_bytes 8 cb ++ v2_index_cache f ++ le_bytes 8 (len (v2_buckets f))
     ++ concat (v2_buckets f) ++ v2_data f). { rewrite rest_of, HB. reflexivity. }
  destruct (read_flags_app _ _ _ HR S0) as [-> S1]. cbn [obind]. rewrite HV. cbn [N.eqb Pos.eqb negb].
  unfold v2_head in S1. rewrite <- !app_assoc in S1.
  unfold v2_from_reader_with_flags, read_le_f64.
  destruct (read_u64_app _ _ _ Hc S1) as [-> S2]. cbn [obind].
  destruct (read_u64_app _ _ _ Hf S2) as [-> S3]. cbn [obind]. rewrite Hfr. cbn [negb].
  destruct (read_u64_app _ _ _ Hn S3) as [-> S4]. cbn [obind].
  destruct (read_u64_app _ _ _ Hct S4) as [-> S5]. cbn [obind].
  destruct (read_u64_app _ _ _ Hcb S5) as [-> S6]. cbn [obind].
  unfold bs_with_bit_capacity, vec_of. rewrite <- Hca.
  replace (len (v2_index_cache f) * 1 <=? isize_max) with true by (symmetry; apply N.leb_le; lia).
  cbn [obind]. rewrite len_repeat, N2Nat.id.
  destruct (read_exact_app _ _ _ S6) as [-> S7]. cbn [obind].
  assert (Hb2 : len (v2_buckets f) < two64). { unfold isize_max in Hbl. unfold two64. lia. }
  destruct (read_u64_app _ _ _ Hb2 S7) as [-> S8]. cbn [obind].
  unfold BUCKET_SIZE. replace (len (v2_buckets f) * 4096 <=? isize_max) with true by (symmetry; apply N.leb_le; lia).
  cbn [obind].
  destruct (read_many_app 4096 _ _ _ S8) as (r' & E & S9 & _).
  { eapply Forall_impl; [|exact Hbk]. intros a Ha. now apply len_toN. }
  unfold len at 1. rewrite Nat2N.id. rewrite E. cbn [obind]. unfold read_to_end. rewrite S9.
  rewrite <- Hnb, <- Hcs. destruct f; reflexivity.
Qed.

(** ** the writer *)
Definition v2_flag_out (f : v2) : list byte := [fl_version (v2_flags f); opt_to_u8 (fl_opt (v2_flags f)); 0; 0; 0; 0; 0; 0].
Lemma v2_write_image f : v2_write f = v2_image (v2_flag_out f) f (8 * len (v2_index_cache f)).
Proof.
  unfold v2_write, v2_write_calls, v2_image, v2_head. rewrite concat_app. cbn [concat].
  rewrite concat_app. cbn [concat]. rewrite app_nil_r. unfold flags_to_bytes, v2_flag_out, bs_bit_len.
  rewrite (N.mul_comm (len (v2_index_cache f)) 8). rewrite !app_nil_r. rewrite <- !app_assoc. reflexivity.
Qed.

(** [f] with its reserved header bytes zeroed: what the writer keeps. *)
Definition v2_canon (f : v2) : v2 :=
  {| v2_flags := {| fl_version := fl_version (v2_flags f); fl_opt := fl_opt (v2_flags f); fl_reserved := [0;0;0;0;0;0] |};
     v2_index_cache := v2_index_cache f; v2_n_buckets := v2_n_buckets f; v2_cache_byte_size := v2_cache_byte_size f;
     v2_capacity := v2_capacity f; v2_fpp := v2_fpp f; v2_n_hash_buck := v2_n_hash_buck f; v2_count := v2_count f;
     v2_buckets := v2_buckets f; v2_data := v2_data f |}.
Lemma v2_canon_id f : fl_reserved (v2_flags f) = [0;0;0;0;0;0] -> v2_canon f = f.
Proof. intro H. destruct f as [fl]. destruct fl. cbn in *. subst. reflexivity. Qed.

Lemma wf_file f : v2_wf f -> v2_file (v2_write f) (v2_canon f) (8 * len (v2_index_cache f)).
Proof.
  intro W. destruct W as [V R C F FR NH CT BK NB BL CA CS CC CL DA].
  constructor; cbn [v2_canon v2_flags fl_version fl_opt fl_reserved v2_index_cache v2_n_buckets v2_cache_byte_size v2_capacity v2_fpp v2_n_hash_buck v2_count v2_buckets v2_data]; auto.
  - rewrite v2_write_image. reflexivity.
  - unfold two64 in CL. unfold isize_max. lia.
  - eapply Forall_impl; [|exact BK]. intros a Ha; apply Ha.
Qed.
Theorem v2_roundtrip pr f : v2_wf f -> v2_from_reader pr (v2_write f) = Ok (v2_canon f).
Proof. intro W. eapply v2_load_complete. now apply wf_file. Qed.

(** Loaded filters: bytes everywhere. *)
Lemma bytes_words l : bytes_ok l <-> words_ok 8 l.
Proof. unfold bytes_ok, words_ok. change (2 ^ 8) with 256. tauto. Qed.
Lemma Forall_concat_inv {A} (P : A -> Prop) l : Forall P (concat l) -> Forall (Forall P) l.
Proof.
  induction l; cbn; intro H; constructor.
  - now apply Forall_app in H. - apply IHl. now apply Forall_app in H.
Qed.
Lemma file_bytes content f cb : bytes_ok content -> v2_file content f cb ->
  words_ok 8 (fl_reserved (v2_flags f)) /\ words_ok 8 (v2_index_cache f) /\ Forall (words_ok 8) (v2_buckets f) /\ words_ok 8 (v2_data f).
Proof.
  intros Hb F. rewrite (vf_bytes _ _ _ F) in Hb. unfold v2_image in Hb.
  repeat (apply bytes_ok_app in Hb; destruct Hb as [? Hb]).
  change (bytes_ok (fl_version (v2_flags f) :: opt_to_u8 (fl_opt (v2_flags f)) :: fl_reserved (v2_flags f))) in H.
  apply Forall_cons_iff in H as [_ H]. apply Forall_cons_iff in H as [_ H].
  split; [exact H|]. split; [now apply bytes_words|]. split; [|now apply bytes_words].
  apply Forall_concat_inv. now apply bytes_words.
Qed.
Lemma bytes_ok_concat l : Forall bytes_ok l -> bytes_ok (concat l).
Proof. induction 1; cbn; [constructor|]. now apply bytes_ok_app. Qed.
Lemma write_bytes f : v2_wf f -> bytes_ok (v2_write f).
Proof.
  intro W. rewrite v2_write_image. unfold v2_image, v2_head. rewrite !bytes_ok_app.
  assert (B : bytes_ok (concat (v2_buckets f))).
  { apply bytes_ok_concat. pose proof (wf_buckets _ W) as B. rewrite Forall_forall in *. intros b Hb. apply bytes_words. now apply B. }
  repeat split; try apply le_bytes_ok; auto; try (apply bytes_words; apply W).
  unfold v2_flag_out. rewrite (wf_version _ W). destruct (fl_opt (v2_flags f)); repeat constructor.
Qed.
Lemma len_concat_fixed {A} n (l : list (list A)) : Forall (fun b => length b = N.to_nat n) l -> len (concat l) = n * len l.
Proof. induction 1; cbn [concat]; [unfold len; cbn; lia|]. rewrite len_app, len_cons, IHForall. unfold len in *. lia. Qed.
Lemma write_len f : v2_wf f -> len (v2_write f) = 56 + len (v2_index_cache f) + 4096 * len (v2_buckets f) + len (v2_data f).
Proof.
  intro W. rewrite v2_write_image. unfold v2_image, v2_head. rewrite !len_app, !le_bytes_len.
  rewrite (len_concat_fixed 4096). change (len (v2_flag_out f)) with 8. lia.
  pose proof (wf_buckets _ W) as B. eapply Forall_impl; [|exact B]. now intros ? [? _].
Qed.
