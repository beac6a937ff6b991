(** The panic of the v2 reader, and the partial readers. *)
From Coq Require Import Lia.
From Verif Require Import M_Bloom Spec_Bits Spec_V2 Spec_V2File Spec_V1 P_Base P_BitSet P_IO P_V2Codec P_V1Size P_V1Codec P_CacheCap P_Codec.
Open Scope N_scope.

(** A file whose header is well formed and announces buckets for more than isize::MAX bytes. *)
Definition v2_overflowing (content : list byte) : Prop :=
  exists fl cap fpp nh cnt cb cache nb rest,
    content = flag_bytes fl ++ le_bytes 8 cap ++ le_bytes 8 fpp ++ le_bytes 8 nh ++ le_bytes 8 cnt ++ le_bytes 8 cb ++ cache ++ le_bytes 8 nb ++ rest /\
    fl_version fl = 2 /\ length (fl_reserved fl) = 6%nat /\ cap < two64 /\ fpp < two64 /\ fpp_in_range fpp = true /\ nh < two64 /\ cnt < two64 /\
    cb < two64 /\ len cache = byte_cap_from_bit_cap cb /\ nb < two64 /\ isize_max < nb * 4096.
Lemma obind_Panic_inv {A B} (x : outcome A) (f : A -> outcome B) : obind x f = Panic -> x = Panic \/ exists a, x = Ok a /\ f a = Panic.
Proof. destruct x; cbn [obind]; intro H; [eauto|discriminate|auto]. Qed.
Lemma u64_not_Panic r : read_le_u64 r <> Panic.
Proof. destruct (read_u64_cases r) as [[x ->]| ->]; discriminate. Qed.
Lemma read_many_not_Panic n sz r : read_many n sz r <> Panic.
Proof. destruct (read_many_cases n sz r) as [(l & r' & ->)| ->]; discriminate. Qed.
Ltac pstep E := apply obind_Panic_inv in E as [E|([? ?] & ? & E)]; [exfalso; revert E; first [apply u64_not_Panic|apply read_flags_not_Panic|apply read_exact_not_Panic|apply read_many_not_Panic]|].
Theorem v2_panic_iff pr content : bytes_ok content -> (v2_from_reader pr content = Panic <-> v2_overflowing content).
Proof.
  intro Hb. split.
  - intro E. unfold v2_from_reader, v2_from_reader_partial in E.
    apply obind_Panic_inv in E as [E|([fl r0] & E0 & E)]; [exfalso; revert E; apply read_flags_not_Panic|].
    apply read_flags_inv in E0 as (A0 & L0 & R0). rewrite rest_of in A0.
    destruct (N.eqb_spec (fl_version fl) 2) as [V|V]; cbn [negb] in E; [|discriminate]. unfold v2_from_reader_with_flags, read_le_f64 in E.
    assert (H0 : r_all r0 = content) by (subst r0; reflexivity).
    apply obind_Panic_inv in E as [E|([cap r1] & E1 & E)]; [exfalso; revert E; apply u64_not_Panic|].
    apply read_u64_inv in E1 as (A1 & B1 & R1); [|congruence]. assert (H1 : r_all r1 = content) by (subst r1; now rewrite advance_all).
    apply obind_Panic_inv in E as [E|([fpp r2] & E2 & E)]; [exfalso; revert E; apply u64_not_Panic|].
    apply read_u64_inv in E2 as (A2 & B2 & R2); [|congruence]. assert (H2 : r_all r2 = content) by (subst r2; now rewrite advance_all).
    destruct (fpp_in_range fpp) eqn:FR; cbn [negb] in E; [|discriminate].
    apply obind_Panic_inv in E as [E|([nh r3] & E3 & E)]; [exfalso; revert E; apply u64_not_Panic|].
    apply read_u64_inv in E3 as (A3 & B3 & R3); [|congruence]. assert (H3 : r_all r3 = content) by (subst r3; now rewrite advance_all).
    apply obind_Panic_inv in E as [E|([cnt r4] & E4 & E)]; [exfalso; revert E; apply u64_not_Panic|].
    apply read_u64_inv in E4 as (A4 & B4 & R4); [|congruence]. assert (H4 : r_all r4 = content) by (subst r4; now rewrite advance_all).
    apply obind_Panic_inv in E as [E|([cb r5] & E5 & E)]; [exfalso; revert E; apply u64_not_Panic|].
    apply read_u64_inv in E5 as (A5 & B5 & R5); [|congruence]. assert (H5 : r_all r5 = content) by (subst r5; now rewrite advance_all).
    cbv zeta in E. apply obind_Panic_inv in E as [E|([ic r6] & E6 & E)].
    { exfalso. apply obind_Panic_inv in E as [E|(ic & E6 & E)].
      - unfold bs_with_bit_capacity, vec_of in E. pose proof (byte_cap_le cb B5). rewrite (proj2 (N.leb_le _ _)) in E by (unfold isize_max; lia). discriminate.
      - apply obind_Panic_inv in E as [E|([b r6] & E7 & E)]; [revert E; apply read_exact_not_Panic|discriminate]. }
    apply obind_Ok_inv in E6 as (ic0 & E6 & E6'). apply obind_Ok_inv in E6' as ([b r6'] & E6' & E6''). apply Ok_inj, pair_inj in E6'' as [-> ->].
    unfold bs_with_bit_capacity in E6. apply vec_of_Ok in E6 as [-> C6]. apply read_exact_inv in E6' as (A6 & B6 & R6). rewrite len_repeat, N2Nat.id in B6, R6.
    assert (H6 : r_all r6 = content) by (subst r6; now rewrite advance_all).
    apply obind_Panic_inv in E as [E|([nb r7] & E7 & E)]; [exfalso; revert E; apply u64_not_Panic|].
    apply read_u64_inv in E7 as (A7 & B7 & R7); [|congruence].
    apply obind_Panic_inv in E as [E|([bks r8] & E8 & E)]; [|discriminate].
    apply obind_Panic_inv in E as [E|(v & E8 & E)]; [|exfalso; revert E; apply read_many_not_Panic].
    unfold vec_of, BUCKET_SIZE in E. destruct (N.leb_spec (nb * 4096) isize_max) as [C|C]; [discriminate|].
    exists fl, cap, fpp, nh, cnt, cb, ic, nb, (r_rest r7).
    split; [rewrite A0, A1, A2, A3, A4, A5, A6, A7; reflexivity|]. repeat (split; [assumption|]). exact C.
  - intros (fl & cap & fpp & nh & cnt & cb & cache & nb & rest & HB & HV & HR & Hc & Hf & Hfr & Hn & Hct & Hcb & Hca & Hnb & HO).
    unfold v2_from_reader, v2_from_reader_partial.
    assert (S0 := rest_of content). rewrite HB in S0 at 2. destruct (read_flags_app _ _ _ HR S0) as [-> S1]. cbn [obind]. rewrite HV. cbn [N.eqb Pos.eqb negb].
    unfold v2_from_reader_with_flags, read_le_f64.
    destruct (read_u64_app _ _ _ Hc S1) as [-> S2]. cbn [obind]. destruct (read_u64_app _ _ _ Hf S2) as [-> S3]. cbn [obind]. rewrite Hfr. cbn [negb].
    destruct (read_u64_app _ _ _ Hn S3) as [-> S4]. cbn [obind]. destruct (read_u64_app _ _ _ Hct S4) as [-> S5]. cbn [obind].
    destruct (read_u64_app _ _ _ Hcb S5) as [-> S6]. cbn [obind]. unfold bs_with_bit_capacity, vec_of. rewrite <- Hca.
    pose proof (byte_cap_le cb Hcb). rewrite (proj2 (N.leb_le (len cache * 1) isize_max)) by (unfold isize_max; lia).
    cbn [obind]. rewrite len_repeat, N2Nat.id. destruct (read_exact_app _ _ _ S6) as [-> S7]. cbn [obind].
    destruct (read_u64_app _ _ _ Hnb S7) as [-> S8]. cbn [obind]. unfold BUCKET_SIZE. rewrite (proj2 (N.leb_gt _ _)) by exact HO. reflexivity.
Qed.
Lemma u64_lt r x r' : bytes_ok (r_all r) -> read_le_u64 r = Ok (x, r') -> x < two64.
Proof. intros B E. now apply read_u64_inv in E as (_ & ? & _). Qed.
Theorem v1_no_panic pr content : bytes_ok content -> v1_from_reader pr content <> Panic.
Proof.
  intros Hb E. unfold v1_from_reader, v1_from_reader_partial in E.
  apply obind_Panic_inv in E as [E|([fl r0] & E0 & E)]; [revert E; apply read_flags_not_Panic|].
  apply read_flags_inv in E0 as (_ & _ & R0). destruct (negb _); [discriminate|]. unfold v1_from_reader_with_flags, read_le_f64 in E.
  assert (H0 : r_all r0 = content) by (subst r0; reflexivity).
  apply obind_Panic_inv in E as [E|([cap r1] & E1 & E)]; [revert E; apply u64_not_Panic|].
  apply read_u64_inv in E1 as (_ & _ & R1); [|congruence]. assert (H1 : r_all r1 = content) by (subst r1; now rewrite advance_all).
  apply obind_Panic_inv in E as [E|([fpp r2] & E2 & E)]; [revert E; apply u64_not_Panic|].
  apply read_u64_inv in E2 as (_ & _ & R2); [|congruence]. assert (H2 : r_all r2 = content) by (subst r2; now rewrite advance_all).
  apply obind_Panic_inv in E as [E|([nh r3] & E3 & E)]; [revert E; apply u64_not_Panic|].
  apply read_u64_inv in E3 as (_ & _ & R3); [|congruence]. assert (H3 : r_all r3 = content) by (subst r3; now rewrite advance_all).
  apply obind_Panic_inv in E as [E|([bs r4] & E4 & E)]; [revert E; apply u64_not_Panic|].
  apply read_u64_inv in E4 as (_ & B4 & R4); [|congruence].
  apply obind_Panic_inv in E as [E|([ct r5] & E5 & E)]; [revert E; apply u64_not_Panic|].
  cbv zeta in E. apply obind_Panic_inv in E as [E|([ws r6] & E6 & E)]; [|discriminate].
  apply obind_Panic_inv in E as [E|(v & E6 & E)].
  - unfold vec_of in E. rewrite (proj2 (N.leb_le _ _)) in E by (now apply u64_size_alloc). discriminate.
  - apply obind_Panic_inv in E as [E|([l r7] & E7 & E)]; [revert E; apply read_many_not_Panic|discriminate].
Qed.

(** ** Partial readers *)
Lemma seek_advance n r : n < 9223372036854775808 -> r_pos r + n < two64 -> seek_relative (as_i64 n) r = Ok (advance r n).
Proof.
  intros Hn Hp. unfold seek_relative, as_i64. rewrite (proj2 (N.ltb_lt _ _)) by exact Hn. unfold two64 in Hp.
  rewrite (proj2 (Z.ltb_ge _ _)) by lia. rewrite (proj2 (Z.leb_gt _ _)) by lia. cbn [orb]. unfold advance. do 2 f_equal. lia.
Qed.
Lemma seek_app n r a t : r_rest r = a ++ t -> len a = n -> n < 9223372036854775808 -> r_pos r + n < two64 ->
  seek_relative (as_i64 n) r = Ok (advance r n) /\ r_rest (advance r n) = t.
Proof.
  intros E L H1 H2. split; [now apply seek_advance|]. rewrite rest_advance, E. subst n. unfold len. rewrite Nat2N.id.
  rewrite skipn_app, skipn_all, Nat.sub_diag. reflexivity.
Qed.
(** What the partial reader keeps of a filter. *)
Definition v2_partial (f : v2) : v2 :=
  {| v2_flags := v2_flags f; v2_index_cache := []; v2_n_buckets := v2_n_buckets f; v2_cache_byte_size := v2_cache_byte_size f;
     v2_capacity := v2_capacity f; v2_fpp := v2_fpp f; v2_n_hash_buck := v2_n_hash_buck f; v2_count := v2_count f; v2_buckets := []; v2_data := v2_data f |}.
Definition v1_partial (f : v1) : v1 :=
  {| v1_flags := v1_flags f; v1_bitset := []; v1_capacity := v1_capacity f; v1_fpp := v1_fpp f; v1_n_hash := v1_n_hash f;
     v1_bit_size := v1_bit_size f; v1_count := v1_count f; v1_data := v1_data f; v1_fp := v1_fp f |}.
Theorem v2_load_partial pr content f cb : v2_file content f cb -> v2_from_reader_partial pr content true = Ok (v2_partial f).
Proof.
  intro F. destruct F as [HB HV HR Hc Hf Hfr Hn Hct Hcb Hca Hcs Hcl Hnb Hbk Hbl].
  unfold v2_from_reader_partial.
  assert (S0 : r_rest (reader_of content) = flag_bytes (v2_flags f) ++ v2_head f ++ le_bytes 8 cb ++ v2_index_cache f ++ le_bytes 8 (len (v2_buckets f))
     ++ concat (v2_buckets f) ++ v2_data f). { rewrite rest_of, HB. reflexivity. }
  destruct (read_flags_app _ _ _ HR S0) as [-> S1]. cbn [obind]. rewrite HV. cbn [N.eqb Pos.eqb negb].
  unfold v2_head in S1. rewrite <- !app_assoc in S1.
  unfold v2_from_reader_with_flags, read_le_f64.
  destruct (read_u64_app _ _ _ Hc S1) as [-> S2]. cbn [obind].
  destruct (read_u64_app _ _ _ Hf S2) as [-> S3]. cbn [obind]. rewrite Hfr. cbn [negb].
  destruct (read_u64_app _ _ _ Hn S3) as [-> S4]. cbn [obind].
  destruct (read_u64_app _ _ _ Hct S4) as [-> S5]. cbn [obind].
  destruct (read_u64_app _ _ _ Hcb S5) as [-> S6]. cbn [obind]. pose proof (byte_cap_le cb Hcb) as Bc.
  destruct (seek_app (byte_cap_from_bit_cap cb) _ _ _ S6) as [-> S7]; [exact Hca|lia|cbn [advance reader_of r_pos]; unfold two64; lia|]. cbn [obind].
  replace (bs_with_bit_capacity 0) with (@Ok bitset []) by (vm_compute; reflexivity). cbn [obind].
  assert (Hb2 : len (v2_buckets f) < two64). { unfold isize_max in Hbl. unfold two64. lia. }
  destruct (read_u64_app _ _ _ Hb2 S7) as [-> S8]. cbn [obind].
  unfold BUCKET_SIZE, checked_mul. unfold isize_max in Hbl. rewrite (proj2 (N.ltb_lt _ _)) by (unfold two64; lia). cbn [obind].
  destruct (seek_app (len (v2_buckets f) * 4096) _ _ _ S8) as [-> S9].
  { rewrite (len_concat_fixed 4096) by exact Hbk. lia. } { lia. } { cbn [advance reader_of r_pos]. unfold two64. lia. }
  cbn [obind]. unfold read_to_end. rewrite S9. unfold v2_partial. rewrite <- Hca, <- Hcs, <- Hnb. reflexivity.
Qed.
Theorem v1_load_partial pr content f : v1_file content f -> v1_from_reader_partial pr content true = Ok (v1_partial f).
Proof.
  intros [HB HV HR Hc Hf Hn Hbs Hct Hw Hl Hfp].
  unfold v1_from_reader_partial.
  assert (S0 : r_rest (reader_of content) = flag_bytes (v1_flags f) ++ le_bytes 8 (v1_capacity f) ++ le_bytes 8 (v1_fpp f) ++ le_bytes 8 (v1_n_hash f)
     ++ le_bytes 8 (v1_bit_size f) ++ le_bytes 8 (v1_count f) ++ concat (map (le_bytes 8) (v1_bitset f)) ++ v1_data f). { rewrite rest_of, HB. reflexivity. }
  destruct (read_flags_app _ _ _ HR S0) as [-> S1]. cbn [obind]. rewrite HV. cbn [N.eqb Pos.eqb negb].
  unfold v1_from_reader_with_flags, read_le_f64.
  destruct (read_u64_app _ _ _ Hc S1) as [-> S2]. cbn [obind].
  destruct (read_u64_app _ _ _ Hf S2) as [-> S3]. cbn [obind].
  destruct (read_u64_app _ _ _ Hn S3) as [-> S4]. cbn [obind].
  destruct (read_u64_app _ _ _ Hbs S4) as [-> S5]. cbn [obind].
  destruct (read_u64_app _ _ _ Hct S5) as [-> S6]. cbn [obind]. cbv zeta. pose proof (u64_size_alloc _ Hbs) as A. unfold isize_max in A.
  unfold checked_mul. rewrite (proj2 (N.ltb_lt _ _)) by (unfold two64; lia). cbn [obind]. pose proof (u64_size_le _ Hbs) as A'.
  destruct (seek_app (v1_u64_size (v1_bit_size f) * 8) _ _ _ S6) as [-> S7].
  { rewrite (len_concat_fixed 8). unfold len. rewrite map_length. fold (len (v1_bitset f)). rewrite Hl. lia.
    apply Forall_forall. intros x Hx. apply in_map_iff in Hx as (y & <- & _). apply len_toN. apply le_bytes_len. }
  { lia. } { cbn [advance reader_of r_pos]. unfold two64. lia. }
  cbn [obind]. unfold read_to_end. rewrite S7. unfold v1_partial. rewrite <- Hfp. reflexivity.
Qed.
