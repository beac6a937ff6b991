(** C107: where a partial reader takes the attached data from, for any file. *)
From Coq Require Import Lia.
From Verif Require Import M_Base M_BitSet M_IO M_Util M_V1 M_V2 M_Bloom Spec_Bits P_Base P_IO P_CacheCap P_V1Size P_Codec2 Ex_Base Ex_V1.
Open Scope N_scope.

(** [x as i64] of the distance and the check of the target: forward or, from 2^63 on, backward. *)
Lemma seek_target x r r' : x < two64 -> r_pos r < two64 -> seek_relative (as_i64 x) r = Ok r' -> r_all r' = r_all r /\ r_pos r' = (r_pos r + x) mod 2 ^ 64.
Proof.
  change (2 ^ 64) with 18446744073709551616. unfold two64. intros Hx Hr. unfold seek_relative, as_i64.
  assert (G : forall t : Z, (if (t <? 0)%Z || (18446744073709551616 <=? t)%Z then Err IoError else Ok {| r_all := r_all r; r_pos := Z.to_N t |}) = Ok r' ->
    r_all r' = r_all r /\ (0 <= t < 18446744073709551616)%Z /\ r_pos r' = Z.to_N t).
  { intro t. destruct (Z.ltb_spec t 0); [discriminate|]. destruct (Z.leb_spec 18446744073709551616 t); [discriminate|]. cbn [orb]. intro E. apply Ok_inj in E. subst r'. split; [reflexivity|]. split; [lia|reflexivity]. }
  intro E. apply G in E as (A & T & P). clear G. split; [exact A|]. rewrite P. destruct (N.ltb_spec x 9223372036854775808) as [S|S].
  - rewrite N.mod_small by lia. lia.
  - apply (N.mod_unique _ _ 1); lia.
Qed.
Lemma u64_next r x r' : read_le_u64 r = Ok (x, r') -> r' = advance r 8.
Proof. unfold read_le_u64. intro E. apply obind_Ok_inv in E as ([a r1] & E1 & E). apply Ok_inj, pair_inj in E as [_ <-]. now apply read_exact_inv in E1 as (_ & _ & ->). Qed.

Lemma mul_ok pr a b x : checked_mul pr a b = Ok x -> x = (a * b) mod 2 ^ 64 /\ (pr = Debug -> a * b < 2 ^ 64).
Proof.
  unfold checked_mul. destruct (N.ltb_spec (a * b) two64) as [S|S].
  - intro E. apply Ok_inj in E. subst x. split; [now rewrite N.mod_small|now intros _].
  - destruct pr; [discriminate|]. intro E. apply Ok_inj in E. subst x. split; [reflexivity|discriminate].
Qed.

(** ** Version 1 *)
(** Every file: the data are what follows the announced number of words; nothing when the file is shorter. *)
Theorem C107_v1 pr c f : bytes_ok c -> v1_from_reader_partial pr c true = Ok f -> v1_data f = skipn (N.to_nat (48 + 8 * v1_u64_size (v1_bit_size f))) c.
Proof.
  intros B E. unfold v1_from_reader_partial in E. apply obind_Ok_inv in E as ([fl r0] & E0 & E). apply read_flags_inv in E0 as (_ & _ & ->). destruct (negb _); [discriminate|].
  unfold v1_from_reader_with_flags, read_le_f64 in E.
  apply obind_Ok_inv in E as ([x1 r1] & E1 & E). apply u64_next in E1. apply obind_Ok_inv in E as ([x2 r2] & E2 & E). apply u64_next in E2. apply obind_Ok_inv in E as ([x3 r3] & E3 & E). apply u64_next in E3.
  apply obind_Ok_inv in E as ([x4 r4] & E4 & E). assert (H4 : x4 < two64) by (refine (u64_lt r3 x4 r4 _ E4); subst; exact B). apply u64_next in E4. apply obind_Ok_inv in E as ([x5 r5] & E5 & E). apply u64_next in E5. cbv zeta in E.
  apply obind_Ok_inv in E as ([bs r6] & E6 & E). apply Ok_inj in E. subst f. cbn [v1_data v1_bit_size]. apply obind_Ok_inv in E6 as (off & Eo & E6). apply obind_Ok_inv in E6 as (r7 & E7 & E6). apply Ok_inj, pair_inj in E6 as [_ <-].
  pose proof (u64_size_le _ H4) as A. set (u := v1_u64_size x4) in *. clearbody u. apply mul_ok in Eo as [Eo _]. change (2 ^ 64) with 18446744073709551616 in Eo. rewrite N.mod_small in Eo by lia. subst off.
  assert (P : r_pos r5 = 48 /\ r_all r5 = c) by (subst; split; reflexivity). destruct P as [P Q]. apply seek_target in E7 as (A7 & P7); [|unfold two64; lia|rewrite P; reflexivity].
  unfold read_to_end. rewrite rest_skip, A7, Q, P7, P. change (2 ^ 64) with 18446744073709551616. rewrite N.mod_small by lia. do 2 f_equal. lia.
Qed.

(** ** Version 2 *)
(** Every file: the announced lengths are added modulo 2^64. *)
Theorem C107_v2_mod pr c f : bytes_ok c -> v2_from_reader_partial pr c true = Ok f ->
  v2_data f = skipn (N.to_nat ((56 + v2_cache_byte_size f + 4096 * v2_n_buckets f) mod 2 ^ 64)) c /\ (pr = Debug -> v2_n_buckets f < 2 ^ 52).
Proof.
  intros B E. unfold v2_from_reader_partial in E. apply obind_Ok_inv in E as ([fl r0] & E0 & E). apply read_flags_inv in E0 as (_ & _ & ->). destruct (negb _); [discriminate|].
  unfold v2_from_reader_with_flags, read_le_f64 in E.
  apply obind_Ok_inv in E as ([x1 r1] & E1 & E). apply u64_next in E1. apply obind_Ok_inv in E as ([x2 r2] & E2 & E). apply u64_next in E2. destruct (negb _); [discriminate|].
  apply obind_Ok_inv in E as ([x3 r3] & E3 & E). apply u64_next in E3. apply obind_Ok_inv in E as ([x4 r4] & E4 & E). apply u64_next in E4.
  apply obind_Ok_inv in E as ([x5 r5] & E5 & E). assert (H5 : x5 < two64) by (refine (u64_lt r4 x5 r5 _ E5); subst; exact B). apply u64_next in E5. cbv zeta in E.
  apply obind_Ok_inv in E as ([ic r6] & E6 & E). apply obind_Ok_inv in E6 as (r7 & E7 & E6). apply obind_Ok_inv in E6 as (ic' & _ & E6). apply Ok_inj, pair_inj in E6 as [_ <-].
  pose proof (byte_cap_le _ H5) as Cb. set (cb := byte_cap_from_bit_cap x5) in *. clearbody cb.
  assert (P : r_pos r5 = 48 /\ r_all r5 = c) by (subst; split; reflexivity). destruct P as [P Q]. apply seek_target in E7 as (A7 & P7); [|unfold two64; lia|rewrite P; reflexivity].
  rewrite P in P7. change (2 ^ 64) with 18446744073709551616 in P7. rewrite N.mod_small in P7 by lia. rewrite Q in A7.
  apply obind_Ok_inv in E as ([nb r8] & E8 & E). assert (H8 : nb < two64) by (refine (u64_lt r7 nb r8 _ E8); rewrite A7; exact B). apply u64_next in E8.
  apply obind_Ok_inv in E as ([bk r9] & E9 & E). apply Ok_inj in E. subst f. cbn [v2_data v2_cache_byte_size v2_n_buckets].
  apply obind_Ok_inv in E9 as (off & Eo & E9). apply obind_Ok_inv in E9 as (r10 & E10 & E9). apply Ok_inj, pair_inj in E9 as [_ <-].
  assert (O : off = (nb * 4096) mod 18446744073709551616 /\ (pr = Debug -> nb < 4503599627370496)).
  { apply mul_ok in Eo as [Eo D]. split; [exact Eo|]. intro F. apply D in F. change (2 ^ 64) with 18446744073709551616 in F. change BUCKET_SIZE with 4096 in F. lia. }
  destruct O as [O D]. split; [|exact D].
  assert (P8 : r_pos r8 = 56 + cb) by (subst r8; cbn [advance r_pos]; lia). assert (A8 : r_all r8 = c) by (subst r8; exact A7).
  apply seek_target in E10 as (A9 & P9); [|subst off; unfold two64; apply N.mod_lt; discriminate|rewrite P8; unfold two64; lia].
  unfold read_to_end. rewrite rest_skip, A9, A8, P9, P8, O. change (2 ^ 64) with 18446744073709551616. rewrite N.add_mod_idemp_r by discriminate. do 3 f_equal. lia.
Qed.
(** Full statement: the data come after the announced content. Proved when the announced length is below 2^64; see C107_v2_refuted for the rest. *)
Theorem C107_v2_partial pr c f : bytes_ok c -> v2_from_reader_partial pr c true = Ok f -> 56 + v2_cache_byte_size f + 4096 * v2_n_buckets f < 2 ^ 64 ->
  v2_data f = skipn (N.to_nat (56 + v2_cache_byte_size f + 4096 * v2_n_buckets f)) c.
Proof. intros B E H. destruct (C107_v2_mod pr c f B E) as [D _]. now rewrite N.mod_small in D. Qed.

(** Otherwise the reader moves backwards: a file announcing 2^52 - 1 buckets opens partially in both builds, and its index cache and
    number of buckets are reported as attached data. In a release build 2^52 buckets have no length at all. *)
Definition crafted (nb : N) : list byte :=
  [2; 0; 0; 0; 0; 0; 0; 0] ++ le_bytes 8 10 ++ le_bytes 8 p001 ++ le_bytes 8 7 ++ le_bytes 8 0 ++ le_bytes 8 32768 ++ repeat 0 4096 ++ le_bytes 8 nb.
Theorem C107_v2_refuted :
  (forall pr, exists f, v2_from_reader_partial pr (crafted (2 ^ 52 - 1)) true = Ok f /\ len (v2_data f) = 4096 /\ v2_data f = skipn 56 (crafted (2 ^ 52 - 1)) /\
    skipn (N.to_nat 4152) (crafted (2 ^ 52 - 1)) = []) /\
  (exists f, v2_from_reader_partial Release (crafted (2 ^ 52) ++ [1; 2; 3]) true = Ok f /\ v2_n_buckets f = 2 ^ 52 /\ v2_data f = [1; 2; 3]).
Proof.
  split.
  - intros []; eexists; (split; [vm_compute; reflexivity|]); split; [vm_compute; reflexivity|split; vm_compute; reflexivity|vm_compute; reflexivity|split; vm_compute; reflexivity].
  - eexists. split; [vm_compute; reflexivity|]. split; vm_compute; reflexivity.
Qed.
(** A truncated file has no data, one with data has them: the hypotheses are met by both. *)
Example C107_example : exists f g, v1_from_reader_partial Debug (firstn 50 (v1_write e2)) true = Ok f /\ v1_data f = [] /\
  v2_from_reader_partial Debug (crafted 0 ++ [5; 6]) true = Ok g /\ v2_data g = [5; 6] /\ v2_cache_byte_size g = 4096.
Proof. eexists _, _. split; [vm_compute; reflexivity|]. split; [vm_compute; reflexivity|]. split; [vm_compute; reflexivity|]. split; vm_compute; reflexivity. Qed.
