(** Saved files: round trips, trailing and missing bytes, header validation, hostile files, partial reads (C16 to C22). *)
From Coq Require Import Lia.
From Verif Require Import M_Bloom M_RefLibm Spec_Bits Spec_Hash Spec_V2 Spec_V2File Spec_V2Hist Spec_V1 P_Base P_BitSet P_IO P_V2 P_V2Sem P_V2Codec P_V2Make P_V2Merge P_V2Hist
  P_V2Props P_V2More P_V2Size P_V2Sat P_V1 P_V1Size P_V1Codec P_V1Hist P_V1More P_CacheCap P_Codec P_Codec2 Ex_Base Ex_V1.
Open Scope N_scope.

Definition zero6 : list byte := [0; 0; 0; 0; 0; 0].

(** ** The generic reader *)
Lemma bf_ok_v2 pr p c f : v2_from_reader_partial pr c p = Ok f -> bf_from_reader_partial pr c p = Ok (V2 f).
Proof.
  unfold v2_from_reader_partial, bf_from_reader_partial. destruct (read_flags _) as [[fl r]|e|]; cbn [obind]; try discriminate.
  destruct (N.eqb_spec (fl_version fl) 2) as [V|V]; cbn [negb]; [|discriminate]. rewrite V. cbn [N.eqb Pos.eqb]. now intros ->.
Qed.
Lemma bf_ok_v1 pr p c f : v1_from_reader_partial pr c p = Ok f -> bf_from_reader_partial pr c p = Ok (V1 f).
Proof.
  unfold v1_from_reader_partial, bf_from_reader_partial. destruct (read_flags _) as [[fl r]|e|]; cbn [obind]; try discriminate.
  destruct (N.eqb_spec (fl_version fl) 1) as [V|V]; cbn [negb]; [|discriminate]. now intros ->.
Qed.
Lemma bf_ok_inv pr p c b : bf_from_reader_partial pr c p = Ok b ->
  match b with V1 f => v1_from_reader_partial pr c p = Ok f | V2 f => v2_from_reader_partial pr c p = Ok f end.
Proof.
  rewrite bf_reader_cases. destruct (v1_from_reader_partial pr c p) as [f|e|]; [intro H; apply Ok_inj in H; now subst b| |discriminate].
  destruct e; try discriminate. destruct (_ =? 2); [|discriminate]. intro H. apply obind_Ok_inv in H as (f & H & E). apply Ok_inj in E. now subst b.
Qed.
Lemma bf_io_v2 pr p c : v2_from_reader_partial pr c p = Err IoError -> bf_from_reader_partial pr c p = Err IoError.
Proof.
  unfold v2_from_reader_partial, bf_from_reader_partial. destruct (read_flags _) as [[fl r]|e|]; cbn [obind]; try discriminate; [|intro H; injection H as ->; reflexivity].
  destruct (N.eqb_spec (fl_version fl) 2) as [V|V]; cbn [negb]; [|discriminate]. rewrite V. cbn [N.eqb Pos.eqb]. now intros ->.
Qed.
Lemma bf_io_v1 pr p c : v1_from_reader_partial pr c p = Err IoError -> bf_from_reader_partial pr c p = Err IoError.
Proof.
  unfold v1_from_reader_partial, bf_from_reader_partial. destruct (read_flags _) as [[fl r]|e|]; cbn [obind]; try discriminate; [|intro H; injection H as ->; reflexivity].
  destruct (N.eqb_spec (fl_version fl) 1) as [V|V]; cbn [negb]; [|discriminate]. now intros ->.
Qed.

(** * C16 Save/reload round trip *)
(** Any reachable v2 filter, files from elsewhere included: every field but the six reserved header bytes comes back, every
    operation answers the same, and when those bytes are zero the filter is the same. *)
Theorem C16_v2_roundtrip pr wy L f : v2_reach wy L f ->
  exists g, v2_from_reader pr (v2_write f) = Ok g /\ bf_from_reader pr (v2_write f) = Ok (V2 g) /\
    v2_buckets g = v2_buckets f /\ v2_index_cache g = v2_index_cache f /\ v2_count g = v2_count f /\ v2_capacity g = v2_capacity f /\
    v2_fpp g = v2_fpp f /\ v2_n_hash_buck g = v2_n_hash_buck f /\ v2_n_buckets g = v2_n_buckets f /\ v2_cache_byte_size g = v2_cache_byte_size f /\
    fl_version (v2_flags g) = fl_version (v2_flags f) /\ fl_opt (v2_flags g) = fl_opt (v2_flags f) /\ v2_data g = v2_data f /\
    (forall k, v2_contains wy g k = v2_contains wy f k) /\ (forall pr' k, snd (v2_insert pr' wy g k) = snd (v2_insert pr' wy f k)) /\
    (forall pr', v2_size_in_bytes pr' g = v2_size_in_bytes pr' f) /\ v2_is_full g = v2_is_full f /\ (fl_reserved (v2_flags f) = zero6 -> g = f).
Proof.
  intro R. exists (v2_canon f). pose proof (v2_roundtrip pr f (reach_wf _ _ _ R)) as E. split; [exact E|]. split; [exact (bf_ok_v2 _ _ _ _ E)|].
  do 12 (split; [reflexivity|]). split; [|do 2 (split; [reflexivity|]); apply v2_canon_id].
  intros pr' k. unfold v2_insert, v2_insert_iter, v2_ibucket, v2_cache_index, v2_canon. cbn [v2_capacity v2_n_hash_buck v2_buckets v2_count v2_index_cache].
  repeat match goal with |- snd (if ?b then _ else _) = _ => destruct b; [reflexivity|] end. cbv zeta.
  match goal with |- snd (match ?m with _ => _ end) = _ => destruct m; [|reflexivity|reflexivity] end.
  destruct (getN (v2_buckets f) a); [|reflexivity]. destruct (v2_insert_loop _ _ _ _ _) as [b' [new|e|]]; [|reflexivity|reflexivity].
  match goal with |- snd (match ?m with _ => _ end) = _ => destruct m; [|reflexivity|reflexivity] end.
  destruct (bs_is_empty _); [reflexivity|]. now destruct (bs_set _ _) as [c [?|?|]].
Qed.
Print Assumptions C16_v2_roundtrip.
Lemma kept_reserved wy L f K C : v2_kept wy L f K C -> fl_reserved (v2_flags f) = zero6.
Proof.
  assert (G : forall a b : v2, v2_same_frame a b -> fl_reserved (v2_flags a) = zero6 -> fl_reserved (v2_flags b) = zero6).
  { intros a b (E & _) H. now rewrite E. }
  induction 1 as [pr cap fpp opt f Hc Hf E|pr f K C k g b H IH Hk E|pr f K C k g e H IH Hk E|f K C H IH|pr a b Ka Ca Kb Cb g Ha IHa Hb IHb E|f K C d H IH Hd|pr f K C g H IH E].
  - pose proof (v2_make_created _ _ _ _ _ _ E) as Cr. now rewrite (cr_flags _ _ _ _ Cr).
  - destruct (v2_insert_any _ _ _ _ _ _ (proj1 (v2_kept_inv _ _ _ _ _ H)) Hk E) as (_ & (Fr & _) & _). exact (G _ _ Fr IH).
  - destruct (v2_insert_any _ _ _ _ _ _ (proj1 (v2_kept_inv _ _ _ _ _ H)) Hk E) as (_ & (Fr & _) & _). exact (G _ _ Fr IH).
  - exact IH.
  - destruct (union_bits _ _ _ _ _ (proj1 (v2_kept_inv _ _ _ _ _ Ha)) (proj1 (v2_kept_inv _ _ _ _ _ Hb)) E) as (Fr & _). exact (G _ _ Fr IHa).
  - exact IH.
  - rewrite (v2_roundtrip pr f (proj1 (v2_kept_inv _ _ _ _ _ H))) in E. apply Ok_inj in E. subst g. reflexivity.
Qed.
(** Filters made by the library come back identical. *)
Theorem C16_v2_built pr wy L f K C : v2_kept wy L f K C -> v2_from_reader pr (v2_write f) = Ok f /\ bf_from_reader pr (bf_write (V2 f)) = Ok (V2 f).
Proof.
  intro H. pose proof (v2_roundtrip pr f (proj1 (v2_kept_inv _ _ _ _ _ H))) as E. rewrite v2_canon_id in E by exact (kept_reserved _ _ _ _ _ H).
  split; [exact E|exact (bf_ok_v2 _ _ _ _ E)].
Qed.
Print Assumptions C16_v2_built.
(** Full statement for v1: every field comes back. Missing: the writer resets the header flags, so the level byte and reserved
    bytes of a loaded file are lost (C16_v1_refuted). Filters made by the library have neither and come back identical. *)
Theorem C16_v1_roundtrip_partial pr L f : v1_reach L f ->
  exists g, v1_from_reader pr (v1_write f) = Ok g /\ bf_from_reader pr (v1_write f) = Ok (V1 g) /\
    v1_bitset g = v1_bitset f /\ v1_count g = v1_count f /\ v1_capacity g = v1_capacity f /\ v1_fpp g = v1_fpp f /\ v1_n_hash g = v1_n_hash f /\
    v1_bit_size g = v1_bit_size f /\ v1_data g = v1_data f /\ fl_version (v1_flags g) = fl_version (v1_flags f) /\
    (forall d, v1_contains_bytes g d = v1_contains_bytes f d) /\ (forall pr' d, snd (v1_insert_bytes pr' g d) = snd (v1_insert_bytes pr' f d)) /\
    (forall pr', v1_size_in_bytes pr' g = v1_size_in_bytes pr' f) /\ v1_is_full g = v1_is_full f /\ (v1_flags f = flags_new 1 -> g = f).
Proof.
  intro R. pose proof (v1_reach_wf _ _ R) as W. exists (v1_canon f). pose proof (v1_roundtrip pr f W) as E. split; [exact E|]. split; [exact (bf_ok_v1 _ _ _ _ E)|].
  do 7 (split; [reflexivity|]). split; [symmetry; exact (w1_version _ W)|]. split; [reflexivity|]. split; [|do 2 (split; [reflexivity|]); apply v1_canon_id].
  intros pr' d. unfold v1_insert_bytes, v1_canon. cbn [v1_capacity v1_count v1_bitset v1_fp]. destruct (_ =? 0); [reflexivity|].
  destruct (v1_insert_loop _ _ _ _ _) as [b [[|]|e|]]; try reflexivity. now destruct (checked_add _ _ _).
Qed.
Print Assumptions C16_v1_roundtrip_partial.
Lemma kept_flags1 L f K : v1_kept L f K -> v1_flags f = flags_new 1.
Proof.
  assert (G : forall a b : v1, v1_same_frame a b -> v1_flags a = flags_new 1 -> v1_flags b = flags_new 1).
  { intros a b (E & _) H. now rewrite E. }
  induction 1 as [cap fpp f Hc Hf E|pr f K d g b H IH E|pr f K d g e H IH E|f K H IH|a b Ka Kb g Ha IHa Hb IHb E|f K d H IH Hd|pr f K g H IH E].
  - exact (c1_flags _ _ _ _ (v1_make_created _ _ _ _ E)).
  - exact (G _ _ (i1_frame _ _ _ _ _ (v1_insert_sem _ _ _ _ _ (proj1 (v1_kept_inv _ _ _ H)) E)) IH).
  - exact (G _ _ (i1_frame _ _ _ _ _ (v1_insert_sem _ _ _ _ _ (proj1 (v1_kept_inv _ _ _ H)) E)) IH).
  - exact IH.
  - destruct (v1_union_ok _ _ _ _ (proj1 (v1_kept_inv _ _ _ Ha)) (proj1 (v1_kept_inv _ _ _ Hb)) E) as [_ U]. exact (G _ _ (u1_frame _ _ _ _ U) IHa).
  - exact IH.
  - rewrite (v1_roundtrip pr f (proj1 (v1_kept_inv _ _ _ H))) in E. apply Ok_inj in E. subst g. reflexivity.
Qed.
Theorem C16_v1_built pr L f K : v1_kept L f K -> v1_from_reader pr (v1_write f) = Ok f /\ bf_from_reader pr (bf_write (V1 f)) = Ok (V1 f).
Proof.
  intro H. pose proof (v1_roundtrip pr f (proj1 (v1_kept_inv _ _ _ H))) as E. rewrite v1_canon_id in E by exact (kept_flags1 _ _ _ H).
  split; [exact E|exact (bf_ok_v1 _ _ _ _ E)].
Qed.
Print Assumptions C16_v1_built.
(** A v1 file with level byte 2 loads; saved and loaded again it is no longer compatible with itself: the union is refused. *)
Theorem C16_v1_refuted : exists content f g, bytes_ok content /\ (forall pr, v1_from_reader pr content = Ok f) /\ (forall pr, v1_from_reader pr (v1_write f) = Ok g) /\
  fl_opt (v1_flags f) = OSpeed /\ fl_opt (v1_flags g) = ONone /\ v1_has_same_params f g = false /\ forall L, v1_union_merge L f g = (f, Err Merge).
Proof.
  exists (tiny_file OSpeed p001 3 10 [5]), (tiny OSpeed p001 3 10 [5]), (tiny ONone p001 3 10 [5]).
  split; [apply Forall_forall; intros x Hx; apply N.ltb_lt; revert x Hx; apply forallb_forall; vm_compute; reflexivity|].
  split; [intros []; vm_compute; reflexivity|]. split; [intros []; vm_compute; reflexivity|]. split; [reflexivity|]. split; [reflexivity|].
  split; [vm_compute; reflexivity|]. intro L. reflexivity.
Qed.
Print Assumptions C16_v1_refuted.
(** A v2 file without buckets. *)
Definition raw2 (o : optlevel) (res : list byte) (cap fpp nh cnt cb : N) (cache : list byte) (nb : N) (rest : list byte) : list byte :=
  flag_bytes {| fl_version := 2; fl_opt := o; fl_reserved := res |} ++ le_bytes 8 cap ++ le_bytes 8 fpp ++ le_bytes 8 nh ++ le_bytes 8 cnt ++ le_bytes 8 cb ++ cache ++ le_bytes 8 nb ++ rest.
Definition flat2 (o : optlevel) (res : list byte) (cap fpp nh cnt : N) (cache data : list byte) : v2 :=
  {| v2_flags := {| fl_version := 2; fl_opt := o; fl_reserved := res |}; v2_index_cache := cache; v2_n_buckets := 0; v2_cache_byte_size := len cache;
     v2_capacity := cap; v2_fpp := fpp; v2_n_hash_buck := nh; v2_count := cnt; v2_buckets := []; v2_data := data |}.
Ltac small_bytes := apply Forall_forall; let x := fresh in let H := fresh in intros x H; apply N.ltb_lt; revert x H; apply forallb_forall; vm_compute; reflexivity.
(** The reserved bytes of a v2 file are compared by has_same_params and not saved: the reloaded filter cannot be merged with
    the filter it was saved from. *)
Theorem C16_v2_reserved_refuted : exists content f g, bytes_ok content /\ (forall pr, v2_from_reader pr content = Ok f) /\ (forall pr, v2_from_reader pr (v2_write f) = Ok g) /\
  v2_has_same_params f g = false /\ forall pr L, v2_union_merge pr L f g = (f, Err Merge).
Proof.
  exists (raw2 ONone [0;0;0;0;0;1] 0 p001 7 0 0 [] 0 []), (flat2 ONone [0;0;0;0;0;1] 0 p001 7 0 [] []), (flat2 ONone zero6 0 p001 7 0 [] []).
  split; [small_bytes|]. split; [intros []; vm_compute; reflexivity|]. split; [intros []; vm_compute; reflexivity|]. split; [reflexivity|]. intros. reflexivity.
Qed.
Print Assumptions C16_v2_reserved_refuted.
Example C16_example : v2_from_reader Debug (v2_write fs2) = Ok fs2 /\ v1_from_reader Debug (v1_write e2) = Ok e2.
Proof. split; [exact (proj1 (C16_v2_built Debug _ _ _ _ _ fs2_kept))|exact (proj1 (C16_v1_built Debug _ _ _ e2_kept))]. Qed.

(** * C17 Reload/save byte identity *)
(** Full statement: a file with zero reserved bytes is reproduced. Missing for v2: a file whose announced cache size in bits
    (word at offset 40) is not 8 times its cache bytes is rewritten (C17_v2_refuted). *)
Lemma app_inv_len {A} (a b c d : list A) : length a = length b -> a ++ c = b ++ d -> a = b /\ c = d.
Proof.
  revert b. induction a as [|x a IH]; intros [|y b] L E; try discriminate; [auto|]. cbn in E. injection E as -> E. destruct (IH b) as [-> ->]; [now injection L|exact E|auto].
Qed.
Theorem C17_v2_identity_partial pr content f : bytes_ok content -> file_size_ok content -> v2_from_reader pr content = Ok f ->
  (v2_write f = content <-> fl_reserved (v2_flags f) = zero6 /\ of_le (firstn 8 (skipn 40 content)) = 8 * len (v2_index_cache f)).
Proof.
  intros B S E. destruct (v2_load_sound _ _ _ B E) as [cb V].
  assert (Q : of_le (firstn 8 (skipn 40 content)) = cb).
  { rewrite (vf_bytes _ _ _ V). unfold v2_image. set (fb := _ :: _ :: _).
    assert (L : length (fb ++ v2_head f) = 40%nat). { unfold fb, v2_head. rewrite !app_length, !le_bytes_length. cbn [length]. rewrite (vf_reserved _ _ _ V). reflexivity. }
    rewrite app_assoc, skipn_app, L, skipn_all2 by (rewrite L; constructor). cbn [Nat.sub app skipn].
    rewrite firstn_app, le_bytes_length, firstn_all2 by (rewrite le_bytes_length; constructor). cbn [Nat.sub firstn]. rewrite app_nil_r.
    apply le8_rt. exact (vf_cache_bits _ _ _ V). }
  rewrite Q, v2_write_image. rewrite (vf_bytes _ _ _ V) at 1. unfold v2_image, v2_flag_out. split.
  - intro H. apply app_inv_len in H as [H1 H]; [|cbn [length]; now rewrite (vf_reserved _ _ _ V)]. apply app_inv_head in H. split.
    + injection H1 as H1. symmetry. exact H1.
    + apply app_inv_len in H as [H _]; [|now rewrite !le_bytes_length]. apply (f_equal of_le) in H. rewrite le8_rt in H.
      * rewrite le8_rt in H by exact (vf_cache_bits _ _ _ V). now symmetry.
      * exact (wf_cache_len _ (load_wf _ _ _ B S E)).
  - intros [R C]. rewrite R, C. reflexivity.
Qed.
Print Assumptions C17_v2_identity_partial.
(** Everything the library writes is a fixed point. *)
Theorem C17_v2_written pr wy L f g : v2_reach wy L f -> v2_from_reader pr (v2_write f) = Ok g -> v2_write g = v2_write f.
Proof. intros R E. rewrite (v2_roundtrip pr f (reach_wf _ _ _ R)) in E. apply Ok_inj in E. subst g. reflexivity. Qed.
Print Assumptions C17_v2_written.
Theorem C17_v2_refuted : exists content f, bytes_ok content /\ (forall pr, v2_from_reader pr content = Ok f) /\ fl_reserved (v2_flags f) = zero6 /\
  v2_write f <> content /\ len (v2_write f) = len content.
Proof.
  exists (raw2 OSpeed zero6 0 p001 7 0 9 [1; 2] 0 []), (flat2 OSpeed zero6 0 p001 7 0 [1; 2] []).
  split; [small_bytes|]. split; [intros []; vm_compute; reflexivity|]. split; [reflexivity|]. split; [vm_compute; discriminate|vm_compute; reflexivity].
Qed.
Print Assumptions C17_v2_refuted.
(** Missing for v1: a file with level byte 1, 2 or 3 is rewritten with level 0 (C17_v1_refuted). *)
Theorem C17_v1_identity_partial pr content f : bytes_ok content -> v1_from_reader pr content = Ok f ->
  (v1_write f = content <-> fl_opt (v1_flags f) = ONone /\ fl_reserved (v1_flags f) = zero6).
Proof.
  intros B E. pose proof (v1_load_sound _ _ _ B E) as V. rewrite v1_write_image. rewrite (f1_bytes _ _ V) at 1. unfold v1_image. split.
  - intro H. apply app_inv_len in H as [H1 _]; [|cbn [length]; now rewrite (f1_reserved _ _ V)]. injection H1 as _ H1 H2. split; [|now symmetry].
    apply opt_to_u8_inj. now symmetry.
  - intros [O R]. rewrite O, R, (f1_version _ _ V). reflexivity.
Qed.
Print Assumptions C17_v1_identity_partial.
Theorem C17_v1_written pr L f g : v1_reach L f -> v1_from_reader pr (v1_write f) = Ok g -> v1_write g = v1_write f.
Proof. intros R E. rewrite (v1_roundtrip pr f (v1_reach_wf _ _ R)) in E. apply Ok_inj in E. subst g. reflexivity. Qed.
Print Assumptions C17_v1_written.
Theorem C17_v1_refuted : exists content f, bytes_ok content /\ (forall pr, v1_from_reader pr content = Ok f) /\ fl_reserved (v1_flags f) = zero6 /\ v1_write f <> content.
Proof.
  exists (tiny_file OSpeed p001 3 10 [5]), (tiny OSpeed p001 3 10 [5]). split; [small_bytes|]. split; [intros []; vm_compute; reflexivity|]. split; [reflexivity|].
  vm_compute. discriminate.
Qed.
Print Assumptions C17_v1_refuted.
Example C17_example : let c := raw2 OSpeed zero6 0 p001 7 0 16 [1; 2] 0 [9; 9] in
  v2_from_reader Debug c = Ok (flat2 OSpeed zero6 0 p001 7 0 [1; 2] [9; 9]) /\ v2_write (flat2 OSpeed zero6 0 p001 7 0 [1; 2] [9; 9]) = c.
Proof. split; vm_compute; reflexivity. Qed.

(** * C18 Trailing bytes are the attached data *)
Theorem C18_v2_trailing pr content f s : v2_from_reader pr content = Ok f ->
  v2_from_reader pr (content ++ s) = Ok (v2_set_data f (v2_data f ++ s)).
Proof.
  intro E. destruct (ext_v2 pr s content) as [H|H]; rewrite E in H; [discriminate|]. destruct (v2_from_reader pr (content ++ s)); try easy. now rewrite H.
Qed.
Print Assumptions C18_v2_trailing.
Theorem C18_v1_trailing pr content f s : v1_from_reader pr content = Ok f ->
  v1_from_reader pr (content ++ s) = Ok (v1_set_data f (v1_data f ++ s)).
Proof.
  intro E. destruct (ext_v1 pr s content) as [H|H]; rewrite E in H; [discriminate|]. destruct (v1_from_reader pr (content ++ s)); try easy. now rewrite H.
Qed.
Print Assumptions C18_v1_trailing.
Definition bf_set_data (b : bloom) (d : list byte) : bloom := match b with V1 f => V1 (v1_set_data f d) | V2 f => V2 (v2_set_data f d) end.
Theorem C18_trailing pr content b s : bf_from_reader pr content = Ok b -> bf_from_reader pr (content ++ s) = Ok (bf_set_data b (bf_data b ++ s)).
Proof.
  intro E. apply bf_ok_inv in E. destruct b as [f|f]; [apply bf_ok_v1; now apply C18_v1_trailing|apply bf_ok_v2; now apply C18_v2_trailing].
Qed.
Print Assumptions C18_trailing.
(** In particular for a file just written. *)
Theorem C18_written pr wy L f K C s : v2_kept wy L f K C -> v2_from_reader pr (v2_write f ++ s) = Ok (v2_set_data f (v2_data f ++ s)).
Proof. intro H. apply C18_v2_trailing. exact (proj1 (C16_v2_built pr _ _ _ _ _ H)). Qed.
Print Assumptions C18_written.
Example C18_example : v1_from_reader Debug (v1_write e2 ++ [1; 2; 3]) = Ok (v1_set_data e2 [1; 2; 3]).
Proof. vm_compute. reflexivity. Qed.

(** * C19 Truncation is detected *)
Lemma v2_cut content f cb n : v2_file content f cb -> len content - len (v2_data f) <= n ->
  v2_file (firstn (N.to_nat n) content) (v2_set_data f (firstn (N.to_nat (n - (len content - len (v2_data f)))) (v2_data f))) cb.
Proof.
  intros V Hn. destruct V as [HB HV HR Hc Hf Hfr Hh Hct Hcb Hca Hcs Hcl Hnb Hbk Hbl]. constructor; try assumption.
  cbn [v2_set_data v2_flags]. unfold v2_image in *. cbn [v2_set_data v2_capacity v2_fpp v2_n_hash_buck v2_count v2_index_cache v2_buckets v2_data].
  rewrite !app_assoc in HB. rewrite !app_assoc. set (h := _ ++ concat (v2_buckets f)) in *. change (v2_head (v2_set_data _ _)) with (v2_head f).
  rewrite HB at 1. rewrite firstn_app. assert (L : len content = len h + len (v2_data f)) by (rewrite HB; unfold len; rewrite app_length; lia).
  f_equal; [apply firstn_all2; unfold len in *; lia|]. f_equal. unfold len in *. lia.
Qed.
Theorem C19_v2_truncated pr content f n : bytes_ok content -> v2_from_reader pr content = Ok f ->
  (n < len content - len (v2_data f) -> v2_from_reader pr (firstn (N.to_nat n) content) = Err IoError) /\
  (len content - len (v2_data f) <= n ->
     v2_from_reader pr (firstn (N.to_nat n) content) = Ok (v2_set_data f (firstn (N.to_nat (n - (len content - len (v2_data f)))) (v2_data f)))).
Proof.
  intros B E. split; intro Hn.
  - set (p := firstn _ content). set (s := skipn (N.to_nat n) content).
    assert (PS : content = p ++ s) by (symmetry; apply firstn_skipn). assert (LS : len s = len content - n) by (unfold s; rewrite len_skipn; lia).
    destruct (ext_v2 pr s p) as [H|H]; [exact H|]. exfalso. rewrite <- PS, E in H. destruct (v2_from_reader pr p) as [g|e|]; try easy.
    unfold v2_extended in H. assert (len (v2_data f) = len (v2_data g) + len s) by (rewrite H; unfold len; cbn [v2_set_data v2_data]; rewrite app_length; lia). lia.
  - destruct (v2_load_sound _ _ _ B E) as [cb V]. apply v2_load_complete with cb. now apply v2_cut.
Qed.
Print Assumptions C19_v2_truncated.
Lemma v1_cut content f n : v1_file content f -> len content - len (v1_data f) <= n ->
  v1_file (firstn (N.to_nat n) content) (v1_set_data f (firstn (N.to_nat (n - (len content - len (v1_data f)))) (v1_data f))).
Proof.
  intros V Hn. destruct V as [HB HV HR Hc Hf Hh Hbs Hct Hw Hl Hfp]. constructor; try assumption.
  cbn [v1_set_data v1_flags]. unfold v1_image in *. cbn [v1_set_data v1_capacity v1_fpp v1_n_hash v1_bit_size v1_count v1_bitset v1_data].
  rewrite !app_assoc in HB. rewrite !app_assoc. set (h := _ ++ concat (map (le_bytes 8) (v1_bitset f))) in *.
  rewrite HB at 1. rewrite firstn_app. assert (L : len content = len h + len (v1_data f)) by (rewrite HB; unfold len; rewrite app_length; lia).
  f_equal; [apply firstn_all2; unfold len in *; lia|]. f_equal. unfold len in *. lia.
Qed.
Theorem C19_v1_truncated pr content f n : bytes_ok content -> v1_from_reader pr content = Ok f ->
  (n < len content - len (v1_data f) -> v1_from_reader pr (firstn (N.to_nat n) content) = Err IoError) /\
  (len content - len (v1_data f) <= n ->
     v1_from_reader pr (firstn (N.to_nat n) content) = Ok (v1_set_data f (firstn (N.to_nat (n - (len content - len (v1_data f)))) (v1_data f)))).
Proof.
  intros B E. split; intro Hn.
  - set (p := firstn _ content). set (s := skipn (N.to_nat n) content).
    assert (PS : content = p ++ s) by (symmetry; apply firstn_skipn). assert (LS : len s = len content - n) by (unfold s; rewrite len_skipn; lia).
    destruct (ext_v1 pr s p) as [H|H]; [exact H|]. exfalso. rewrite <- PS, E in H. destruct (v1_from_reader pr p) as [g|e|]; try easy.
    unfold v1_extended in H. assert (len (v1_data f) = len (v1_data g) + len s) by (rewrite H; unfold len; cbn [v1_set_data v1_data]; rewrite app_length; lia). lia.
  - pose proof (v1_load_sound _ _ _ B E) as V. apply v1_load_complete. now apply v1_cut.
Qed.
Print Assumptions C19_v1_truncated.
Theorem C19_truncated pr content b n : bytes_ok content -> bf_from_reader pr content = Ok b ->
  (n < len content - len (bf_data b) -> bf_from_reader pr (firstn (N.to_nat n) content) = Err IoError) /\
  (len content - len (bf_data b) <= n ->
     bf_from_reader pr (firstn (N.to_nat n) content) = Ok (bf_set_data b (firstn (N.to_nat (n - (len content - len (bf_data b)))) (bf_data b)))).
Proof.
  intros B E. apply bf_ok_inv in E. destruct b as [f|f]; cbn [bf_data bf_set_data].
  - destruct (C19_v1_truncated pr content f n B E) as [H1 H2]. split; intro Hn; [apply bf_io_v1; now apply H1|apply bf_ok_v1; now apply H2].
  - destruct (C19_v2_truncated pr content f n B E) as [H1 H2]. split; intro Hn; [apply bf_io_v2; now apply H1|apply bf_ok_v2; now apply H2].
Qed.
Print Assumptions C19_truncated.
(** For a file just written, the cut-off point is the size of header, cache and bits. *)
Theorem C19_written pr wy L f K C n : v2_kept wy L f K C -> n < 56 + len (v2_index_cache f) + 4096 * len (v2_buckets f) ->
  bf_from_reader pr (firstn (N.to_nat n) (v2_write f)) = Err IoError.
Proof.
  intros H Hn. pose proof (proj1 (v2_kept_inv _ _ _ _ _ H)) as W.
  apply (C19_truncated pr (v2_write f) (V2 f) n (write_bytes f W) (proj2 (C16_v2_built pr _ _ _ _ _ H))). cbn [bf_data]. rewrite write_len by exact W. lia.
Qed.
Print Assumptions C19_written.
Example C19_example : v1_from_reader Debug (firstn 55 (v1_write e2)) = Err IoError /\ len (v1_write e2) = 56 /\
  v2_from_reader Debug (firstn 4000 (v2_write fs2)) = Err IoError /\ v2_from_reader Debug (firstn 3 (v2_write fs2)) = Err IoError.
Proof. split; [vm_compute; reflexivity|]. split; [vm_compute; reflexivity|]. split; vm_compute; reflexivity. Qed.

(** * C20 Header validation *)
(** What an accepted file starts with. *)
Theorem C20_accepted pr content b : bytes_ok content -> bf_from_reader pr content = Ok b ->
  exists v o t, content = v :: o :: t /\ v = bf_version b /\ (v = 1 \/ v = 2) /\ o <= 3 /\ 48 <= len content /\
    (v = 2 -> fpp_in_range (of_le (firstn 8 (skipn 16 content))) = true).
Proof.
  intros B E. apply bf_ok_inv in E. assert (O : forall o, opt_to_u8 o <= 3) by (intros []; cbn; lia). destruct b as [f|f]; cbn [bf_version].
  - pose proof (v1_load_sound _ _ _ B E) as V. pose proof (f1_bytes _ _ V) as Hb. rewrite (f1_version _ _ V) in Hb. eexists 1, _, _. split; [exact Hb|].
    split; [reflexivity|]. split; [auto|]. split; [apply O|]. split; [|discriminate]. rewrite Hb. unfold v1_image, len. rewrite !app_length, !le_bytes_length.
    cbn [length]. rewrite (f1_reserved _ _ V). lia.
  - destruct (v2_load_sound _ _ _ B E) as [cb V]. pose proof (vf_bytes _ _ _ V) as Hb. rewrite (vf_version _ _ _ V) in Hb. eexists 2, _, _. split; [exact Hb|].
    split; [reflexivity|]. split; [auto|]. split; [apply O|]. split.
    + rewrite Hb. unfold v2_image, v2_head, len. rewrite !app_length, !le_bytes_length. cbn [length]. rewrite (vf_reserved _ _ _ V). lia.
    + intros _. rewrite Hb. unfold v2_image, v2_head. set (fb := _ :: _ :: _).
      assert (L : length (fb ++ le_bytes 8 (v2_capacity f)) = 16%nat). { unfold fb. rewrite !app_length, !le_bytes_length. cbn [length]. rewrite (vf_reserved _ _ _ V). reflexivity. }
      rewrite <- !app_assoc, (app_assoc fb), skipn_app, L, skipn_all2 by (rewrite L; constructor). cbn [Nat.sub app skipn].
      rewrite firstn_app, le_bytes_length, firstn_all2 by (rewrite le_bytes_length; constructor). cbn [Nat.sub firstn]. rewrite app_nil_r.
      rewrite le8_rt by exact (vf_fpp _ _ _ V). exact (vf_fpp_range _ _ _ V).
Qed.
Print Assumptions C20_accepted.
(** What the others are rejected with: a level byte above 3 first, then a wrong version. *)
Theorem C20_rejected pr p v o t : length t = 6%nat -> forall rest,
  (4 <= o -> bf_from_reader_partial pr (v :: o :: t ++ rest) p = Err (OptLevelError o) /\
             v1_from_reader_partial pr (v :: o :: t ++ rest) p = Err (OptLevelError o) /\ v2_from_reader_partial pr (v :: o :: t ++ rest) p = Err (OptLevelError o)) /\
  (o <= 3 -> (v <> 1 -> v1_from_reader_partial pr (v :: o :: t ++ rest) p = Err (InvalidVersion v)) /\
             (v <> 2 -> v2_from_reader_partial pr (v :: o :: t ++ rest) p = Err (InvalidVersion v)) /\
             (v <> 1 -> v <> 2 -> bf_from_reader_partial pr (v :: o :: t ++ rest) p = Err (InvalidVersion v))).
Proof.
  intros Ht rest. set (c := v :: o :: t ++ rest). split; intro Ho.
  - assert (F : read_flags (reader_of c) = Err (OptLevelError o)).
    { unfold read_flags. destruct (read_exact_n (reader_of c) 8 (v :: o :: t) rest (rest_of c)) as [-> _]; [unfold len; cbn [length]; now rewrite Ht|].
      cbn [obind flags_from_bytes]. now rewrite opt_of_u8_big. }
    unfold bf_from_reader_partial, v1_from_reader_partial, v2_from_reader_partial. rewrite F. auto.
  - assert (X : exists x, opt_to_u8 x = o).
    { assert (C : o = 0 \/ o = 1 \/ o = 2 \/ o = 3) by lia. destruct C as [->|[->|[->| ->]]]; [exists ONone|exists OSpace|exists OSpeed|exists OBest]; reflexivity. }
    destruct X as [x Hx]. set (fl := {| fl_version := v; fl_opt := x; fl_reserved := t |}).
    assert (F : read_flags (reader_of c) = Ok (fl, advance (reader_of c) 8)).
    { apply (read_flags_app _ fl rest Ht). rewrite rest_of. unfold c, flag_bytes. cbn [fl fl_version fl_opt fl_reserved]. now rewrite Hx. }
    unfold bf_from_reader_partial, v1_from_reader_partial, v2_from_reader_partial. rewrite F. cbn [obind fl fl_version].
    split; [intro H; now rewrite (proj2 (N.eqb_neq _ _) H)|]. split; [intro H; now rewrite (proj2 (N.eqb_neq _ _) H)|].
    intros H1 H2. now rewrite (proj2 (N.eqb_neq _ _) H1), (proj2 (N.eqb_neq _ _) H2).
Qed.
Print Assumptions C20_rejected.
Theorem C20_short pr p content : len content < 8 -> bf_from_reader_partial pr content p = Err IoError.
Proof. intro H. unfold bf_from_reader_partial. rewrite read_flags_short by now rewrite rest_of. reflexivity. Qed.
Print Assumptions C20_short.
Example C20_example : bf_from_reader Debug [3; 0; 0; 0; 0; 0; 0; 0] = Err (InvalidVersion 3) /\ bf_from_reader Debug [3; 4; 0; 0; 0; 0; 0; 0] = Err (OptLevelError 4) /\
  v1_from_reader Debug (v2_write fs2) = Err (InvalidVersion 2) /\ v2_from_reader Debug (v1_write e2) = Err (InvalidVersion 1).
Proof. split; [vm_compute; reflexivity|]. split; [vm_compute; reflexivity|]. split; vm_compute; reflexivity. Qed.

(** * C21 Malformed input yields Err, not a crash *)
(** Full statement: from_reader never panics. False (C21_refuted): the v2 reader panics on exactly the files whose well formed
    header announces buckets for more than isize::MAX bytes. *)
Theorem C21_reader_partial pr content : bytes_ok content ->
  v1_from_reader pr content <> Panic /\ (v2_from_reader pr content = Panic <-> v2_overflowing content) /\ (bf_from_reader pr content = Panic <-> v2_overflowing content).
Proof.
  intro B. split; [now apply v1_no_panic|]. split; [now apply v2_panic_iff|]. rewrite <- (v2_panic_iff pr) by exact B.
  unfold bf_from_reader, bf_from_reader_partial, v2_from_reader, v2_from_reader_partial. destruct (read_flags _) as [[fl r]|e|] eqn:F; cbn [obind].
  - destruct (N.eqb_spec (fl_version fl) 1) as [V|V].
    + rewrite V. cbn [N.eqb Pos.eqb negb]. split; [|discriminate]. intro H. exfalso. apply (v1_no_panic pr content B). unfold v1_from_reader, v1_from_reader_partial.
      rewrite F. cbn [obind]. rewrite V. cbn [N.eqb Pos.eqb negb]. destruct (v1_from_reader_with_flags pr r fl false); [discriminate|discriminate|reflexivity].
    + destruct (fl_version fl =? 2); cbn [negb]; [|split; discriminate]. destruct (v2_from_reader_with_flags pr r fl false); split; try discriminate; auto.
  - split; discriminate.
  - exfalso. revert F. apply read_flags_not_Panic.
Qed.
Print Assumptions C21_reader_partial.
(** 56 bytes are enough. *)
Theorem C21_refuted : exists content, bytes_ok content /\ len content = 56 /\ forall pr, bf_from_reader pr content = Panic.
Proof. exists (raw2 ONone zero6 1 p001 7 0 0 [] (2 ^ 51) []). split; [small_bytes|]. split; [vm_compute; reflexivity|]. intros []; vm_compute; reflexivity. Qed.
Print Assumptions C21_refuted.
(** Operations on a loaded v2 filter. Full statement: none panics. Missing: files with a capacity and no bucket, and in a debug
    build insertion when the announced count is 2^64-1 (C21_v2_ops_refuted). *)
Theorem C21_v2_ops_partial pr pr' wy content f k : bytes_ok content -> file_size_ok content -> v2_from_reader pr content = Ok f -> key_ok k ->
  v2_capacity f = 0 \/ len (v2_buckets f) <> 0 ->
  v2_contains wy f k <> Panic /\ (pr' = Release \/ v2_count f < u64_max -> snd (v2_insert pr' wy f k) <> Panic) /\ v2_size_in_bytes pr' f <> Panic.
Proof.
  intros B S E K U. pose proof (load_wf _ _ _ B S E) as W. assert (Us : v2_usable f) by (intro H; destruct U; [contradiction|assumption]).
  split; [destruct (contains_total wy f k W Us K) as [-> | ->]; discriminate|]. split.
  - intro H. destruct (v2_insert pr' wy f k) as [g r] eqn:I. exact (insert_no_panic _ _ _ _ _ _ W Us K H I).
  - pose proof (wf_buckets_len _ W) as HB. pose proof (wf_cache_len _ W) as HC. unfold isize_max, two64 in *.
    unfold v2_size_in_bytes, checked_mul, checked_add, BUCKET_SIZE. rewrite (wf_n_buckets _ W), (wf_cache_size _ W).
    unfold two64. rewrite (proj2 (N.ltb_lt _ _)) by lia. cbn [obind]. rewrite (proj2 (N.ltb_lt _ _)) by lia. discriminate.
Qed.
Print Assumptions C21_v2_ops_partial.
Theorem C21_v2_ops_refuted : exists content f, bytes_ok content /\ len content = 56 /\ (forall pr, v2_from_reader pr content = Ok f) /\
  forall pr wy, v2_contains wy f k1 = Panic /\ snd (v2_insert pr wy f k1) = Panic.
Proof.
  exists (raw2 ONone zero6 1 p001 7 0 0 [] 0 []), (flat2 ONone zero6 1 p001 7 0 [] []). split; [small_bytes|]. split; [vm_compute; reflexivity|].
  split; [intros []; vm_compute; reflexivity|]. intros pr wy. split; [vm_compute; reflexivity|destruct pr; vm_compute; reflexivity].
Qed.
Print Assumptions C21_v2_ops_refuted.
(** The same for v1: there must be bits if there are hash functions, and the announced number of bits must survive its
    conversion to f64 (up to 2^53 it does). *)
Theorem C21_v1_ops_partial pr pr' content f d : bytes_ok content -> v1_from_reader pr content = Ok f ->
  v1_n_hash f = 0 \/ v1_bit_size f <> 0 -> v1_bit_size f <= 2 ^ 53 ->
  v1_contains_bytes f d <> Panic /\ snd (v1_insert_bytes pr' f d) <> Panic /\ v1_size_in_bytes pr' f <> Panic.
Proof.
  intros B E H S. pose proof (v1_load_wf _ _ _ B E) as W.
  assert (U : v1_usable f). { apply v1_usable_small; [exact W|exact S|]. intros Hn. destruct H; [contradiction|assumption]. }
  split; [destruct (v1_contains_bool f d W U) as [-> | ->]; discriminate|]. split.
  - destruct (v1_insert_bytes pr' f d) as [g r] eqn:I. exact (v1_insert_usable _ _ _ _ _ W U I).
  - unfold v1_size_in_bytes, v1_size_in_u64, checked_mul, two64. rewrite (proj2 (N.ltb_lt _ _)); [discriminate|]. change (2 ^ 53) with 9007199254740992 in S. lia.
Qed.
Print Assumptions C21_v1_ops_partial.
Theorem C21_v1_ops_refuted : exists content f, bytes_ok content /\ len content = 48 /\ (forall pr, v1_from_reader pr content = Ok f) /\
  forall pr, snd (v1_insert_bytes pr f da) = Panic.
Proof.
  exists (tiny_file ONone p001 3 0 []), (tiny ONone p001 3 0 []). split; [small_bytes|]. split; [vm_compute; reflexivity|].
  split; [intros []; vm_compute; reflexivity|]. intros []; vm_compute; reflexivity.
Qed.
Print Assumptions C21_v1_ops_refuted.
Example C21_example : v2_from_reader Debug (v2_write fs2) = Ok fs2 /\ len (v2_buckets fs2) = 1 /\ snd (v1_insert_bytes Debug (tiny ONone p001 3 10 [5]) da) = Ok true.
Proof. split; [exact (proj1 (C16_v2_built Debug _ _ _ _ _ fs2_kept))|]. split; vm_compute; reflexivity. Qed.

(** * C22 Partial read reports the same metadata *)
Theorem C22_partial_read pr content b : bytes_ok content -> bf_from_reader pr content = Ok b ->
  exists p, bf_partial_from_reader pr content = Ok p /\ bf_version p = bf_version b /\ bf_capacity p = bf_capacity b /\ bf_fpp p = bf_fpp b /\
    bf_count_estimate p = bf_count_estimate b /\ bf_is_full p = bf_is_full b /\ bf_data p = bf_data b /\ forall pr', bf_size_in_bytes pr' p = bf_size_in_bytes pr' b.
Proof.
  intros B E. apply bf_ok_inv in E. destruct b as [f|f].
  - exists (V1 (v1_partial f)). split; [apply bf_ok_v1, v1_load_partial; exact (v1_load_sound _ _ _ B E)|]. do 6 (split; [reflexivity|]). reflexivity.
  - destruct (v2_load_sound _ _ _ B E) as [cb V]. exists (V2 (v2_partial f)). split; [apply bf_ok_v2, (v2_load_partial pr content f cb V)|].
    do 6 (split; [reflexivity|]). reflexivity.
Qed.
Print Assumptions C22_partial_read.
Example C22_example : exists f, bf_partial_from_reader Debug (v2_write fs2) = Ok (V2 f) /\ v2_buckets f = [] /\ v2_count f = 2 /\ v2_size_in_bytes Debug f = Ok 4097.
Proof. exists (v2_partial fs2). split; [vm_compute; reflexivity|]. split; [reflexivity|]. split; vm_compute; reflexivity. Qed.
(** The converse does not hold: a partial read also accepts a truncated file (seeking past the end is no error), and on the
    result a v1 insertion and a v2 lookup panic. *)
Example C22_truncated : bf_from_reader Debug (firstn 48 (v1_write e2)) = Err IoError /\
  (exists f, bf_partial_from_reader Debug (firstn 48 (v1_write e2)) = Ok (V1 f) /\ snd (v1_insert_bytes Debug f da) = Panic) /\
  (exists f, bf_partial_from_reader Debug (v2_write fn2) = Ok (V2 f) /\ v2_contains ex_wy f ka = Panic).
Proof.
  split; [vm_compute; reflexivity|]. split.
  - exists (v1_partial e2). split; vm_compute; reflexivity.
  - exists (v2_partial fn2). split; vm_compute; reflexivity.
Qed.
