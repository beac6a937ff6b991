(** Entries that no v1 filter tells apart (C97). *)
From Coq Require Import Lia ZArith Znumtheory.
From Verif Require Import M_Hash M_V1 M_V2 M_RefLibm Spec_Bits Spec_Hash Spec_V2 Spec_V1 P_Base P_BitSet P_Hash P_V1 P_V1Size P_V1Codec P_V1Hist Ex_Base Ex_V1 Ex_Wyhash.
Open Scope N_scope.

(** * C97 Different entries have different hash values *)
(** A v1 filter sees an entry through its hash value only. *)
Theorem C97_same_hash pr f d e : fnv1 d = fnv1 e -> v1_contains_bytes f d = v1_contains_bytes f e /\ v1_insert_bytes pr f d = v1_insert_bytes pr f e.
Proof.
  intro H. assert (F : fp_fingerprint (v1_fp f) d = fp_fingerprint (v1_fp f) e) by (unfold fp_fingerprint; now rewrite !fnv_hash_one_spec, H).
  unfold v1_contains_bytes, v1_insert_bytes. now rewrite F.
Qed.
Print Assumptions C97_same_hash.
(** Two entries with the same hash value keep it when the same bytes are appended. *)
Theorem C97_extend d e u : fnv1 d = fnv1 e -> fnv1 (d ++ u) = fnv1 (e ++ u).
Proof. unfold fnv1. rewrite !fold_left_app. now intros ->. Qed.
Print Assumptions C97_extend.

Definition step (h b : N) : N := N.lxor ((h * 1099511628211) mod 2 ^ 64) b.
Lemma fnv1_app d u : fnv1 (d ++ u) = fold_left step u (fnv1 d).
Proof. unfold fnv1. now rewrite fold_left_app. Qed.
Lemma step_lt h b : b < 256 -> step h b < 2 ^ 64.
Proof. intro H. unfold step. apply (lxor_lt _ _ 64); [apply N.mod_lt; discriminate|]. apply N.lt_trans with (1 := H). reflexivity. Qed.
Lemma fold_lt u : forall h, h < 2 ^ 64 -> bytes_ok u -> fold_left step u h < 2 ^ 64.
Proof. induction u as [|b u IH]; intros h H B; [exact H|]. inversion B. cbn [fold_left]. apply IH; [now apply step_lt|assumption]. Qed.
Lemma fnv1_lt d : bytes_ok d -> fnv1 d < 2 ^ 64.
Proof. intro B. change (fnv1 d) with (fold_left step d 14695981039346656037). apply fold_lt; [reflexivity|exact B]. Qed.
(** The prime is odd, so a step loses nothing. *)
Lemma mul_inj a b : a < 2 ^ 64 -> b < 2 ^ 64 -> (a * 1099511628211) mod 2 ^ 64 = (b * 1099511628211) mod 2 ^ 64 -> a = b.
Proof.
  intros A B H. assert (I : forall x, x < 2 ^ 64 -> (((x * 1099511628211) mod 2 ^ 64) * 14886173955864302971) mod 2 ^ 64 = x).
  { intros x Hx. rewrite N.mul_mod_idemp_l by discriminate. rewrite <- N.mul_assoc, N.mul_mod by discriminate. change ((1099511628211 * 14886173955864302971) mod 2 ^ 64) with 1. rewrite N.mul_1_r, N.mod_mod by discriminate. now apply N.mod_small. }
  rewrite <- (I a A), <- (I b B). now rewrite H.
Qed.
Lemma lxor_inj a b c : N.lxor a c = N.lxor b c -> a = b.
Proof. intro H. rewrite <- (N.lxor_0_r a), <- (N.lxor_0_r b), <- (N.lxor_nilpotent c), <- !N.lxor_assoc. now rewrite H. Qed.
Lemma fold_inj u : forall a b, a < 2 ^ 64 -> b < 2 ^ 64 -> bytes_ok u -> fold_left step u a = fold_left step u b -> a = b.
Proof.
  induction u as [|c u IH]; intros a b A B Bu H; [exact H|]. inversion Bu as [|c' u' Hc Hu]. subst. cbn [fold_left] in H. apply IH in H; [|now apply step_lt|now apply step_lt|exact Hu]. unfold step in H. apply lxor_inj in H. now apply mul_inj in H.
Qed.
(** Entries that differ in one byte only have different hash values. *)
Theorem C97_one_byte d a b u : bytes_ok (d ++ a :: u) -> bytes_ok (d ++ b :: u) -> a <> b -> fnv1 (d ++ a :: u) <> fnv1 (d ++ b :: u).
Proof.
  intros Ha Hb N E. apply Forall_app in Ha as [Hd Ha]. apply Forall_app in Hb as [_ Hb]. inversion Ha as [|? ? Xa Xu]. inversion Hb as [|? ? Xb _]. subst. rewrite !fnv1_app in E. cbn [fold_left] in E.
  apply fold_inj in E; [|now apply step_lt|now apply step_lt|exact Xu]. unfold step in E. apply N. rewrite (N.lxor_comm _ a), (N.lxor_comm _ b) in E. exact (lxor_inj _ _ _ E).
Qed.
Print Assumptions C97_one_byte.
(** Appending a zero byte changes the hash value unless it is 0 or 2^63. *)
Theorem C97_append_zero d : bytes_ok d -> (fnv1 (d ++ [0]) = fnv1 d <-> fnv1 d = 0 \/ fnv1 d = 2 ^ 63).
Proof.
  intro B. pose proof (fnv1_lt d B) as L. rewrite fnv1_app. cbn [fold_left]. unfold step. rewrite N.lxor_0_r. set (h := fnv1 d) in *. clearbody h. split.
  - intro H. assert (D : (h * 1099511628210) mod 2 ^ 64 = 0).
    { assert (E : h * 1099511628211 = 2 ^ 64 * (h * 1099511628211 / 2 ^ 64) + h) by (rewrite <- H at 3; apply N.div_mod; discriminate). apply N.mod_divide; [discriminate|]. exists (h * 1099511628211 / 2 ^ 64). lia. }
    assert (D2 : (h * 549755814105) mod 2 ^ 63 = 0).
    { apply N.mod_divide in D; [|discriminate]. destruct D as [q D]. apply N.mod_divide; [discriminate|]. exists q. lia. }
    assert (D3 : h mod 2 ^ 63 = 0).
    { rewrite <- (N.mul_1_r h). change 1 with ((549755814105 * 522583970646622057) mod 2 ^ 63). rewrite N.mul_mod_idemp_r, N.mul_assoc, <- N.mul_mod_idemp_l, D2 by discriminate. reflexivity. }
    apply N.mod_divide in D3; [|discriminate]. destruct D3 as [q D3]. assert (q < 2) by lia. assert (Q : q = 0 \/ q = 1) by lia. destruct Q; subst q; lia.
  - intros [->| ->]; reflexivity.
Qed.
Print Assumptions C97_append_zero.
(** Nine bytes with hash value 0: appending zeros keeps it. *)
Definition zed : list byte := [146; 6; 119; 76; 224; 47; 137; 42; 210].
Lemma zed_zero n : fnv1 (zed ++ repeat 0 n) = 0.
Proof. rewrite fnv1_app. change (fnv1 zed) with 0. induction n as [|n IH]; [reflexivity|]. exact IH. Qed.
(** For any bytes [u] and any number of zeros: no v1 filter, of any size, tells zed ++ u from zed ++ zeros ++ u, neither when asked nor
    when filled. *)
Theorem C97_family pr f n u : v1_contains_bytes f (zed ++ repeat 0 n ++ u) = v1_contains_bytes f (zed ++ u) /\ v1_insert_bytes pr f (zed ++ repeat 0 n ++ u) = v1_insert_bytes pr f (zed ++ u).
Proof. apply C97_same_hash. rewrite app_assoc. apply C97_extend. apply zed_zero. Qed.
Print Assumptions C97_family.
(** Without [u] all hash functions give the first bit of the filter. *)
Lemma zed_h d n : fnv1 d = 0 -> dcso_h d n = 0.
Proof. intro H. induction n as [|n IH]; cbn [dcso_h]; [now rewrite H|now rewrite IH]. Qed.
Lemma zed_positions k m n : m <> 0 -> Forall (eq 0) (dcso_positions k m (zed ++ repeat 0 n)).
Proof. intro M. apply Forall_forall. intros x Hx. apply in_map_iff in Hx as (i & <- & _). rewrite zed_h by apply zed_zero. now rewrite N.mod_0_l. Qed.
Theorem C97_one_bit L f K n : v1_kept L f K -> v1_n_hash f <> 0 -> v1_contains_bytes f (zed ++ repeat 0 n) = Ok (v1_bit f 0).
Proof.
  intros Hk NH. apply v1_kept_inv in Hk as (W & U & _). pose proof U as [U1 U2]. specialize (U2 NH). rewrite v1_contains_sem by auto.
  assert (C : v1_covered f (zed ++ repeat 0 n) = v1_bit f 0).
  { unfold v1_covered, v1_positions. pose proof (zed_positions (v1_n_hash f) (v1_bit_size f) n U2) as P. pose proof (dcso_positions_length (v1_n_hash f) (v1_bit_size f) (zed ++ repeat 0 n)) as Ln.
    destruct (dcso_positions _ _ _) as [|x l]; [cbn in Ln; lia|]. apply Forall_cons_iff in P as [X Pl]. subst x. cbn [forallb]. clear Ln. induction Pl as [|y l Y Pl IH]; [apply andb_true_r|]. subst y. cbn [forallb]. rewrite andb_assoc, andb_diag. exact IH. }
  destruct (v1_bitset f) eqn:B; [|now rewrite C]. cbn in U1. lia.
Qed.
Print Assumptions C97_one_bit.
(** Full statement: different entries are told apart. False of every v1 filter: after one insertion infinitely many other entries are
    reported, for every choice of the last bytes. *)
Theorem C97_refuted : forall pr f u g b, v1_wf f -> v1_bitset f <> [] -> v1_insert_bytes pr f (zed ++ u) = (g, Ok b) ->
  forall n, (0 < n)%nat -> zed ++ repeat 0 n ++ u <> zed ++ u /\ v1_contains_bytes g (zed ++ repeat 0 n ++ u) = Ok true.
Proof.
  intros pr f u g b W B H n Hn. split.
  - intro E. apply app_inv_head in E. apply (f_equal (@length N)) in E. rewrite app_length, repeat_length in E. lia.
  - destruct (C97_family pr g n u) as [-> _]. pose proof (v1_insert_sem _ _ _ _ _ W H) as [_ _ Wg _ _]. apply v1_contains_true; [exact Wg|]. exact (v1_insert_present _ _ _ _ _ W B H).
Qed.
Print Assumptions C97_refuted.
(** A filter for 4 entries: the entry and another of its family; an entry that differs from the first in one byte only is not reported. *)
Example C97_example : exists g, v1_insert_bytes Debug e2 (zed ++ da) = (g, Ok true) /\ v1_contains_bytes g (zed ++ [0; 0] ++ da) = Ok true /\ v1_contains_bytes g (zed ++ [0; 1] ++ da) = Ok false /\ v1_contains_bytes e2 (zed ++ da) = Ok false.
Proof. eexists. split; [vm_compute; reflexivity|]. repeat split; vm_compute; reflexivity. Qed.
Example C97_one_bit_example : v1_contains_bytes e2 zed = Ok false /\ v1_contains_bytes (fst (v1_insert_bytes Debug e2 (zed ++ [0; 0; 0]))) zed = Ok true /\
  v1_count_ones (fst (v1_insert_bytes Debug e2 zed)) = v1_count_ones e2 + 1.
Proof. repeat split; vm_compute; reflexivity. Qed.

(** The same of version 2 with the WyHash of Ex_Wyhash.v. What follows is about that definition, written from memory and checked
    against the crate by one value of five bytes only: no statement about the crate for other lengths. *)
Definition wyed : list byte := [20; 109; 25; 208; 109; 89; 238; 1].
Lemma wyed_zero x : (0 < length x <= 8)%nat -> wy_hash_one wy_ref (wyed ++ x) = 0.
Proof.
  intro H. do 9 (destruct x as [|? x]; [first [cbn in H; lia|reflexivity]|]). cbn in H. lia.
Qed.
(** All entries of 9 to 16 bytes that begin with these eight bytes are one entry to every version 2 filter. *)
Theorem C97_v2_reference pr f x y : (0 < length x <= 8)%nat -> (0 < length y <= 8)%nat ->
  v2_contains_bytes wy_ref f (wyed ++ x) = v2_contains_bytes wy_ref f (wyed ++ y) /\ v2_insert_bytes pr wy_ref f (wyed ++ x) = v2_insert_bytes pr wy_ref f (wyed ++ y).
Proof.
  intros Hx Hy.
  assert (E : v2_build_index_iter wy_ref (KSlice (wyed ++ x)) = v2_build_index_iter wy_ref (KSlice (wyed ++ y))).
  { assert (S : forall z, (0 < length z <= 8)%nat -> hash_slice wy_ref (wyed ++ z) = 0).
    { intros z Hz. unfold hash_slice. assert (L : 8 < len (wyed ++ z)) by (unfold len; rewrite app_length; cbn [wyed length]; lia). apply N.ltb_lt in L. rewrite L. now apply wyed_zero. }
    unfold v2_build_index_iter, it_init_with_hashable, hash_pop. now rewrite (S x), (S y). }
  unfold v2_contains_bytes, v2_contains, v2_insert_bytes, v2_insert. now rewrite E.
Qed.
Print Assumptions C97_v2_reference.
(** Two of them, and one that differs in the first eight bytes. *)
Example C97_v2_example : hash_pop wy_ref (KSlice (wyed ++ [1])) = hash_pop wy_ref (KStr (wyed ++ [2; 3])) /\ wyed ++ [1] <> wyed ++ [2; 3] /\
  hash_pop wy_ref (KSlice (20 :: wyed)) <> hash_pop wy_ref (KSlice (wyed ++ [1])).
Proof. repeat split; try discriminate; vm_compute; congruence. Qed.
