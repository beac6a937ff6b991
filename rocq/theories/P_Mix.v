(** Loading a byte string each byte of which comes from a saved filter of the same parameters. *)
From Coq Require Import Lia.
From Verif Require Import M_Live Spec_Bits Spec_Hash Spec_V2 Spec_V2File Spec_V1 Spec_Bloom P_Base P_BitSet P_IO P_Codec P_V1Codec P_V2Codec P_Bloom.
Open Scope N_scope.

Lemma getN_app {A} (a b : list A) i : getN (a ++ b) i = if i <? len a then getN a i else getN b (i - len a).
Proof.
  unfold getN, len. destruct (N.ltb_spec i (N.of_nat (length a))); [rewrite nth_error_app1 by lia; reflexivity|]. rewrite nth_error_app2 by lia. f_equal. lia.
Qed.
Lemma getN_skipn {A} n (l : list A) i : getN (skipn n l) i = getN l (N.of_nat n + i).
Proof. unfold getN. revert l. replace (N.to_nat (N.of_nat n + i)) with (n + N.to_nat i)%nat by lia. induction n as [|n IH]; intros l; [reflexivity|]. destruct l; cbn; [now destruct (N.to_nat i)|apply IH]. Qed.
Lemma getN_firstn {A} n (l : list A) i : i < N.of_nat n -> getN (firstn n l) i = getN l i.
Proof. unfold getN. intro H. assert (G : (N.to_nat i < n)%nat) by lia. clear H. revert l G. generalize (N.to_nat i). induction n as [|n IH]; intros [|k] [|x l] G; cbn; try reflexivity; try lia. apply IH. lia. Qed.
Lemma prefix_same {A} (s t : list A) n : (forall i, i < n -> getN s i = getN t i) -> firstn (N.to_nat n) s = firstn (N.to_nat n) t.
Proof.
  intro H. apply list_ext. intro i. destruct (N.lt_ge_cases i n) as [L|L]; [rewrite !getN_firstn by lia; now apply H|].
  assert (G : forall l : list A, getN (firstn (N.to_nat n) l) i = None) by (intro l; apply getN_None; rewrite len_firstn; lia). now rewrite !G.
Qed.
(** Bits of little-endian words are bits of their bytes. *)
Lemma le_byte n : forall x i, i < N.of_nat n -> getN (le_bytes n x) i = Some ((x / 256 ^ i) mod 256).
Proof.
  induction n as [|n IH]; intros x i H; [lia|]. cbn [le_bytes]. destruct (N.eq_dec i 0) as [->|Z]; [cbn; now rewrite N.div_1_r|].
  replace i with (N.succ (i - 1)) by lia. unfold getN. rewrite N2Nat.inj_succ. cbn [nth_error]. change (nth_error (le_bytes n (x / 256)) (N.to_nat (i - 1))) with (getN (le_bytes n (x / 256)) (i - 1)).
  rewrite IH by lia. rewrite N.pow_succ_r', N.div_div by (try apply N.pow_nonzero; lia). reflexivity.
Qed.
Lemma le_bit x j : x < 2 ^ 64 -> j < 64 -> N.testbit x j = N.testbit ((x / 256 ^ (j / 8)) mod 256) (j mod 8).
Proof.
  intros Hx Hj. change 256 with (2 ^ 8) at 2. rewrite N.mod_pow2_bits_low by (apply N.mod_lt; lia). change 256 with (2 ^ 8). rewrite <- N.pow_mul_r, N.div_pow2_bits. f_equal. rewrite N.add_comm. apply N.div_mod. lia.
Qed.
Lemma words_byte ws : forall i, getN (concat (map (le_bytes 8) ws)) i = match getN ws (i / 8) with Some x => Some ((x / 256 ^ (i mod 8)) mod 256) | None => None end.
Proof.
  induction ws as [|x ws IH]; intro i; [unfold getN; cbn; now destruct (N.to_nat i), (N.to_nat (i / 8))|]. cbn [map concat]. rewrite getN_app. assert (LE : len (le_bytes 8 x) = 8) by reflexivity. rewrite LE.
  destruct (N.ltb_spec i 8) as [H|H].
  - rewrite N.div_small, N.mod_small by exact H. cbn [getN nth_error N.to_nat]. apply le_byte. exact H.
  - rewrite IH. assert (E : i = (i - 8) + 1 * 8) by lia. assert (D : i / 8 = N.succ ((i - 8) / 8)) by (rewrite E at 1; rewrite N.div_add by lia; lia).
    assert (M : i mod 8 = (i - 8) mod 8) by (rewrite E at 1; rewrite N.mod_add by lia; reflexivity). rewrite D, M. unfold getN at 2. rewrite N2Nat.inj_succ. reflexivity.
Qed.
Lemma word_bit ws i : words_ok 64 ws -> bit 64 ws i = match getN (concat (map (le_bytes 8) ws)) (i / 8) with Some b => N.testbit b (i mod 8) | None => false end.
Proof.
  intro W. rewrite bit_getN, words_byte. assert (D : i / 8 / 8 = i / 64) by (rewrite N.div_div by lia; reflexivity). rewrite D. destruct (getN ws (i / 64)) as [x|] eqn:G; [|reflexivity].
  assert (Hx : x < 2 ^ 64) by exact (Forall_getN _ _ _ _ W G). assert (M : i mod 64 < 64) by (apply N.mod_lt; lia). rewrite (le_bit x (i mod 64) Hx M).
  assert (E1 : i mod 64 / 8 = (i / 8) mod 8). { change 64 with (8 * 8). rewrite N.mod_mul_r by lia. rewrite (N.mul_comm 8), N.div_add by lia. rewrite N.div_small by (apply N.mod_lt; lia). reflexivity. }
  assert (E2 : (i mod 64) mod 8 = i mod 8). { change 64 with (8 * 8). rewrite N.mod_mul_r by lia. rewrite (N.mul_comm 8), N.mod_add by lia. apply N.mod_small. apply N.mod_lt. lia. }
  now rewrite E1, E2.
Qed.
Lemma app_split {A} (a b c d : list A) : a ++ b = c ++ d -> length a = length c -> a = c /\ b = d.
Proof. revert c. induction a as [|x a IH]; intros [|y c] E L; try discriminate; [auto|]. injection E as <- E. destruct (IH c E) as [-> ->]; auto. Qed.
Lemma le_inj x y : x < two64 -> y < two64 -> le_bytes 8 x = le_bytes 8 y -> x = y.
Proof.
  intros Hx Hy E. assert (H : le_bytes 8 x = le_bytes 8 x ++ []) by now rewrite app_nil_r. assert (R : forall z, z < two64 -> read_le_u64 (reader_of (le_bytes 8 z)) = Ok (z, advance (reader_of (le_bytes 8 z)) 8)).
  { intros z Hz. apply (read_u64_app (reader_of (le_bytes 8 z)) z []); [exact Hz|]. now rewrite rest_of, app_nil_r. }
  pose proof (R x Hx) as A. pose proof (R y Hy) as B. rewrite E in A. rewrite A in B. now injection B.
Qed.
Lemma getN_prefix {A} (a b : list A) i : i < len a -> getN (a ++ b) i = getN a i.
Proof. intro H. rewrite getN_app. apply N.ltb_lt in H. now rewrite H. Qed.
Lemma getN_suffix {A} (a b : list A) n i : len a = n -> getN (a ++ b) (n + i) = getN b i.
Proof. intro H. rewrite getN_app, H. destruct (N.ltb_spec (n + i) n); [lia|]. f_equal. lia. Qed.
Lemma len_app {A} (a b : list A) : len (a ++ b) = len a + len b.
Proof. unfold len. rewrite app_length. lia. Qed.
Lemma len_le n x : len (le_bytes n x) = N.of_nat n.
Proof. unfold len. f_equal. revert x. induction n; intro x; cbn; auto. Qed.
Lemma len_words ws : len (concat (map (le_bytes 8) ws)) = 8 * len ws.
Proof. induction ws as [|x ws IH]; [reflexivity|]. cbn [map concat]. rewrite len_app, IH, len_le. unfold len. cbn [length]. lia. Qed.

Definition v1_params (f : v1) : list byte := le_bytes 8 (v1_capacity f) ++ le_bytes 8 (v1_fpp f) ++ le_bytes 8 (v1_n_hash f) ++ le_bytes 8 (v1_bit_size f).
Lemma v1_image_split fb f : v1_image fb f = (fb ++ v1_params f) ++ le_bytes 8 (v1_count f) ++ concat (map (le_bytes 8) (v1_bitset f)) ++ v1_data f.
Proof. unfold v1_image, v1_params. now rewrite <- !app_assoc. Qed.
Lemma v1_params_len f : len (v1_params f) = 32.
Proof. unfold v1_params. rewrite !len_app, !len_le. reflexivity. Qed.
Lemma v1_image_byte fb f i : length fb = 8%nat -> getN (v1_image fb f) (48 + i) = getN (concat (map (le_bytes 8) (v1_bitset f)) ++ v1_data f) i.
Proof.
  intro L. rewrite v1_image_split, app_assoc. apply getN_suffix. rewrite !len_app, v1_params_len, len_le. unfold len. rewrite L. reflexivity.
Qed.
Lemma v1_place f fb i : length fb = 8%nat -> words_ok 64 (v1_bitset f) -> i / 8 < 8 * len (v1_bitset f) ->
  exists b, getN (v1_image fb f) (48 + i / 8) = Some b /\ v1_bit f i = N.testbit b (i mod 8).
Proof.
  intros L W H. rewrite v1_image_byte by exact L. rewrite getN_prefix by (rewrite len_words; exact H). unfold v1_bit. rewrite (word_bit _ _ W).
  destruct (getN (concat (map (le_bytes 8) (v1_bitset f))) (i / 8)) as [b|] eqn:E; [eauto|]. apply getN_None in E. rewrite len_words in E. lia.
Qed.
Lemma v1_out f i : 8 * len (v1_bitset f) <= i / 8 -> v1_bit f i = false.
Proof.
  intro H. unfold v1_bit. rewrite bit_getN. replace (getN (v1_bitset f) (i / 64)) with (@None N); [reflexivity|]. symmetry. apply getN_None. change 64 with (8 * 8). rewrite <- N.div_div by lia. apply N.div_le_lower_bound; lia.
Qed.
Lemma mix_v1 pr (F : v1 -> Prop) f0 s h : v1_wf f0 -> (forall f, F f -> v1_wf f /\ v1_same_frame f0 f) -> bytes_ok s ->
  (forall i x, i < 48 + 8 * len (v1_bitset f0) -> getN s i = Some x -> exists f, F f /\ getN (v1_write f) i = Some x) ->
  v1_from_reader pr s = Ok h -> v1_same_frame (v1_canon f0) h /\ forall j, exists f, F f /\ v1_bit h j = v1_bit f j.
Proof.
  intros W0 HF B M LD. pose proof (v1_load_sound _ _ _ B LD) as I. set (fb := fl_version (v1_flags h) :: opt_to_u8 (fl_opt (v1_flags h)) :: fl_reserved (v1_flags h)) in *.
  assert (Lfb : length fb = 8%nat) by (unfold fb; cbn [length]; now rewrite (f1_reserved _ _ I)). pose proof (f1_bytes _ _ I) as E. fold fb in E.
  assert (Ls : 48 + 8 * len (v1_bitset h) <= len s). { rewrite E, v1_image_split, !len_app, v1_params_len, len_le, len_words. unfold len at 2. rewrite Lfb. lia. }
  set (P0 := [1;0;0;0;0;0;0;0] ++ v1_params f0). assert (LP0 : len P0 = 40) by (unfold P0; rewrite len_app, v1_params_len; reflexivity).
  assert (PF : forall f, F f -> v1_params f = v1_params f0). { intros f Ff. destruct (proj2 (HF f Ff)) as (_ & E1 & E2 & E3 & E4 & _). unfold v1_params. now rewrite E1, E2, E3, E4. }
  assert (HD : firstn 40 s = P0).
  { transitivity (firstn (N.to_nat 40) (P0 ++ [])). 2: { rewrite app_nil_r. apply firstn_all2. unfold len in LP0. lia. } apply (prefix_same s (P0 ++ []) 40). intros i Hi. destruct (proj1 (getN_Some s i) ltac:(lia)) as (x & Ex). rewrite Ex. destruct (M i x ltac:(lia) Ex) as (f & Ff & Ef).
    rewrite app_nil_r, <- Ef, v1_write_image, v1_image_split, (PF f Ff). apply getN_prefix. fold P0. lia. }
  rewrite E, v1_image_split in HD. rewrite firstn_app, firstn_all2 in HD. 2: { pose proof (v1_params_len h) as Q. unfold len in Q. rewrite app_length. lia. }
  replace (40 - length (fb ++ v1_params h))%nat with 0%nat in HD. 2: { pose proof (v1_params_len h) as Q. unfold len in Q. rewrite app_length. lia. }
  cbn [firstn] in HD. rewrite app_nil_r in HD. unfold P0 in HD. apply app_split in HD as [EF EP]; [|exact Lfb]. unfold v1_params in EP.
  apply app_split in EP as [E1 EP]; [|reflexivity]. apply app_split in EP as [E2 EP]; [|reflexivity]. apply app_split in EP as [E3 E4]; [|reflexivity].
  apply le_inj in E1; [|exact (f1_capacity _ _ I)|exact (w1_capacity _ W0)]. apply le_inj in E2; [|exact (f1_fpp _ _ I)|exact (w1_fpp _ W0)].
  apply le_inj in E3; [|exact (f1_n_hash _ _ I)|exact (w1_n_hash _ W0)]. apply le_inj in E4; [|exact (f1_bit_size _ _ I)|exact (w1_bit_size _ W0)].
  assert (Lb : len (v1_bitset h) = len (v1_bitset f0)) by now rewrite (f1_len _ _ I), (w1_len _ W0), E4.
  split.
  - unfold v1_same_frame, v1_canon. cbn. split; [|split; [exact E1|split; [exact E2|split; [exact E3|split; [exact E4|split; [|exact Lb]]]]]].
    + injection EF as V O R. destruct (v1_flags h) as [v o rs]. cbn in *. subst. change 0 with (opt_to_u8 ONone) in O. apply opt_to_u8_inj in O. now subst.
    + now rewrite (f1_fp _ _ I), (w1_fp _ W0), E3, E4.
  - intro j. destruct (N.lt_ge_cases (j / 8) (8 * len (v1_bitset h))) as [H|H].
    + destruct (v1_place h fb j Lfb (f1_bits _ _ I) H) as (b & Eb & Bh). rewrite <- E in Eb. assert (Hj : 48 + j / 8 < 48 + 8 * len (v1_bitset f0)) by (clear - H Lb; lia). destruct (M _ b Hj Eb) as (f & Ff & Ef). exists f. split; [exact Ff|]. destruct (HF f Ff) as [Wf Fr]. assert (Lf : len (v1_bitset f) = len (v1_bitset f0)) by apply Fr.
      destruct (v1_place f [1;0;0;0;0;0;0;0] j eq_refl (w1_bits _ Wf) ltac:(clear - H Lb Lf; lia)) as (b' & Eb' & Bf). rewrite <- v1_write_image, Ef in Eb'. injection Eb' as <-. now rewrite Bh, Bf.
    + destruct (proj1 (getN_Some s 0) ltac:(lia)) as (x & Ex). destruct (M 0 x ltac:(lia) Ex) as (f & Ff & _). exists f. split; [exact Ff|]. assert (Lf : len (v1_bitset f) = len (v1_bitset f0)) by apply (HF f Ff). rewrite !v1_out by (clear - H Lb Lf; lia). reflexivity.
Qed.

Lemma getN_concat n (l : list (list N)) : Forall (fun b => length b = N.to_nat n) l -> forall k i bk, getN l k = Some bk -> i < n -> getN (concat l) (n * k + i) = getN bk i.
Proof.
  induction 1 as [|b l Hb Hl IH]; intros k i bk G Hi; [unfold getN in G; now destruct (N.to_nat k)|]. cbn [concat]. assert (Lb : len b = n) by (unfold len; lia).
  destruct (N.eq_dec k 0) as [->|Z].
  - cbn in G. injection G as ->. rewrite N.mul_0_r. cbn [N.add]. rewrite getN_prefix by (clear - Lb Hi; lia). reflexivity.
  - assert (G' : getN l (k - 1) = Some bk) by (replace k with (N.succ (k - 1)) in G by lia; unfold getN in G; rewrite N2Nat.inj_succ in G; exact G).
    replace (n * k + i) with (n + (n * (k - 1) + i)) by (clear - Z; nia). rewrite (getN_suffix b _ n _ Lb). now apply IH.
Qed.
Definition v2_params (f : v2) : list byte := le_bytes 8 (v2_capacity f) ++ le_bytes 8 (v2_fpp f) ++ le_bytes 8 (v2_n_hash_buck f).
Lemma v2_params_len f : len (v2_params f) = 24.
Proof. unfold v2_params. rewrite !len_app, !len_le. reflexivity. Qed.
Lemma v2_image_split fb f cb : v2_image fb f cb = (fb ++ v2_params f) ++ le_bytes 8 (v2_count f) ++ le_bytes 8 cb ++ v2_index_cache f ++ le_bytes 8 (len (v2_buckets f)) ++ concat (v2_buckets f) ++ v2_data f.
Proof. unfold v2_image, v2_head, v2_params. now rewrite <- !app_assoc. Qed.
(** Where the parts are. *)
Lemma v2_at_cb fb f cb i : length fb = 8%nat -> i < 8 -> getN (v2_image fb f cb) (40 + i) = getN (le_bytes 8 cb) i.
Proof.
  intros L Hi. rewrite v2_image_split, app_assoc. rewrite (getN_suffix _ _ 40). 2: { rewrite !len_app, v2_params_len, len_le. unfold len. rewrite L. reflexivity. } apply getN_prefix. rewrite len_le. exact Hi.
Qed.
Lemma v2_at_cache fb f cb i : length fb = 8%nat -> i < len (v2_index_cache f) -> getN (v2_image fb f cb) (48 + i) = getN (v2_index_cache f) i.
Proof.
  intros L Hi. rewrite v2_image_split, 2!app_assoc. rewrite (getN_suffix _ _ 48). 2: { rewrite !len_app, v2_params_len, !len_le. unfold len. rewrite L. reflexivity. } apply getN_prefix. exact Hi.
Qed.
Lemma v2_at_nb fb f cb c i : length fb = 8%nat -> len (v2_index_cache f) = c -> i < 8 -> getN (v2_image fb f cb) (48 + c + i) = getN (le_bytes 8 (len (v2_buckets f))) i.
Proof.
  intros L Hc Hi. rewrite v2_image_split, 3!app_assoc. rewrite (getN_suffix _ _ (48 + c)). 2: { rewrite !len_app, v2_params_len, !len_le, Hc. unfold len. rewrite L. lia. } apply getN_prefix. rewrite len_le. exact Hi.
Qed.
Lemma v2_at_bucket fb f cb c k i bk : length fb = 8%nat -> len (v2_index_cache f) = c -> Forall (fun b => length b = N.to_nat 4096) (v2_buckets f) -> getN (v2_buckets f) k = Some bk -> i < 4096 ->
  getN (v2_image fb f cb) (56 + c + (4096 * k + i)) = getN bk i.
Proof.
  intros L Hc HB G Hi. rewrite v2_image_split, 4!app_assoc. rewrite (getN_suffix _ _ (56 + c)). 2: { rewrite !len_app, v2_params_len, !len_le, Hc. unfold len. rewrite L. lia. }
  rewrite getN_prefix. { exact (getN_concat 4096 _ HB k i bk G Hi). } rewrite (len_concat_fixed 4096 _ HB). apply getN_lt in G. clear - G Hi. nia.
Qed.
Lemma bit8 l i : bit 8 l i = match getN l (i / 8) with Some b => N.testbit b (i mod 8) | None => false end.
Proof. apply bit_getN. Qed.
Lemma mix_v2 pr (F : v2 -> Prop) f0 s h : v2_wf f0 -> (forall f, F f -> v2_wf f /\ v2_same_frame f0 f) -> bytes_ok s ->
  (forall i x, i < 56 + len (v2_index_cache f0) + 4096 * len (v2_buckets f0) -> getN s i = Some x -> exists f, F f /\ getN (v2_write f) i = Some x) ->
  v2_from_reader pr s = Ok h -> v2_same_frame (v2_canon f0) h /\ (forall k j, exists f, F f /\ v2_bit h k j = v2_bit f k j) /\ (forall j, exists f, F f /\ v2_cbit h j = v2_cbit f j).
Proof.
  intros W0 HF B M LD. destruct (v2_load_sound _ _ _ B LD) as (cb & I). set (fb := fl_version (v2_flags h) :: opt_to_u8 (fl_opt (v2_flags h)) :: fl_reserved (v2_flags h)) in *.
  assert (Lfb : length fb = 8%nat) by (unfold fb; cbn [length]; now rewrite (vf_reserved _ _ _ I)). pose proof (vf_bytes _ _ _ I) as E. fold fb in E.
  assert (Ls : 56 + len (v2_index_cache h) + 4096 * len (v2_buckets h) <= len s).
  { rewrite E, v2_image_split, !len_app, v2_params_len, !len_le, (len_concat_fixed 4096 _ (vf_buckets _ _ _ I)). unfold len at 3. rewrite Lfb. lia. }
  assert (WL : forall f, length (v2_flag_out f) = 8%nat) by reflexivity.
  assert (FO : forall f, F f -> v2_flag_out f = v2_flag_out f0). { intros f Ff. destruct (proj2 (HF f Ff)) as (E1 & _). unfold v2_flag_out. now rewrite E1. }
  set (P0 := v2_flag_out f0 ++ v2_params f0). assert (LP0 : len P0 = 32) by (unfold P0; rewrite len_app, v2_params_len; reflexivity).
  assert (PF : forall f, F f -> v2_params f = v2_params f0). { intros f Ff. destruct (proj2 (HF f Ff)) as (_ & _ & _ & E1 & E2 & E3 & _). unfold v2_params. now rewrite E1, E2, E3. }
  assert (SG : forall i, i < 56 -> i < len s -> exists f, F f /\ getN s i = getN (v2_write f) i).
  { intros i Hi Hs. destruct (proj1 (getN_Some s i) Hs) as (x & Ex). destruct (M i x ltac:(clear - Hi; lia) Ex) as (f & Ff & Ef). exists f. split; [exact Ff|congruence]. }
  assert (HD : firstn (N.to_nat 32) s = P0).
  { transitivity (firstn (N.to_nat 32) P0). 2: { apply firstn_all2. unfold len in LP0. lia. } apply prefix_same. intros i Hi. destruct (SG i ltac:(clear - Hi; lia) ltac:(clear - Hi Ls; lia)) as (f & Ff & ->).
    rewrite v2_write_image, v2_image_split, (PF f Ff), (FO f Ff). apply getN_prefix. fold P0. lia. }
  rewrite E, v2_image_split in HD. pose proof (v2_params_len h) as Q. unfold len in Q. rewrite firstn_app, firstn_all2 in HD by (rewrite app_length; lia).
  replace (N.to_nat 32 - length (fb ++ v2_params h))%nat with 0%nat in HD by (rewrite app_length; lia).
  cbn [firstn] in HD. rewrite app_nil_r in HD. unfold P0 in HD. apply app_split in HD as [EF EP]; [|now rewrite Lfb, WL]. unfold v2_params in EP.
  apply app_split in EP as [E1 EP]; [|reflexivity]. apply app_split in EP as [E2 E3]; [|reflexivity].
  apply le_inj in E1; [|exact (vf_capacity _ _ _ I)|exact (wf_capacity _ W0)]. apply le_inj in E2; [|exact (vf_fpp _ _ _ I)|exact (wf_fpp _ W0)]. apply le_inj in E3; [|exact (vf_n_hash _ _ _ I)|exact (wf_n_hash _ W0)].
  assert (FC : forall f, F f -> len (v2_index_cache f) = len (v2_index_cache f0)) by (intros f Ff; apply (HF f Ff)).
  assert (FB : forall f, F f -> len (v2_buckets f) = len (v2_buckets f0)) by (intros f Ff; apply (HF f Ff)).
  assert (Ecb : cb = 8 * len (v2_index_cache f0)).
  { apply le_inj; [exact (vf_cache_bits _ _ _ I)|exact (wf_cache_len _ W0)|]. apply list_ext. intro i. destruct (N.lt_ge_cases i 8) as [Hi|Hi].
    - rewrite <- (v2_at_cb fb h cb i Lfb Hi), <- E. destruct (SG (40 + i) ltac:(clear - Hi; lia) ltac:(clear - Hi Ls; lia)) as (f & Ff & ->). rewrite v2_write_image, (v2_at_cb _ f _ i (WL f) Hi). now rewrite (FC f Ff).
    - assert (N0 : forall x, getN (le_bytes 8 x) i = None) by (intro x; apply getN_None; rewrite len_le; exact Hi). now rewrite !N0. }
  assert (Lc : len (v2_index_cache h) = len (v2_index_cache f0)) by (rewrite (vf_cache _ _ _ I), Ecb; apply (wf_cache_cap _ W0)).
  set (c := len (v2_index_cache f0)) in *.
  assert (Lb : len (v2_buckets h) = len (v2_buckets f0)).
  { assert (Sm : forall n, n * 4096 <= isize_max -> n < two64) by (intros n; unfold isize_max, two64; lia). apply le_inj; [exact (Sm _ (vf_buckets_len _ _ _ I))|exact (Sm _ (wf_buckets_len _ W0))|]. apply list_ext. intro i. destruct (N.lt_ge_cases i 8) as [Hi|Hi].
    - rewrite <- (v2_at_nb fb h cb c i Lfb Lc Hi), <- E. destruct (proj1 (getN_Some s (48 + c + i)) ltac:(clear - Hi Ls Lc; lia)) as (x & Ex). assert (Hp : 48 + c + i < 56 + c + 4096 * len (v2_buckets f0)) by (clear - Hi; lia). destruct (M _ x Hp Ex) as (f & Ff & Ef).
      rewrite Ex, <- Ef, v2_write_image, (v2_at_nb _ f _ c i (WL f) (FC f Ff) Hi). now rewrite (FB f Ff).
    - assert (N0 : forall x, getN (le_bytes 8 x) i = None) by (intro x; apply getN_None; rewrite len_le; exact Hi). now rewrite !N0. }
  assert (SOME : exists f, F f) by (destruct (SG 0 eq_refl ltac:(clear - Ls; lia)) as (f & Ff & _); eauto).
  assert (WB : forall f, F f -> Forall (fun b => length b = N.to_nat 4096) (v2_buckets f)). { intros f Ff. eapply Forall_impl; [|exact (wf_buckets _ (proj1 (HF f Ff)))]. now intros b []. }
  split; [|split].
  - unfold v2_same_frame, v2_canon. cbn. split; [|split; [|split; [|split; [exact E1|split; [exact E2|split; [exact E3|split; [exact Lb|exact Lc]]]]]]].
    + unfold v2_flag_out in EF. injection EF as V O R. destruct (v2_flags h) as [v o rs]. cbn in *. apply opt_to_u8_inj in O. now subst.
    + now rewrite (vf_n_buckets _ _ _ I), (wf_n_buckets _ W0).
    + now rewrite (vf_cache_size _ _ _ I), (wf_cache_size _ W0).
  - intros k j. destruct (N.lt_ge_cases k (len (v2_buckets h))) as [Hk|Hk]; [destruct (N.lt_ge_cases (j / 8) 4096) as [Hj|Hj]|].
    + destruct (proj1 (getN_Some _ _) Hk) as (bk & Gk). pose proof (v2_at_bucket fb h cb c k (j / 8) bk Lfb Lc (vf_buckets _ _ _ I) Gk Hj) as A. rewrite <- E in A.
      assert (Lbk : len bk = 4096) by (pose proof (Forall_getN _ _ _ _ (vf_buckets _ _ _ I) Gk) as Z; cbn in Z; unfold len; lia). destruct (proj1 (getN_Some bk (j / 8)) ltac:(clear - Lbk Hj; lia)) as (x & Ex). rewrite Ex in A.
      assert (Hp : 56 + c + (4096 * k + j / 8) < 56 + c + 4096 * len (v2_buckets f0)) by (clear - Hk Hj Lb; nia). destruct (M _ x Hp A) as (f & Ff & Ef). exists f. split; [exact Ff|].
      destruct (proj1 (getN_Some (v2_buckets f) k) ltac:(rewrite (FB f Ff); clear - Hk Lb; lia)) as (bf & Gf). rewrite v2_write_image, (v2_at_bucket _ f _ c k (j / 8) bf (WL f) (FC f Ff) (WB f Ff) Gf Hj) in Ef.
      unfold v2_bit. rewrite Gk, Gf, !bit8, Ex, Ef. reflexivity.
    + destruct SOME as (f & Ff). exists f. split; [exact Ff|]. assert (Z : forall g, Forall (fun b => length b = N.to_nat 4096) (v2_buckets g) -> v2_bit g k j = false).
      { intros g Wg. unfold v2_bit. destruct (getN (v2_buckets g) k) as [bk|] eqn:G; [|reflexivity]. pose proof (Forall_getN _ _ _ _ Wg G) as Z. cbn in Z. rewrite bit8. replace (getN bk (j / 8)) with (@None N); [reflexivity|]. symmetry. apply getN_None. unfold len. lia. }
      rewrite (Z h (vf_buckets _ _ _ I)), (Z f (WB f Ff)). reflexivity.
    + destruct SOME as (f & Ff). exists f. split; [exact Ff|]. unfold v2_bit. rewrite (proj2 (getN_None (v2_buckets h) k) Hk), (proj2 (getN_None (v2_buckets f) k)) by (rewrite (FB f Ff); clear - Hk Lb; lia). reflexivity.
  - intro j. destruct (N.lt_ge_cases (j / 8) c) as [Hj|Hj].
    + pose proof (v2_at_cache fb h cb (j / 8) Lfb ltac:(clear - Hj Lc; lia)) as A. rewrite <- E in A. destruct (proj1 (getN_Some (v2_index_cache h) (j / 8)) ltac:(clear - Hj Lc; lia)) as (x & Ex). rewrite Ex in A.
      assert (Hp : 48 + j / 8 < 56 + c + 4096 * len (v2_buckets f0)) by (clear - Hj; lia). destruct (M _ x Hp A) as (f & Ff & Ef). exists f. split; [exact Ff|].
      rewrite v2_write_image, (v2_at_cache _ f _ (j / 8) (WL f)) in Ef by (rewrite (FC f Ff); exact Hj). unfold v2_cbit. rewrite !bit8, Ex, Ef. reflexivity.
    + destruct SOME as (f & Ff). exists f. split; [exact Ff|]. unfold v2_cbit. rewrite !bit8, (proj2 (getN_None (v2_index_cache h) (j / 8))), (proj2 (getN_None (v2_index_cache f) (j / 8))) by (rewrite ?(FC f Ff); clear - Hj Lc; lia). reflexivity.
Qed.

(** The same for the filter that dispatches on the version. *)
Definition bf_core (f : bloom) : N := match f with V1 f => 48 + 8 * len (v1_bitset f) | V2 f => 56 + len (v2_index_cache f) + 4096 * len (v2_buckets f) end.
Definition bf_canon (f : bloom) : bloom := match f with V1 f => V1 (v1_canon f) | V2 f => V2 (v2_canon f) end.
Lemma bf_canon_wf f : bf_wf f -> bf_wf (bf_canon f).
Proof. intro W. destruct f as [f|f]; cbn in *; [now apply v1_canon_wf|]. destruct W. constructor; cbn; auto. split; [reflexivity|repeat (constructor; [reflexivity|]); constructor]. Qed.
Lemma bf_canon_spot f s : bf_spot (bf_canon f) s = bf_spot f s.
Proof. now destruct f, s. Qed.
Lemma bf_canon_write f : bf_write (bf_canon f) = bf_write f.
Proof. destruct f as [f|f]; cbn [bf_canon]; [change (v1_write (v1_canon f) = v1_write f); now rewrite !v1_write_image|change (v2_write (v2_canon f) = v2_write f); now rewrite !v2_write_image]. Qed.
Lemma bf_canon_twice f : bf_canon (bf_canon f) = bf_canon f.
Proof. destruct f; reflexivity. Qed.
Lemma bf_canon_core f : bf_core (bf_canon f) = bf_core f.
Proof. destruct f; reflexivity. Qed.
Lemma bf_canon_data f : bf_data (bf_canon f) = bf_data f.
Proof. destruct f; reflexivity. Qed.
Lemma bf_canon_capacity f : bf_capacity (bf_canon f) = bf_capacity f.
Proof. destruct f; reflexivity. Qed.
Lemma bf_canon_frame f g : bf_same_frame f g -> bf_same_frame (bf_canon f) (bf_canon g).
Proof. destruct f, g; cbn; try easy; unfold v1_same_frame, v2_same_frame; cbn; intuition. now rewrite H0. Qed.
Lemma bf_frame_core f g : bf_same_frame f g -> bf_core g = bf_core f.
Proof. destruct f, g; cbn [bf_same_frame bf_core]; try easy; [intros (_ & _ & _ & _ & _ & _ & ->)|intros (_ & _ & _ & _ & _ & _ & -> & ->)]; reflexivity. Qed.
Lemma bf_write_len f : bf_wf f -> len (bf_write f) = bf_core f + len (bf_data f).
Proof. destruct f as [f|f]; cbn; intro W; [apply v1_write_len|now apply write_len]. Qed.
Lemma bf_write_bytes f : bf_wf f -> bytes_ok (bf_write f).
Proof. destruct f as [f|f]; cbn; [apply v1_write_bytes|apply write_bytes]. Qed.
Lemma bf_write_0 f : bf_wf f -> getN (bf_write f) 0 = Some (bf_version f).
Proof. destruct f as [f|f]; cbn [bf_wf bf_version]; intro W; [change (bf_write (V1 f)) with (v1_write f); now rewrite v1_write_image|change (bf_write (V2 f)) with (v2_write f); rewrite v2_write_image; cbn; f_equal; apply (wf_version _ W)]. Qed.
Lemma bf_roundtrip pr f : bf_wf f -> bf_from_reader pr (bf_write f) = Ok (bf_canon f).
Proof.
  intro W. unfold bf_from_reader. rewrite bf_reader_cases. destruct f as [f|f]; cbn in W.
  - change (bf_write (V1 f)) with (v1_write f). change (v1_from_reader_partial pr (v1_write f) false) with (v1_from_reader pr (v1_write f)). now rewrite v1_roundtrip.
  - change (bf_write (V2 f)) with (v2_write f). change (v2_from_reader_partial pr (v2_write f) false) with (v2_from_reader pr (v2_write f)). rewrite (v2_roundtrip pr f W).
    unfold v1_from_reader_partial. destruct (read_flags_app (reader_of (v2_write f)) (v2_flags (v2_canon f)) (skipn 8 (v2_write f))) as [-> _]; [reflexivity| |].
    + rewrite rest_of, v2_write_image. unfold v2_image, v2_flag_out, flag_bytes, v2_canon. cbn [v2_flags fl_version fl_opt fl_reserved app skipn]. reflexivity.
    + cbn [obind fst snd v2_canon v2_flags fl_version]. rewrite (wf_version _ W). reflexivity.
Qed.
(** Which loader: the first byte decides. *)
Lemma bf_load_v1 pr s h : bf_from_reader pr s = Ok (V1 h) -> v1_from_reader pr s = Ok h.
Proof.
  unfold bf_from_reader. rewrite bf_reader_cases. change (v1_from_reader_partial pr s false) with (v1_from_reader pr s). destruct (v1_from_reader pr s) as [f|e|]; [intro E; injection E as ->; reflexivity| |discriminate].
  destruct e; try discriminate. destruct (_ =? _); [|discriminate]. destruct (v2_from_reader_partial pr s false); discriminate.
Qed.
Lemma bf_load_v2 pr s h : bf_from_reader pr s = Ok (V2 h) -> v2_from_reader pr s = Ok h.
Proof.
  unfold bf_from_reader. rewrite bf_reader_cases. destruct (v1_from_reader_partial pr s false) as [f|e|]; [discriminate| |discriminate].
  destruct e; try discriminate. destruct (_ =? _); [|discriminate]. change (v2_from_reader_partial pr s false) with (v2_from_reader pr s). destruct (v2_from_reader pr s); try discriminate. intro E. now injection E as ->.
Qed.
Lemma bf_load_version pr s h : bytes_ok s -> bf_from_reader pr s = Ok h -> getN s 0 = Some (bf_version h).
Proof.
  intros B E. destruct h as [h|h]; cbn [bf_version].
  - apply bf_load_v1 in E. apply v1_load_sound in E; [|exact B]. rewrite (f1_bytes _ _ E). cbn. f_equal. apply (f1_version _ _ E).
  - apply bf_load_v2 in E. apply v2_load_sound in E as (cb & E); [|exact B]. rewrite (vf_bytes _ _ _ E). cbn. f_equal. apply (vf_version _ _ _ E).
Qed.
Lemma bf_load_size pr s h : bytes_ok s -> bf_from_reader pr s = Ok h -> len s = bf_core h + len (bf_data h).
Proof.
  intros B E. destruct h as [h|h]; cbn [bf_core bf_data].
  - apply bf_load_v1 in E. apply v1_load_sound in E; [|exact B]. rewrite (f1_bytes _ _ E), v1_image_split, !len_app, v1_params_len, len_le, len_words. unfold len at 1. cbn [length]. rewrite (f1_reserved _ _ E). lia.
  - apply bf_load_v2 in E. apply v2_load_sound in E as (cb & E); [|exact B]. rewrite (vf_bytes _ _ _ E), v2_image_split, !len_app, v2_params_len, !len_le, (len_concat_fixed 4096 _ (vf_buckets _ _ _ E)). unfold len at 1. cbn [length]. rewrite (vf_reserved _ _ _ E). lia.
Qed.
Theorem mix_load pr (F : bloom -> Prop) f0 s h : bf_wf f0 -> (forall f, F f -> bf_wf f /\ bf_same_frame f0 f) -> bytes_ok s ->
  (forall i x, i < bf_core f0 -> getN s i = Some x -> exists f, F f /\ getN (bf_write f) i = Some x) ->
  bf_from_reader pr s = Ok h -> bf_same_frame (bf_canon f0) h /\ forall p, exists f, F f /\ bf_spot h p = bf_spot f p.
Proof.
  intros W0 HF B M LD. pose proof (bf_load_version _ _ _ B LD) as V. assert (P0 : 0 < bf_core f0) by (clear; destruct f0; unfold bf_core; lia). destruct (M 0 _ P0 V) as (f1 & F1 & E1). rewrite (bf_write_0 _ (proj1 (HF f1 F1))) in E1. injection E1 as E1.
  pose proof (proj2 (HF f1 F1)) as Fr. destruct f0 as [f0|f0].
  - destruct f1 as [f1|]; [|destruct Fr]. destruct h as [h|h]; [|discriminate E1]. apply bf_load_v1 in LD.
    destruct (mix_v1 pr (fun f => F (V1 f)) f0 s h W0) as [A C]; [intros f Ff; exact (HF _ Ff)|exact B| |exact LD|].
    + intros i x Hi Ex. destruct (M i x Hi Ex) as (f & Ff & Ef). destruct f as [f|f]; [eauto|destruct (proj2 (HF _ Ff))].
    + split; [exact A|]. intros [b i|i]; [|exists (V1 f1); auto]. destruct (C i) as (f & Ff & Ef). exists (V1 f). split; [exact Ff|]. cbn. now rewrite Ef.
  - destruct f1 as [|f1]; [destruct Fr|]. destruct h as [h|h]; [discriminate E1|]. apply bf_load_v2 in LD.
    destruct (mix_v2 pr (fun f => F (V2 f)) f0 s h W0) as (A & C & D); [intros f Ff; exact (HF _ Ff)|exact B| |exact LD|].
    + intros i x Hi Ex. destruct (M i x Hi Ex) as (f & Ff & Ef). destruct f as [f|f]; [destruct (proj2 (HF _ Ff))|eauto].
    + split; [exact A|]. intros [b i|i]; [destruct (C b i) as (f & Ff & Ef)|destruct (D i) as (f & Ff & Ef)]; exists (V2 f); auto.
Qed.
(** Any byte string that is long enough and has the parameters of such filters is a saved filter. *)
Lemma cut {A} n (l : list A) : n <= len l -> exists a b, l = a ++ b /\ len a = n.
Proof. intro H. exists (firstn (N.to_nat n) l), (skipn (N.to_nat n) l). split; [now rewrite firstn_skipn|]. rewrite len_firstn. lia. Qed.
Lemma bytes_words n : forall l, bytes_ok l -> length l = (8 * n)%nat -> exists ws, words_ok 64 ws /\ length ws = n /\ concat (map (le_bytes 8) ws) = l.
Proof.
  induction n as [|n IH]; intros l B E; [exists []; destruct l; [repeat split; constructor|discriminate]|].
  destruct (IH (skipn 8 l)) as (ws & W & L & C); [rewrite <- (firstn_skipn 8 l) in B; now apply Forall_app in B as [_ B]|rewrite skipn_length; lia|]. assert (B8 : bytes_ok (firstn 8 l)) by (rewrite <- (firstn_skipn 8 l) in B; now apply Forall_app in B as [B _]).
  assert (L8 : length (firstn 8 l) = 8%nat) by (rewrite firstn_length; lia). exists (of_le (firstn 8 l) :: ws). split; [constructor; [exact (of_le8_lt _ B8 L8)|exact W]|]. split; [cbn; lia|]. cbn [map concat]. rewrite C. rewrite <- L8 at 1. rewrite le_bytes_of_le by exact B8. apply firstn_skipn.
Qed.
Lemma bytes_chunks k n : forall l, bytes_ok l -> length l = (k * n)%nat -> exists bs, Forall (fun b => length b = k /\ words_ok 8 b) bs /\ length bs = n /\ concat bs = l.
Proof.
  induction n as [|n IH]; intros l B E; [exists []; destruct l; [repeat split; constructor|cbn in E; lia]|].
  pose proof B as B'. rewrite <- (firstn_skipn k l) in B'. apply Forall_app in B' as [B1 B2]. destruct (IH (skipn k l) B2) as (bs & W & L & C); [rewrite skipn_length; lia|].
  exists (firstn k l :: bs). split; [constructor; [split; [rewrite firstn_length; lia|exact B1]|exact W]|]. split; [cbn; lia|]. cbn [concat]. rewrite C. apply firstn_skipn.
Qed.
Lemma same_bytes {A} (a b : list A) n : len a = n -> len b = n -> (forall i, i < n -> getN a i = getN b i) -> a = b.
Proof.
  intros La Lb H. apply list_ext. intro i. destruct (N.lt_ge_cases i n) as [Hi|Hi]; [now apply H|]. assert (N1 : getN a i = None) by (apply getN_None; lia). assert (N2 : getN b i = None) by (apply getN_None; lia). now rewrite N1, N2.
Qed.
Lemma total_v1 (F : v1 -> Prop) f0 s : v1_wf f0 -> (forall f, F f -> v1_wf f /\ v1_same_frame f0 f) -> bytes_ok s ->
  (forall i, i < 48 + 8 * len (v1_bitset f0) -> exists x f, getN s i = Some x /\ F f /\ getN (v1_write f) i = Some x) -> exists h, v1_wf h /\ v1_write h = s.
Proof.
  intros W HF B M. set (n := len (v1_bitset f0)) in *. assert (Ls : 48 + 8 * n <= len s). { destruct (M (48 + 8 * n - 1) ltac:(lia)) as (x & _ & E & _). apply getN_lt in E. lia. }
  destruct (cut 40 s ltac:(lia)) as (hd & t & -> & Lh). rewrite len_app in Ls. destruct (cut 8 t ltac:(lia)) as (ct & t' & -> & Lc). rewrite len_app in Ls. destruct (cut (8 * n) t' ltac:(lia)) as (bt & dt & -> & Lb).
  apply Forall_app in B as [_ B]. apply Forall_app in B as [Bc B]. apply Forall_app in B as [Bb Bd].
  destruct (bytes_words (N.to_nat n) bt Bb) as (ws & Ww & Lw & Cw); [unfold len in Lb; lia|].
  assert (PF : forall f, F f -> v1_params f = v1_params f0). { intros f Ff. destruct (proj2 (HF f Ff)) as (_ & E1 & E2 & E3 & E4 & _). unfold v1_params. now rewrite E1, E2, E3, E4. }
  assert (HD : hd = [1;0;0;0;0;0;0;0] ++ v1_params f0).
  { apply (same_bytes _ _ 40); [exact Lh|rewrite len_app, v1_params_len; reflexivity|]. intros i Hi. destruct (M i ltac:(lia)) as (x & f & E & Ff & Ef). rewrite getN_prefix in E by lia. rewrite E, <- Ef, v1_write_image, v1_image_split, (PF f Ff).
    apply getN_prefix. rewrite len_app, v1_params_len. unfold len at 1; cbn [length]; lia. }
  exists {| v1_flags := flags_new 1; v1_bitset := ws; v1_capacity := v1_capacity f0; v1_fpp := v1_fpp f0; v1_n_hash := v1_n_hash f0; v1_bit_size := v1_bit_size f0; v1_count := of_le ct; v1_data := dt; v1_fp := v1_fp f0 |}.
  assert (L8 : length ct = 8%nat) by (unfold len in Lc; lia). split.
  - destruct W as [Z1 Z2 Z3 Z4 Z5 Z6 Z7 Z8 Z9 Z10 Z11]. constructor; cbn; auto.
    + split; [reflexivity|]. repeat constructor.
    + exact (of_le8_lt _ Bc L8).
    + rewrite <- Z9. fold n. unfold len. rewrite Lw. lia.
  - rewrite v1_write_image, v1_image_split, HD. unfold v1_params. cbn [v1_flags v1_bitset v1_capacity v1_fpp v1_n_hash v1_bit_size v1_count v1_data]. rewrite Cw. rewrite <- L8 at 5. rewrite le_bytes_of_le by exact Bc. now rewrite <- !app_assoc.
Qed.
Lemma total_v2 (F : v2 -> Prop) f0 s : v2_wf f0 -> (forall f, F f -> v2_wf f /\ v2_same_frame f0 f) -> bytes_ok s ->
  (forall i, i < 56 + len (v2_index_cache f0) + 4096 * len (v2_buckets f0) -> exists x f, getN s i = Some x /\ F f /\ getN (v2_write f) i = Some x) -> exists h, v2_wf h /\ v2_write h = s.
Proof.
  intros W HF B M. set (c := len (v2_index_cache f0)) in *. set (n := len (v2_buckets f0)) in *. assert (Ls : 56 + c + 4096 * n <= len s). { destruct (M (56 + c + 4096 * n - 1) ltac:(lia)) as (x & _ & E & _). apply getN_lt in E. lia. }
  destruct (cut 32 s ltac:(lia)) as (hd & t & -> & Lh). rewrite len_app in Ls. destruct (cut 8 t ltac:(lia)) as (ct & t' & -> & Lc). rewrite len_app in Ls. destruct (cut 8 t' ltac:(lia)) as (cb & t'' & -> & Lcb). rewrite len_app in Ls.
  destruct (cut c t'' ltac:(lia)) as (ic & t3 & -> & Lic). rewrite len_app in Ls. destruct (cut 8 t3 ltac:(lia)) as (nb & t4 & -> & Lnb). rewrite len_app in Ls. destruct (cut (4096 * n) t4 ltac:(lia)) as (bt & dt & -> & Lb).
  apply Forall_app in B as [_ B]. apply Forall_app in B as [Bc B]. apply Forall_app in B as [_ B]. apply Forall_app in B as [Bic B]. apply Forall_app in B as [_ B]. apply Forall_app in B as [Bb Bd].
  destruct (bytes_chunks (N.to_nat 4096) (N.to_nat n) bt Bb) as (bs & Wb & Lbs & Cb); [unfold len in Lb; lia|].
  assert (WL : forall f, length (v2_flag_out f) = 8%nat) by reflexivity.
  assert (FO : forall f, F f -> v2_flag_out f = v2_flag_out f0). { intros f Ff. destruct (proj2 (HF f Ff)) as (E1 & _). unfold v2_flag_out. now rewrite E1. }
  assert (PF : forall f, F f -> v2_params f = v2_params f0). { intros f Ff. destruct (proj2 (HF f Ff)) as (_ & _ & _ & E1 & E2 & E3 & _). unfold v2_params. now rewrite E1, E2, E3. }
  assert (FC : forall f, F f -> len (v2_index_cache f) = c) by (intros f Ff; apply (HF f Ff)). assert (FB : forall f, F f -> len (v2_buckets f) = n) by (intros f Ff; apply (HF f Ff)).
  assert (HD : hd = v2_flag_out f0 ++ v2_params f0).
  { apply (same_bytes _ _ 32); [exact Lh|rewrite len_app, v2_params_len; reflexivity|]. intros i Hi. destruct (M i ltac:(lia)) as (x & f & E & Ff & Ef). rewrite getN_prefix in E by lia. rewrite E, <- Ef, v2_write_image, v2_image_split, (PF f Ff), (FO f Ff).
    apply getN_prefix. rewrite len_app, v2_params_len. unfold len at 1; cbn [length v2_flag_out]; lia. }
  assert (HC : cb = le_bytes 8 (8 * c)).
  { apply (same_bytes _ _ 8); [exact Lcb|reflexivity|]. intros i Hi. destruct (M (40 + i) ltac:(lia)) as (x & f & E & Ff & Ef). rewrite v2_write_image, (v2_at_cb _ f _ i (WL f) Hi), (FC f Ff) in Ef. rewrite Ef, <- E. rewrite app_assoc, (getN_suffix (hd ++ ct)) by (rewrite len_app; lia). symmetry. apply getN_prefix. lia. }
  assert (HN : nb = le_bytes 8 n).
  { apply (same_bytes _ _ 8); [exact Lnb|reflexivity|]. intros i Hi. destruct (M (48 + c + i) ltac:(lia)) as (x & f & E & Ff & Ef). rewrite v2_write_image, (v2_at_nb _ f _ c i (WL f) (FC f Ff) Hi), (FB f Ff) in Ef. rewrite Ef, <- E. replace (hd ++ ct ++ cb ++ ic ++ nb ++ bt ++ dt) with ((hd ++ ct ++ cb ++ ic) ++ nb ++ bt ++ dt) by now rewrite <- !app_assoc. rewrite (getN_suffix (hd ++ ct ++ cb ++ ic)) by (rewrite !len_app; lia). symmetry. apply getN_prefix. lia. }
  assert (L8 : length ct = 8%nat) by (unfold len in Lc; lia). assert (Lbn : len bs = n) by (unfold len; lia).
  exists {| v2_flags := {| fl_version := fl_version (v2_flags f0); fl_opt := fl_opt (v2_flags f0); fl_reserved := [0;0;0;0;0;0] |}; v2_index_cache := ic; v2_n_buckets := v2_n_buckets f0; v2_cache_byte_size := v2_cache_byte_size f0;
     v2_capacity := v2_capacity f0; v2_fpp := v2_fpp f0; v2_n_hash_buck := v2_n_hash_buck f0; v2_count := of_le ct; v2_buckets := bs; v2_data := dt |}. split.
  - destruct W as [Z1 Z2 Z3 Z4 Z5 Z6 Z7 Z8 Z9 Z10 Z11 Z12 Z13 Z14 Z15]. constructor; cbn; auto.
    + split; [reflexivity|]. repeat constructor.
    + exact (of_le8_lt _ Bc L8).
    + now rewrite Lbn.
    + now rewrite Lbn.
    + now rewrite Lic.
    + now rewrite Lic.
    + now rewrite Lic.
  - rewrite v2_write_image, v2_image_split, HD, HC, HN. unfold v2_params, v2_flag_out. cbn [v2_flags fl_version fl_opt v2_index_cache v2_capacity v2_fpp v2_n_hash_buck v2_count v2_buckets v2_data]. rewrite Cb, Lbn, Lic.
    replace (le_bytes 8 (of_le ct)) with ct by (rewrite <- L8 at 1; now rewrite le_bytes_of_le). now rewrite <- !app_assoc.
Qed.
Theorem total_load pr (F : bloom -> Prop) f0 s : bf_wf f0 -> (forall f, F f -> bf_wf f /\ bf_same_frame f0 f) -> bytes_ok s ->
  (forall i, i < bf_core f0 -> exists x f, getN s i = Some x /\ F f /\ getN (bf_write f) i = Some x) -> exists h, bf_from_reader pr s = Ok h.
Proof.
  intros W HF B M. assert (H : exists h, bf_wf h /\ bf_write h = s).
  { destruct f0 as [f0|f0].
    - destruct (total_v1 (fun f => F (V1 f)) f0 s W) as (h & Wh & E); [intros f Ff; exact (HF _ Ff)|exact B| |exists (V1 h); auto]. intros i Hi. destruct (M i Hi) as (x & f & Ex & Ff & Ef). destruct f as [f|f]; [eauto|]. destruct (proj2 (HF _ Ff)).
    - destruct (total_v2 (fun f => F (V2 f)) f0 s W) as (h & Wh & E); [intros f Ff; exact (HF _ Ff)|exact B| |exists (V2 h); auto]. intros i Hi. destruct (M i Hi) as (x & f & Ex & Ff & Ef). destruct f as [f|f]; [|eauto]. destruct (proj2 (HF _ Ff)). }
  destruct H as (h & Wh & <-). exists (bf_canon h). now apply bf_roundtrip.
Qed.
(** The attached data is what follows. *)
Lemma bf_load_data pr s h : bytes_ok s -> bf_from_reader pr s = Ok h -> bf_data h = skipn (N.to_nat (bf_core h)) s.
Proof.
  intros B E. assert (SK : forall (a b : list byte) k, len a = k -> skipn (N.to_nat k) (a ++ b) = b) by (intros a b k <-; unfold len; rewrite Nat2N.id, skipn_app, skipn_all, Nat.sub_diag; reflexivity). destruct h as [h|h]; cbn [bf_core bf_data].
  - apply bf_load_v1 in E. apply v1_load_sound in E; [|exact B]. rewrite (f1_bytes _ _ E), v1_image_split. rewrite !app_assoc. rewrite SK; [reflexivity|]. rewrite !len_app, v1_params_len, len_le, len_words. unfold len at 1. cbn [length]. rewrite (f1_reserved _ _ E). lia.
  - apply bf_load_v2 in E. apply v2_load_sound in E as (cb & E); [|exact B]. rewrite (vf_bytes _ _ _ E), v2_image_split. rewrite !app_assoc. rewrite SK; [reflexivity|].
    rewrite !len_app, v2_params_len, !len_le, (len_concat_fixed 4096 _ (vf_buckets _ _ _ E)). unfold len at 1. cbn [length]. rewrite (vf_reserved _ _ _ E). lia.
Qed.
Lemma bf_write_data f i : bf_wf f -> getN (bf_write f) (bf_core f + i) = getN (bf_data f) i.
Proof.
  intro W. assert (E : bf_data f = skipn (N.to_nat (bf_core f)) (bf_write f)).
  { rewrite <- bf_canon_data, <- (bf_canon_core f). apply (bf_load_data Release); [now apply bf_write_bytes|]. now apply bf_roundtrip. }
  rewrite E, getN_skipn. f_equal. lia.
Qed.
