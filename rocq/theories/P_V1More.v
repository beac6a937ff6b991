(** v1 filters: unions, common entries, attached data, fresh and cleared filters. *)
From Coq Require Import Lia Reals Lra ZArith SpecFloat.
From Verif Require Import M_V1 Spec_Bits Spec_Hash Spec_V2 Spec_V1 Spec_Libm P_Base P_BitSet P_Fpp P_V1 P_V2More.
From Flocq Require Import Core BinarySingleNaN.
From Verif Require Import P_Float P_FloatDiv P_V2Size P_V2Sat P_V1Size P_V1Codec P_V1Hist.
Open Scope N_scope.

(** A positive number of bits gives at least one hash function. *)
Lemma bu_k_pos_any L b c : libm_ln2 L -> 1 <= b -> b < two64 -> c < two64 -> 1 <= bu_k L b c.
Proof.
  intros HL H1 Hb Hc. unfold bu_k, ln2. rewrite HL.
  assert (HB : bounded 53 1024 6243314768165359 (-53) = true) by (vm_compute; reflexivity).
  pose proof (fval_finite false _ _ HB) as F2. set (x := B2R _) in F2.
  assert (Hx : (bpow radix2 (-1) <= x <= 1)%R).
  { unfold x. cbn [B2R]. unfold F2R. cbn [Fnum Fexp cond_Zopp]. split.
    - apply Rle_trans with (bpow radix2 52 * bpow radix2 (-53))%R. rewrite <- bpow_plus. apply bpow_le. lia.
      apply Rmult_le_compat_r. apply bpow_ge_0. rewrite IZR_bpow by lia. apply IZR_le. lia.
    - apply Rle_trans with (bpow radix2 53 * bpow radix2 (-53))%R. apply Rmult_le_compat_r. apply bpow_ge_0. rewrite IZR_bpow by lia. apply IZR_le. lia.
      rewrite <- bpow_plus. apply Req_le. reflexivity. }
  pose proof (fval_of_u64 b Hb) as Fb. pose proof (rnd_u64_bounds b Hb) as Bb. assert (B1 : (1 <= rnd (IZR (Z.of_N b)))%R) by (apply rnd_ge_1; lia).
  set (y := rnd (IZR (Z.of_N b))) in *.
  assert (HP : (bpow radix2 (-1) <= x * y <= bpow radix2 64)%R).
  { pose proof (bpow_gt_0 radix2 (-1)). pose proof (bpow_gt_0 radix2 64). split; nra. }
  assert (HA : (Rabs (x * y) <= bpow radix2 1023)%R).
  { rewrite Rabs_pos_eq. apply Rle_trans with (bpow radix2 64); [lra|apply bpow_le; lia]. pose proof (bpow_gt_0 radix2 (-1)). lra. }
  pose proof (fval_mul _ _ _ _ F2 Fb HA) as FM.
  assert (RB : forall e, (-1000 <= e <= 900)%Z -> rnd (bpow radix2 e) = bpow radix2 e).
  { intros e He. apply rnd_format. replace (bpow radix2 e) with (1 * bpow radix2 e)%R by ring. apply (format_spec 1); lia. }
  eapply ceil_quot_pos; [exact FM| |exact Hc]. split.
  - apply Rle_trans with (bpow radix2 (-1)). apply bpow_le; lia. rewrite <- (RB (-1)%Z) by lia. apply rnd_le. lra.
  - apply Rle_trans with (bpow radix2 64). rewrite <- (RB 64%Z) by lia. apply rnd_le. lra. apply bpow_le; lia.
Qed.

Lemma v1_created_hash L cap fpp f : libm_ln2 L -> cap < two64 -> v1_created L cap fpp f -> v1_n_hash f <> 0 \/ v1_bit_size f = 0.
Proof.
  intros HL Hc C. destruct (N.eq_dec (v1_bit_size f) 0) as [Z|Z]; [auto|left]. rewrite (c1_n_hash _ _ _ _ C).
  assert (v1_bit_size f < two64) by (rewrite (c1_bit_size _ _ _ _ C); apply bu_bit_size_lt).
  pose proof (bu_k_pos_any L (v1_bit_size f) cap HL). lia.
Qed.

(** Every filter built without foreign files has hash functions or no bits. *)
Lemma v1_kept_hash L f K : libm_ln2 L -> v1_kept L f K -> v1_n_hash f <> 0 \/ v1_bit_size f = 0.
Proof.
  intro HL. induction 1 as [cap fpp f Hc Hf E|pr f K d g b H IH E|pr f K d g e H IH E|f K H IH|a b Ka Kb g Ha IHa Hb IHb E|f K d H IH Hd|pr f K g H IH E].
  - apply (v1_created_hash L cap fpp); auto. now apply v1_make_created.
  - pose proof (v1_kept_inv _ _ _ H) as (W & _). pose proof (i1_frame _ _ _ _ _ (v1_insert_sem _ _ _ _ _ W E)) as (_ & _ & _ & -> & -> & _). exact IH.
  - pose proof (v1_kept_inv _ _ _ H) as (W & _). pose proof (i1_frame _ _ _ _ _ (v1_insert_sem _ _ _ _ _ W E)) as (_ & _ & _ & -> & -> & _). exact IH.
  - exact IH.
  - pose proof (v1_kept_inv _ _ _ Ha) as (Wa & _). pose proof (v1_kept_inv _ _ _ Hb) as (Wb & _).
    destruct (v1_union_sem _ _ _ _ _ Wa Wb E) as [(_ & _ & X)|(_ & _ & U)]; [discriminate|]. destruct (u1_frame _ _ _ _ U) as (_ & _ & _ & -> & -> & _). exact IHa.
  - exact IH.
  - pose proof (v1_kept_inv _ _ _ H) as (W & _). rewrite v1_roundtrip in E by auto. apply Ok_inj in E as <-. exact IH.
Qed.

Lemma v1_clear_contains_any f d : v1_wf f -> v1_usable f -> v1_n_hash f <> 0 \/ v1_bit_size f = 0 -> v1_contains_bytes (v1_clear f) d = Ok false.
Proof.
  intros W U [H|H]; [now apply v1_clear_contains|].
  pose proof (v1_clear_wf _ W) as W'. pose proof (v1_usable_frame _ _ (v1_clear_frame f) U) as U'. rewrite (v1_contains_sem _ d W' U').
  assert (E : v1_bitset (v1_clear f) = []) by now apply v1_nil_iff. now rewrite E.
Qed.

(** * Unions *)
Lemma v1_bits_ext f g : v1_wf f -> v1_wf g -> len (v1_bitset f) = len (v1_bitset g) -> (forall i, v1_bit f i = v1_bit g i) -> v1_bitset f = v1_bitset g.
Proof. intros Wf Wg L B. apply (bit_ext 64); [discriminate|apply (w1_bits _ Wf)|apply (w1_bits _ Wg)|exact L|]. intros i _. exact (B i). Qed.

Lemma v1_union_ok L a b g : v1_wf a -> v1_wf b -> v1_union_merge L a b = (g, Ok tt) -> v1_same_shape a b /\ v1_union_effect L a b g.
Proof. intros Wa Wb E. destruct (v1_union_sem _ _ _ _ _ Wa Wb E) as [(_ & _ & X)|(S & _ & U)]; [discriminate|auto]. Qed.

Lemma v1_union_len L a b g : v1_union_effect L a b g -> len (v1_bitset g) = len (v1_bitset a).
Proof. intro U. apply (u1_frame _ _ _ _ U). Qed.

Lemma v1_count_ext L a b g c d h : v1_union_effect L a b g -> v1_union_effect L c d h -> v1_bitset g = v1_bitset h ->
  v1_bit_size a = v1_bit_size c -> v1_n_hash a = v1_n_hash c -> v1_count g = v1_count h.
Proof.
  intros U V B S H. rewrite (u1_count _ _ _ _ U), (u1_count _ _ _ _ V). unfold v1_count_ones. rewrite B.
  destruct (u1_frame _ _ _ _ U) as (_ & _ & _ & -> & -> & _). destruct (u1_frame _ _ _ _ V) as (_ & _ & _ & -> & -> & _). now rewrite S, H.
Qed.

Lemma v1_union_comm L a b g h : v1_wf a -> v1_wf b -> v1_union_merge L a b = (g, Ok tt) -> v1_union_merge L b a = (h, Ok tt) ->
  v1_bitset h = v1_bitset g /\ v1_count h = v1_count g.
Proof.
  intros Wa Wb E F. apply v1_union_ok in E as [S U]; auto. apply v1_union_ok in F as [_ V]; auto.
  assert (B : v1_bitset h = v1_bitset g).
  { apply v1_bits_ext; [apply (u1_wf _ _ _ _ V)|apply (u1_wf _ _ _ _ U)| |].
    - rewrite (v1_union_len _ _ _ _ U), (v1_union_len _ _ _ _ V). apply S.
    - intro i. rewrite (u1_bits _ _ _ _ U), (u1_bits _ _ _ _ V). apply Bool.orb_comm. }
  split; [exact B|]. apply (v1_count_ext _ _ _ _ _ _ _ V U B); apply S.
Qed.

Lemma v1_union_assoc L a b c ab abc bc abc' : v1_wf a -> v1_wf b -> v1_wf c ->
  v1_union_merge L a b = (ab, Ok tt) -> v1_union_merge L ab c = (abc, Ok tt) ->
  v1_union_merge L b c = (bc, Ok tt) -> v1_union_merge L a bc = (abc', Ok tt) ->
  v1_same_content abc abc' /\ v1_count abc' = v1_count abc.
Proof.
  intros Wa Wb Wc E1 E2 E3 E4. apply v1_union_ok in E1 as [S1 U1]; auto. apply v1_union_ok in E3 as [S3 U3]; auto.
  apply v1_union_ok in E2 as [S2 U2]; auto; [|apply (u1_wf _ _ _ _ U1)]. apply v1_union_ok in E4 as [S4 U4]; auto; [|apply (u1_wf _ _ _ _ U3)].
  assert (F : v1_same_frame abc abc').
  { apply v1_frame_trans with a; [apply v1_frame_sym; apply v1_frame_trans with ab; [apply (u1_frame _ _ _ _ U1)|apply (u1_frame _ _ _ _ U2)]|apply (u1_frame _ _ _ _ U4)]. }
  assert (B : v1_bitset abc' = v1_bitset abc).
  { apply v1_bits_ext; [apply (u1_wf _ _ _ _ U4)|apply (u1_wf _ _ _ _ U2)|apply F|].
    intro i. rewrite (u1_bits _ _ _ _ U4), (u1_bits _ _ _ _ U2), (u1_bits _ _ _ _ U3), (u1_bits _ _ _ _ U1). apply Bool.orb_assoc. }
  split; [split; [exact F|exact B]|]. destruct (u1_frame _ _ _ _ U1) as (_ & _ & _ & H1 & H2 & _).
  apply (v1_count_ext _ _ _ _ _ _ _ U4 U2 B); congruence.
Qed.

Lemma v1_union_idem L a g : v1_wf a -> v1_union_merge L a a = (g, Ok tt) -> v1_same_content a g.
Proof.
  intros Wa E. apply v1_union_ok in E as [S U]; auto. split; [apply (u1_frame _ _ _ _ U)|].
  apply v1_bits_ext; [apply (u1_wf _ _ _ _ U)|exact Wa|exact (v1_union_len _ _ _ _ U)|]. intro i. rewrite (u1_bits _ _ _ _ U). apply Bool.orb_diag.
Qed.

Lemma v1_union_as_inserts L a b c g Ka Kb : v1_kept L a Ka -> v1_kept L b Kb -> v1_kept L c (fun x => Ka x \/ Kb x) -> v1_same_frame a c ->
  v1_union_merge L a b = (g, Ok tt) -> v1_same_content c g.
Proof.
  intros Ha Hb Hc F E. pose proof (v1_kept_inv _ _ _ Ha) as (Wa & _ & Ba). pose proof (v1_kept_inv _ _ _ Hb) as (Wb & _ & Bb).
  pose proof (v1_kept_inv _ _ _ Hc) as (Wc & _ & Bc). apply v1_union_ok in E as [S U]; auto.
  assert (G : v1_same_frame c g) by (apply v1_frame_trans with a; [now apply v1_frame_sym|apply (u1_frame _ _ _ _ U)]).
  split; [exact G|]. apply v1_bits_ext; [apply (u1_wf _ _ _ _ U)|exact Wc|apply G|]. intro i. apply Bool.eq_true_iff_eq.
  rewrite (u1_bits _ _ _ _ U), Bool.orb_true_iff, (Ba i), (Bb i), (Bc i).
  assert (P : forall x, v1_positions b x = v1_positions a x). { intro x. unfold v1_positions. destruct S as (_ & _ & _ & -> & -> & _). reflexivity. }
  assert (Q : forall x, v1_positions c x = v1_positions a x) by (intro; now apply v1_frame_positions).
  split.
  - intros [(x & X & Y)|(x & X & Y)]; exists x; (split; [auto|]); rewrite (Q x); [|rewrite (P x) in Y]; exact Y.
  - intros (x & [X|X] & Y); rewrite (Q x) in Y; [left|right]; exists x; (split; [exact X|]); [|rewrite (P x)]; exact Y.
Qed.

Lemma v1_present_le f g d : v1_le f g -> v1_present f d -> v1_present g d.
Proof.
  intros H P. apply v1_present_held. apply v1_present_held in P as [N P]. split; [|exact (v1_held_mono f g d H P)].
  destruct H as (_ & _ & H & _). intro X. rewrite X in H. destruct (v1_bitset f); [easy|]. unfold len in H. cbn in H. lia.
Qed.

Lemma v1_union_contains L a b g d : v1_wf a -> v1_wf b -> v1_union_merge L a b = (g, Ok tt) ->
  v1_contains_bytes a d = Ok true \/ v1_contains_bytes b d = Ok true -> v1_contains_bytes g d = Ok true.
Proof.
  intros Wa Wb E H. apply v1_union_ok in E as [S U]; auto. destruct (v1_union_le _ _ _ _ S U) as [La Lb].
  apply v1_contains_true; [apply (u1_wf _ _ _ _ U)|]. rewrite !v1_contains_true in H by auto.
  destruct H as [H|H]; [apply (v1_present_le a g)|apply (v1_present_le b g)]; auto.
Qed.

(** * Common entries *)
Lemma v1_common_eq L a b : v1_count_common_entries L a b =
  if v1_has_same_params a b
  then Ok (estimate_count L (v1_bit_size a) (sumN (map (fun p => count_ones (N.land (fst p) (snd p))) (combine (v1_bitset a) (v1_bitset b)))) (v1_n_hash a))
  else Err Merge.
Proof.
  unfold v1_count_common_entries. destruct (v1_has_same_params a b) eqn:S; cbn [negb]; [|reflexivity].
  apply v1_same_params_iff in S as (_ & _ & _ & _ & _ & E). unfold v1_ones_in_common. rewrite E, N.eqb_refl.
  rewrite zip_with_Ok by (unfold len in E; lia). reflexivity.
Qed.

Lemma v1_same_params_sym a b : v1_has_same_params a b = v1_has_same_params b a.
Proof.
  apply Bool.eq_true_iff_eq. rewrite !v1_same_params_iff. unfold v1_same_shape. rewrite (fpp_eqb_sym (v1_fpp a)).
  split; intros (? & ? & ? & ? & ? & ?); (split; [congruence|]); (split; [congruence|]); (split; [assumption|]); (split; [congruence|]); split; congruence.
Qed.

Lemma v1_common_sym L a b : v1_count_common_entries L a b = v1_count_common_entries L b a.
Proof.
  rewrite !v1_common_eq, (v1_same_params_sym b a). destruct (v1_has_same_params a b) eqn:S; [|reflexivity].
  apply v1_same_params_iff in S as (_ & _ & _ & EN & EB & _). rewrite EN, EB, (combine_swap (v1_bitset a) (v1_bitset b)), map_map. do 3 f_equal.
  apply map_ext. intros [x y]. cbn [fst snd]. f_equal. apply N.land_comm.
Qed.

Lemma v1_common_ones a b : v1_wf a -> v1_wf b -> len (v1_bitset a) = len (v1_bitset b) ->
  sumN (map (fun p => count_ones (N.land (fst p) (snd p))) (combine (v1_bitset a) (v1_bitset b))) =
  count_below (N.to_nat (64 * len (v1_bitset a))) (fun i => v1_bit a i && v1_bit b i).
Proof.
  intros Wa Wb E. pose proof (w1_bits _ Wa) as HA. pose proof (w1_bits _ Wb) as HB.
  assert (Z : zip_with N.land (v1_bitset a) (v1_bitset b) = Ok (map (fun p => N.land (fst p) (snd p)) (combine (v1_bitset a) (v1_bitset b)))).
  { apply zip_with_Ok. unfold len in E. lia. }
  rewrite <- (map_map (fun p => N.land (fst p) (snd p)) count_ones). rewrite (sumN_count 64); [|discriminate|].
  - rewrite <- (zip_with_len _ _ _ _ Z). apply count_below_ext. intros i _. unfold v1_bit. now apply (bit_land 64 _ _ _ i E).
  - eapply zip_with_words; [|exact HA|exact HB|exact Z]. intros x y Hx Hy. apply land_lt; auto.
Qed.

Lemma estimate_zero_any L b n : libm_ln1 L -> b < two64 -> estimate_count L b 0 n = 0.
Proof.
  intros H Hb. unfold estimate_count. destruct (N.eq_dec b 0) as [->|Z].
  - set (y := lm_ln L _). change (f_of_u64 0) with (S754_zero false). unfold f_mul, SFmul, f_div, SFdiv.
    destruct y; cbn [f_opp SFopp xorb]; destruct (f_of_u64 n); reflexivity.
  - destruct (f_of_u64_pos b ltac:(lia) Hb) as (m & e & ->). change (f_div (f_of_u64 0) (S754_finite false m e)) with (S754_zero false).
    change (f_sub f_one (S754_zero false)) with f_one. rewrite H. change (f_opp (f_mul (S754_finite false m e) (S754_zero false))) with (S754_zero true).
    unfold f_div, SFdiv. destruct (f_of_u64 n); reflexivity.
Qed.

Lemma v1_common_disjoint L a b : libm_ln1 L -> v1_wf a -> v1_wf b -> v1_has_same_params a b = true ->
  (forall i, v1_bit a i && v1_bit b i = false) -> v1_count_common_entries L a b = Ok 0.
Proof.
  intros HL Wa Wb S D. rewrite v1_common_eq, S. apply v1_same_params_iff in S as (_ & _ & _ & _ & _ & E).
  rewrite v1_common_ones by auto. rewrite count_below_false by (intros; apply D). now rewrite estimate_zero_any by (auto; apply (w1_bit_size _ Wa)).
Qed.

(** * Attached data *)
Lemma v1_data_insert pr f d x g r : v1_insert_bytes pr f x = (g, r) -> v1_insert_bytes pr (v1_set_data f d) x = (v1_set_data g d, r).
Proof.
  unfold v1_insert_bytes. cbn [v1_set_data v1_capacity v1_count v1_bitset v1_fp].
  destruct (v1_capacity f =? 0); [intro E; apply pair_inj in E as [<- <-]; reflexivity|].
  destruct (v1_insert_loop _ _ _ _ _) as [bits [new|e|]]; [destruct new; [destruct (checked_add pr (v1_count f) 1)|]|..];
  intro E; apply pair_inj in E as [<- <-]; reflexivity.
Qed.
Lemma v1_data_union L a b d d' g r : v1_union_merge L a b = (g, r) -> v1_union_merge L (v1_set_data a d) (v1_set_data b d') = (v1_set_data g d, r).
Proof.
  unfold v1_union_merge. change (v1_has_same_params (v1_set_data a d) (v1_set_data b d')) with (v1_has_same_params a b).
  cbn [v1_set_data v1_bitset].
  destruct (v1_has_same_params a b); cbn [negb]; [|intro E; apply pair_inj in E as [<- <-]; reflexivity].
  destruct (zip_with _ _ _); intro E; apply pair_inj in E as [<- <-]; reflexivity.
Qed.
