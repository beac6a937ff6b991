(** Estimates of merged v2 filters: bounded as long as no bucket is saturated. *)
From Coq Require Import Lia Reals Lra.
From Verif Require Import M_V2 Spec_Bits Spec_Hash Spec_V2 Spec_V2File Spec_V2Hist Spec_Libm P_Base P_BitSet P_Hash P_V2 P_V2Sem P_IO P_V2Codec P_V2Make P_V2Merge P_V2Size P_V2Hist P_V2Props P_V2More.
From Flocq Require Import Core BinarySingleNaN.
From Verif Require Import P_Float P_FloatDiv.
Open Scope N_scope.

Lemma fval_valid a x : fval a x -> valid_binary 53 1024 a = true.
Proof. intros (b & <- & _). apply valid_binary_B2SF. Qed.
Lemma R_f_leb a b x y : fval a x -> fval b y -> (x <= y)%R -> f_leb a b = true.
Proof.
  intros (p & <- & Fp & <-) (q & <- & Fq & <-) H. change (Bleb p q = true). rewrite Bleb_correct by auto. now apply Rle_bool_true.
Qed.
Lemma fval_small x : x <= 9007199254740992 -> fval (f_of_u64 x) (IZR (Z.of_N x)).
Proof.
  intro H. rewrite <- (rnd_format (IZR (Z.of_N x))) by (apply format_int; lia). apply fval_of_u64. unfold two64. lia.
Qed.
Lemma fval_min_positive : fval (sf_of_bits bits_min_positive) (bpow radix2 (-1022)).
Proof.
  assert (Hb : bounded 53 1024 4503599627370496 (-1074) = true) by (vm_compute; reflexivity).
  pose proof (fval_finite false _ _ Hb) as F. change (sf_of_bits bits_min_positive) with (S754_finite false 4503599627370496 (-1074)).
  cbn [B2R] in F. unfold F2R in F. cbn [Fnum Fexp cond_Zopp] in F. replace (bpow radix2 (-1022)) with (IZR 4503599627370496 * bpow radix2 (-1074))%R; auto.
  change 4503599627370496%Z with (2 ^ 52)%Z. rewrite <- IZR_bpow by lia. rewrite <- bpow_plus. reflexivity.
Qed.
Lemma format_32768 z : (Z.abs z <= 32768)%Z -> format (IZR z / 32768)%R.
Proof.
  intro H. replace (IZR z / 32768)%R with (IZR z * bpow radix2 (-15))%R. apply format_spec; lia.
  unfold Rdiv. f_equal. 
Qed.
Lemma load_factor ones : ones < 32768 ->
  fval (f_sub f_one (f_div (f_of_u64 ones) (f_of_u64 bucket_bit_size))) (IZR (32768 - Z.of_N ones) / 32768).
Proof.
  intro H. set (z := Z.of_N ones). assert (Hz : (0 <= z < 32768)%Z) by (subst z; lia).
  assert (Z0 : (0 <= IZR z < 32768)%R) by (split; [apply IZR_le; lia|apply IZR_lt; lia]).
  assert (B1 : (2 <= bpow radix2 1023)%R) by (apply Rle_trans with (bpow radix2 1); [rewrite IZR_bpow by lia; apply IZR_le; lia|apply bpow_le; lia]).
  assert (D : fval (f_div (f_of_u64 ones) (f_of_u64 bucket_bit_size)) (IZR z / 32768)).
  { rewrite <- (rnd_format (IZR z / 32768)) by (apply format_32768; lia). apply fval_div.
    - apply fval_small; lia.
    - apply (fval_small 32768). lia.
    - lra.
    - rewrite Rabs_pos_eq; lra. }
  assert (E : (IZR (32768 - z) / 32768 = 1 - IZR z / 32768)%R) by (rewrite minus_IZR; field).
  rewrite <- (rnd_format (IZR (32768 - z) / 32768)) by (apply format_32768; lia). rewrite E. apply fval_sub; auto.
  - apply (fval_small 1). lia.
  - rewrite Rabs_pos_eq; lra.
Qed.
(** The estimate of a bucket that still has a zero bit is below 2^25. *)
Lemma estimate_le L ones n : libm_ln_range L -> ones < 32768 -> 1 <= n -> n < two64 -> estimate_count L bucket_bit_size ones n <= 26214400.
Proof.
  intros HL Ho H1 Hn. unfold estimate_count. set (x := f_sub f_one _). pose proof (load_factor ones Ho) as F. fold x in F.
  set (r := (IZR (32768 - Z.of_N ones) / 32768)%R) in F.
  assert (R0 : (/ 32768 <= r <= 1)%R).
  { subst r. assert (1 <= IZR (32768 - Z.of_N ones) <= 32768)%R by (split; apply IZR_le; lia). lra. }
  assert (C : exists y, fval (lm_ln L x) y /\ (-800 <= y <= 0)%R).
  { destruct (ln_cases L x HL) as [[s Z]|(y & Fy & Hy)].
    - eapply fval_valid; eauto.
    - eapply R_f_leb; [apply fval_min_positive|apply F|]. apply Rle_trans with (2 := proj1 R0).
      apply Rle_trans with (bpow radix2 (-15)); [apply bpow_le; lia|]. change (-15)%Z with (- (15))%Z. rewrite bpow_opp, IZR_bpow by lia. apply Rle_refl.
    - eapply R_f_leb; [apply F|apply (fval_small 1); lia|]. apply R0.
    - exists 0%R. rewrite Z. split; [exists (B754_zero s); repeat split|lra].
    - exists y. split; auto. pose proof (bpow_gt_0 radix2 (-60)). lra. }
  destruct C as (y & Fy & Hy).
  assert (M : fval (f_mul (f_of_u64 bucket_bit_size) (lm_ln L x)) (rnd (32768 * y))).
  { apply fval_mul; auto. apply (fval_small 32768); lia. rewrite Rabs_left1 by lra.
    apply Rle_trans with (bpow radix2 25); [rewrite IZR_bpow by lia; change (2 ^ 25)%Z with 33554432%Z; lra|apply bpow_le; lia]. }
  apply fval_opp in M. set (u := (- rnd (32768 * y))%R) in M.
  assert (U : (0 <= u <= 26214400)%R).
  { subst u. split.
    - assert (rnd (32768 * y) <= 0)%R; [|lra]. rewrite <- rnd_0. apply rnd_le. lra.
    - assert (-26214400 <= rnd (32768 * y))%R; [|lra]. rewrite <- (rnd_format (-26214400)) by (apply (format_int (-26214400)); lia). apply rnd_le. lra. }
  pose proof (fval_of_u64 n Hn) as Fn. assert (N1 : (1 <= rnd (IZR (Z.of_N n)))%R) by (apply rnd_ge_1; lia).
  set (v := rnd (IZR (Z.of_N n))) in *.
  assert (Q : (0 <= u / v <= 26214400)%R).
  { split; [apply Rmult_le_pos; [lra|]; left; apply Rinv_0_lt_compat; lra|].
    apply Rmult_le_reg_r with v; [lra|]. unfold Rdiv. rewrite Rmult_assoc, Rinv_l by lra. nra. }
  assert (D : fval (f_div (f_opp (f_mul (f_of_u64 bucket_bit_size) (lm_ln L x))) (f_of_u64 n)) (rnd (u / v))).
  { apply fval_div; auto; [lra|]. rewrite Rabs_pos_eq by lra.
    apply Rle_trans with (bpow radix2 25); [rewrite IZR_bpow by lia; change (2 ^ 25)%Z with 33554432%Z; lra|apply bpow_le; lia]. }
  assert (T : (0 <= rnd (u / v) <= 26214400)%R).
  { split; [rewrite <- rnd_0; apply rnd_le; lra|]. rewrite <- (rnd_format 26214400) by (apply (format_int 26214400); lia). apply rnd_le. lra. }
  pose proof (fval_to_u64 _ _ D (proj1 T)) as E. assert (Zfloor (rnd (u / v)) <= 26214400)%Z; [|lia].
  apply le_IZR. apply Rle_trans with (2 := proj2 T). apply Zfloor_lb.
Qed.
Lemma sumN_le l m : Forall (fun x => x <= m) l -> sumN l <= len l * m.
Proof. induction 1; cbn [sumN fold_right]; [reflexivity|]. rewrite len_cons. fold (sumN l). lia. Qed.
(** A bucket with an unset bit counts fewer than 32768 ones. *)
Lemma ones_lt b i : length b = N.to_nat 4096 -> words_ok 8 b -> i < 32768 -> bit 8 b i = false -> bs_count_ones b < 32768.
Proof.
  intros Lb Wb Hi E. unfold bs_count_ones. rewrite (sumN_count 8) by (auto; lia).
  pose proof (count_below_negb (N.to_nat (8 * len b)) (bit 8 b)) as S.
  assert (L8 : 8 * len b = 32768) by (unfold len; rewrite Lb; lia). rewrite L8 in *.
  assert (P : 1 <= count_below (N.to_nat 32768) (fun i => negb (bit 8 b i))).
  { pose proof (count_below_upd (N.to_nat 32768) (fun j => negb (bit 8 b j) && negb (j =? i)) i ltac:(lia)) as U. cbn beta in U.
    rewrite N.eqb_refl, andb_false_r in U. specialize (U eq_refl).
    rewrite (count_below_ext _ (fun i => negb (bit 8 b i)) (fun j => (negb (bit 8 b j) && negb (j =? i)) || (j =? i))).
    - rewrite U. lia.
    - intros j _. destruct (N.eqb_spec j i); [subst; rewrite E; reflexivity|]. cbn. now rewrite andb_true_r, orb_false_r. }
  lia.
Qed.
Lemma estimates_sum L f : libm_ln_range L -> v2_wf f -> v2_n_hash_buck f <> 0 -> v2_unsaturated f -> sumN (v2_estimates L f) <= len (v2_buckets f) * 26214400.
Proof.
  intros HL W Hn U. rewrite <- (len_map (fun b => estimate_count L bucket_bit_size (bs_count_ones b) (v2_n_hash_buck f)) (v2_buckets f)).
  apply sumN_le. apply Forall_forall. intros e He. apply in_map_iff in He as (b & <- & Hb). apply In_nth_error in Hb as [k Hk].
  assert (G : getN (v2_buckets f) (N.of_nat k) = Some b) by (unfold getN; now rewrite Nat2N.id).
  destruct (U (N.of_nat k) (getN_lt _ _ _ G)) as (i & Hi & E). unfold v2_bit in E. rewrite G in E.
  pose proof (Forall_getN _ _ _ _ (wf_buckets _ W) G) as [Lb Wb]. apply estimate_le; auto; [|lia|apply (wf_n_hash _ W)]. eapply ones_lt; eauto.
Qed.
Lemma merge_no_panic o pr L a b g r : libm_ln_range L -> v2_wf a -> v2_wf b -> v2_merge_with (vec_op o) (arr_op o) pr L a b = (g, r) ->
  v2_same_frame a b -> v2_n_hash_buck a <> 0 -> len (v2_buckets a) <= 549755813888 -> v2_unsaturated g ->
  r = Ok tt /\ v2_count g <= len (v2_buckets a) * 26214400.
Proof.
  intros HL Wa Wb E F Hn Hl U. destruct (v2_merge_sem _ _ _ _ _ _ _ Wa Wb E) as [(S & _)|(_ & M)].
  { apply same_params_wf in F; auto. congruence. }
  pose proof (me_frame _ _ _ _ _ _ _ M) as Fg. pose proof (me_wf _ _ _ _ _ _ _ M) as Wg.
  assert (Hn' : v2_n_hash_buck g <> 0) by (destruct Fg as (_ & _ & _ & _ & _ & -> & _); auto).
  pose proof (estimates_sum L g HL Wg Hn' U) as S. assert (EL : len (v2_buckets g) = len (v2_buckets a)) by apply Fg. rewrite EL in S.
  assert (S2 : sumN (v2_estimates L g) < two64) by (unfold two64; lia).
  pose proof (me_cases _ _ _ _ _ _ _ M) as C. destruct r as [[]|e|].
  - split; auto. rewrite checked_sum_spec in C. apply N.ltb_lt in S2. rewrite S2 in C. apply Ok_inj in C. lia.
  - easy.
  - lia.
Qed.
Lemma merge_release o L a b g r : v2_wf a -> v2_wf b -> v2_merge_with (vec_op o) (arr_op o) Release L a b = (g, r) -> v2_same_frame a b -> r = Ok tt.
Proof.
  intros Wa Wb E F. destruct (v2_merge_sem _ _ _ _ _ _ _ Wa Wb E) as [(S & _)|(_ & M)].
  { apply same_params_wf in F; auto. congruence. }
  pose proof (me_cases _ _ _ _ _ _ _ M) as C. destruct r as [[]|e|]; [reflexivity|easy|]. destruct C. discriminate.
Qed.
Lemma insert_no_panic pr wy f k g r : v2_wf f -> v2_usable f -> key_ok k -> pr = Release \/ v2_count f < u64_max -> v2_insert pr wy f k = (g, r) -> r <> Panic.
Proof.
  intros W U Hk C E. destruct (key_init wy k Hk) as [Hi Hh]. unfold v2_insert in E.
  destruct (N.eq_dec (v2_capacity f) 0) as [Z|Z]; [rewrite v2_insert_iter_cap0 in E by auto; apply pair_inj in E as [_ <-]; discriminate|].
  pose proof (v2_insert_iter_sem _ _ _ _ _ _ W Hi Hh Z (U Z) E) as [_ _ _ M]. intros ->. destruct M as (P & M & _). destruct C; [congruence|lia].
Qed.
Lemma f_of_u64_pos n : 1 <= n -> n < two64 -> exists m e, f_of_u64 n = S754_finite false m e.
Proof.
  intros H1 Hn. eapply fval_pos_finite; [apply fval_of_u64; auto|]. assert (1 <= rnd (IZR (Z.of_N n)))%R by (apply rnd_ge_1; lia). lra.
Qed.
