(** C105: recomputed counts follow the bits: more bits, no smaller count. *)
From Coq Require Import Lia Reals Lra.
From Flocq Require Import Core.
From Verif Require Import M_Base M_BitSet M_Util M_V1 M_V2 M_RefLibm Spec_Bits Spec_Hash Spec_V1 Spec_V2 Spec_Real Spec_V2Hist Spec_Count P_Base P_BitSet P_V2Merge P_V2More P_V2Hist P_V2Props P_V2Codec P_V1 P_V1Codec P_V1Hist P_V1More.
From Verif Require Import P_Float P_FloatDiv P_Fpp P_Real P_RealLibm P_Est P_Count P_V2Sat Ex_Base Ex_V1 Prop_Count Prop_V1 Prop_V2Merge.
Open Scope N_scope.

(** ** One estimate *)
(** One bit more is at least 1/k of an entry more. *)
Lemma ideal_step m x y k : 1 <= k -> x <= y -> y < m -> (ideal_count m x k + (IZR (Z.of_N y) - IZR (Z.of_N x)) * / IZR (Z.of_N k) <= ideal_count m y k)%R.
Proof.
  intros Hk Hx Hy. unfold ideal_count. set (M := IZR (Z.of_N m)). set (K := IZR (Z.of_N k)). set (X := IZR (Z.of_N x)). set (Y := IZR (Z.of_N y)).
  assert (K1 : (1 <= K)%R) by (apply IZR_le; lia). assert (X0 : (0 <= X)%R) by (apply IZR_le; lia). assert (XY : (X <= Y)%R) by (apply IZR_le; lia). assert (YM : (Y < M)%R) by (apply IZR_lt; lia). clearbody M K X Y.
  assert (Mi : (0 < / M)%R) by (apply Rinv_0_lt_compat; lra). assert (Ki : (0 < / K)%R) by (apply Rinv_0_lt_compat; lra).
  assert (A1 : (1 - X / M <= 1)%R) by (assert (0 <= X / M)%R by (apply Rmult_le_pos; lra); lra). assert (AB : (1 - Y / M <= 1 - X / M)%R) by (assert (X / M <= Y / M)%R by (apply Rmult_le_compat_r; lra); lra).
  assert (B0 : (0 < 1 - Y / M)%R) by (assert (Y / M < 1)%R by (apply Rmult_lt_reg_r with M; [lra|]; unfold Rdiv; rewrite Rmult_assoc, Rinv_l by lra; lra); lra).
  assert (D : (1 - X / M - (1 - Y / M) = (Y - X) / M)%R) by (field; lra). set (a := (1 - X / M)%R) in *. set (b := (1 - Y / M)%R) in *. clearbody a b.
  assert (Q : (ln b <= ln a - (a - b))%R).
  { assert (Ai : (1 <= / a)%R) by (rewrite <- Rinv_1; apply Rinv_le; lra). replace b with (a * (b / a))%R at 1 by (field; lra). rewrite ln_mult; [|lra|apply Rmult_lt_0_compat; lra].
    pose proof (ln_le_1 (b / a)%R ltac:(apply Rmult_lt_0_compat; lra)) as P. assert (E : (b / a - 1 = - ((a - b) * / a))%R) by (field; lra). assert (G : ((a - b) * 1 <= (a - b) * / a)%R) by (apply Rmult_le_compat_l; lra). lra. }
  replace (- (M / K * ln a) + (Y - X) * / K)%R with (M * / K * (- (ln a - (a - b))))%R by (rewrite D; field; lra). replace (- (M / K * ln b))%R with (M * / K * (- ln b))%R by (field; lra).
  apply Rmult_le_compat_l; [apply Rmult_le_pos; lra|lra].
Qed.
Lemma close_mono (e f : N) (u v s t d : R) : Z.of_N e = Zfloor u -> Z.of_N f = Zfloor v -> (Rabs (u - s) <= d)%R -> (Rabs (v - t) <= d)%R -> (s + 2 * d <= t)%R -> e <= f.
Proof. intros E F U V H. apply N2Z.inj_le. rewrite E, F. apply Zfloor_le. apply Rabs_le_inv in U. apply Rabs_le_inv in V. lra. Qed.
(** In a bucket of a v2 filter. *)
Lemma est_bucket_mono L x y k : libm_accurate L -> x <= y -> y < 32768 -> 1 <= k <= 9007199254740992 -> estimate_count L 32768 x k <= estimate_count L 32768 y k.
Proof.
  intros HL Hx Hy Hk. destruct (N.eq_dec x y) as [->|Ne]; [reflexivity|]. destruct (est_bucket L x k HL ltac:(lia) Hk) as (u & E & _ & U). destruct (est_bucket L y k HL Hy Hk) as (v & F & _ & V).
  apply (close_mono _ _ u v _ _ _ E F U V). pose proof (ideal_step 32768 x y k ltac:(lia) Hx Hy) as S. apply Rle_trans with (2 := S). apply Rplus_le_compat_l.
  assert (K0 : (0 < / IZR (Z.of_N k))%R) by (apply Rinv_0_lt_compat, IZR_lt; lia). rewrite <- Rmult_assoc. apply Rmult_le_compat_r; [lra|]. assert (H : (1 <= IZR (Z.of_N y) - IZR (Z.of_N x))%R) by (rewrite <- minus_IZR; apply IZR_le; lia). lra.
Qed.
(** In a v1 filter of at most 2^40 bits that is at most three quarters full. *)
Lemma est_v1_close L m x k : libm_accurate L -> 1 <= m <= 1099511627776 -> 4 * x <= 3 * m -> 1 <= k <= 9007199254740992 ->
  exists v, Z.of_N (estimate_count L m x k) = Zfloor v /\ (Rabs (v - ideal_count m x k) <= / 100 * / IZR (Z.of_N k))%R.
Proof.
  intros HL Hm Hx Hk. destruct (est_R L m x k HL ltac:(lia) ltac:(lia) Hk) as (v & E & V0 & V). exists v. split; [exact E|]. apply Rle_trans with (1 := V). clear E V V0. unfold ideal_count in *. set (M := IZR (Z.of_N m)) in *. set (K := IZR (Z.of_N k)) in *. set (X := IZR (Z.of_N x)) in *.
  assert (M1 : (1 <= M <= 1099511627776)%R) by (split; apply IZR_le; lia). assert (K1 : (1 <= K)%R) by (apply IZR_le; lia). assert (X1 : (0 <= X)%R) by (apply IZR_le; lia). assert (X3 : (4 * X <= 3 * M)%R) by (unfold X, M; rewrite <- !mult_IZR; apply IZR_le; lia).
  assert (T : (/ 4 <= 1 - X / M <= 1)%R). { assert (X / M <= 3 / 4)%R by (apply Rmult_le_reg_r with M; [lra|]; unfold Rdiv at 1; rewrite Rmult_assoc, Rinv_l by lra; lra). assert (0 <= X / M)%R by (apply Rmult_le_pos; [lra|left; apply Rinv_0_lt_compat; lra]). lra. }
  set (t := (1 - X / M)%R) in *. clearbody t.
  assert (L0 : (0 <= - ln t <= 2)%R). { split; [pose proof (ln_neg t ltac:(lra)); lra|]. assert (Q : (ln (/ 4) <= ln t)%R) by (apply ln_le; lra). rewrite ln_Rinv in Q by lra. replace 4%R with (bpow radix2 2) in Q by (rewrite IZR_bpow by lia; reflexivity). rewrite ln_bpow in Q. pose proof ln2_hi. lra. }
  assert (Ki : (0 < / K)%R) by (apply Rinv_0_lt_compat; lra).
  assert (Ti : (0 < / t <= 4)%R). { split; [apply Rinv_0_lt_compat; lra|]. replace 4%R with (/ / 4)%R by field. apply Rinv_le; lra. }
  pose proof eps_small as [E0 E1]. replace (M / K * (5 * eps / t) + 12 * eps * - (M / K * ln t))%R with (M * (5 * eps * / t + 12 * eps * - ln t) * / K)%R by (field; lra). apply Rmult_le_compat_r; [lra|].
  assert (P : (0 <= 5 * eps * / t + 12 * eps * - ln t <= 5 * eps * 4 + 12 * eps * 2)%R).
  { assert (0 <= eps * / t <= eps * 4)%R by (split; [apply Rmult_le_pos; lra|apply Rmult_le_compat_l; lra]). assert (0 <= eps * - ln t <= eps * 2)%R by (split; [apply Rmult_le_pos; lra|apply Rmult_le_compat_l; lra]). lra. }
  apply Rle_trans with (1099511627776 * (5 * eps * 4 + 12 * eps * 2))%R; [apply Rmult_le_compat; lra|]. rewrite eps_num. lra.
Qed.
Lemma est_v1_mono L m x y k : libm_accurate L -> 1 <= m <= 1099511627776 -> x <= y -> 4 * y <= 3 * m -> 1 <= k <= 9007199254740992 -> estimate_count L m x k <= estimate_count L m y k.
Proof.
  intros HL Hm Hx Hy Hk. destruct (N.eq_dec x y) as [->|Ne]; [reflexivity|]. destruct (est_v1_close L m x k HL Hm ltac:(lia) Hk) as (u & E & U). destruct (est_v1_close L m y k HL Hm Hy Hk) as (v & F & V).
  apply (close_mono _ _ u v _ _ _ E F U V). pose proof (ideal_step m x y k ltac:(lia) Hx ltac:(lia)) as S. apply Rle_trans with (2 := S). apply Rplus_le_compat_l.
  assert (K0 : (0 < / IZR (Z.of_N k))%R) by (apply Rinv_0_lt_compat, IZR_lt; lia). rewrite <- Rmult_assoc. apply Rmult_le_compat_r; [lra|]. assert (H : (1 <= IZR (Z.of_N y) - IZR (Z.of_N x))%R) by (rewrite <- minus_IZR; apply IZR_le; lia). lra.
Qed.

(** ** Version 2 *)
(** [g] is the result of a merge. *)
Definition v2_merged (pr : profile) (wy : hasher) (L : libm) (g : v2) : Prop := exists a b, v2_reach wy L a /\ v2_reach wy L b /\
  (v2_union_merge pr L a b = (g, Ok tt) \/ v2_intersection_merge pr L a b = (g, Ok tt)).
Definition v2_bits_in (g h : v2) : Prop := forall j i, v2_bit g j i = true -> v2_bit h j i = true.
Lemma merged_sum pr wy L g : libm_accurate L -> v2_merged pr wy L g -> 1 <= v2_n_hash_buck g <= 9007199254740992 -> len (v2_buckets g) <= 17592186044416 -> v2_unsaturated g ->
  v2_count g = sumN (map (fun j => estimate_count L 32768 (v2_ones g j) (v2_n_hash_buck g)) (seq 0 (length (v2_buckets g)))) /\ forall j, (j < length (v2_buckets g))%nat -> v2_ones g j < 32768.
Proof.
  intros HL (a & b & Ra & Rb & E) Hk Hb U. pose proof (reach_wf _ _ _ Ra) as Wa. pose proof (reach_wf _ _ _ Rb) as Wb.
  assert (X : exists o, v2_merge_with (vec_op o) (arr_op o) pr L a b = (g, Ok tt)) by (destruct E; [exists op_or|exists op_and]; auto). destruct X as [o X].
  destruct (v2_merge_sem o pr L a b g _ Wa Wb X) as [(_ & _ & Q)|(_ & M)]; [discriminate|]. destruct (me_frame _ _ _ _ _ _ _ M) as (F1 & F2 & F3 & F4 & F5 & F6 & F7 & F8).
  assert (Ek : v2_n_hash_buck g = v2_n_hash_buck a) by congruence. assert (El : len (v2_buckets a) = len (v2_buckets g)) by congruence.
  destruct (merge_sum o pr L a b g HL Wa Wb X) as (_ & _ & _ & C & O); [now rewrite <- Ek|now rewrite El|exact U|]. split; [exact C|exact O].
Qed.
(** Of two merged filters with the same parameters, the one with more bits does not count less. *)
Theorem C105_v2 pr pr' wy wy' L g h : libm_accurate L -> v2_merged pr wy L g -> v2_merged pr' wy' L h -> v2_same_frame g h -> 1 <= v2_n_hash_buck h <= 2 ^ 53 -> len (v2_buckets h) <= 2 ^ 44 ->
  v2_unsaturated h -> v2_bits_in g h -> v2_count_estimate g <= v2_count_estimate h.
Proof.
  intros HL Mg Mh (F1 & F2 & F3 & F4 & F5 & F6 & F7 & F8) Hk Hb Uh I. change (2 ^ 53) with 9007199254740992 in Hk. change (2 ^ 44) with 17592186044416 in Hb. assert (El : length (v2_buckets g) = length (v2_buckets h)) by (unfold len in F7; lia).
  assert (Ug : v2_unsaturated g). { intros k Hl. destruct (Uh k) as (i & Hi & B); [now rewrite F7|]. exists i. split; [exact Hi|]. destruct (v2_bit g k i) eqn:E; [|reflexivity]. rewrite (I _ _ E) in B. discriminate. }
  destruct (merged_sum pr wy L g HL Mg) as (Cg & _); [now rewrite <- F6|now rewrite <- F7|exact Ug|]. destruct (merged_sum pr' wy' L h HL Mh Hk Hb Uh) as (Ch & Oh).
  change (v2_count_estimate g) with (v2_count g). change (v2_count_estimate h) with (v2_count h). rewrite Cg, Ch, El, F6. apply sumN_mono. intros j Hj. apply in_seq in Hj. apply est_bucket_mono; [exact HL| |apply Oh; lia|now rewrite <- F6].
  rewrite !v2_ones_def. apply count_below_mono. intros i _. apply I.
Qed.
Print Assumptions C105_v2.
Lemma merge_bits o pr wy L a b g : v2_reach wy L a -> v2_reach wy L b -> v2_merge_with (vec_op o) (arr_op o) pr L a b = (g, Ok tt) ->
  v2_same_frame a g /\ forall k i, v2_bit g k i = bo_bool o (v2_bit a k i) (v2_bit b k i).
Proof.
  intros Ra Rb E. destruct (v2_merge_sem o pr L a b g _ (reach_wf _ _ _ Ra) (reach_wf _ _ _ Rb) E) as [(_ & _ & Q)|(_ & M)]; [discriminate|]. split; [exact (me_frame _ _ _ _ _ _ _ M)|exact (me_bits _ _ _ _ _ _ _ M)].
Qed.
Lemma reach_union pr wy L a b g : v2_reach wy L a -> v2_reach wy L b -> v2_union_merge pr L a b = (g, Ok tt) -> v2_reach wy L g.
Proof. intros (K & A) (K' & B) E. eexists. exact (vh_union _ _ _ _ _ _ _ _ A B E). Qed.
Lemma reach_inter pr wy L a b g : v2_reach wy L a -> v2_reach wy L b -> v2_intersection_merge pr L a b = (g, Ok tt) -> v2_reach wy L g.
Proof. intros (K & A) (K' & B) E. eexists. exact (vh_inter _ _ _ _ _ _ _ _ _ A B E (or_introl eq_refl)). Qed.
(** Merging in a further filter never lowers the count that the previous merge computed; intersecting with one never raises it. *)
Theorem C105_v2_steps pr wy L a b c g h : libm_accurate L -> v2_reach wy L a -> v2_reach wy L b -> v2_reach wy L c -> 1 <= v2_n_hash_buck a <= 2 ^ 53 -> len (v2_buckets a) <= 2 ^ 44 ->
  (v2_union_merge pr L a b = (g, Ok tt) -> v2_union_merge pr L g c = (h, Ok tt) -> v2_unsaturated h -> v2_count_estimate g <= v2_count_estimate h) /\
  (v2_intersection_merge pr L a b = (g, Ok tt) -> v2_intersection_merge pr L g c = (h, Ok tt) -> v2_unsaturated g -> v2_count_estimate h <= v2_count_estimate g).
Proof.
  intros HL Ra Rb Rc Hk Hb. split; intros E1 E2 U.
  - pose proof (reach_union _ _ _ _ _ _ Ra Rb E1) as Rg. destruct (merge_bits op_or pr wy L a b g Ra Rb E1) as ((F1 & F2 & F3 & F4 & F5 & F6 & F7 & F8) & _). destruct (merge_bits op_or pr wy L g c h Rg Rc E2) as (G & B). assert (G' := G). destruct G' as (G1 & G2 & G3 & G4 & G5 & G6 & G7 & G8).
    apply (C105_v2 pr pr wy wy L g h HL); [exists a, b; auto|exists g, c; auto|exact G|rewrite G6, F6; exact Hk|rewrite G7, F7; exact Hb|exact U|]. intros j i Q. rewrite B. cbn. now rewrite Q.
  - pose proof (reach_inter _ _ _ _ _ _ Ra Rb E1) as Rg. destruct (merge_bits op_and pr wy L a b g Ra Rb E1) as ((F1 & F2 & F3 & F4 & F5 & F6 & F7 & F8) & _). destruct (merge_bits op_and pr wy L g c h Rg Rc E2) as (G & B).
    apply (C105_v2 pr pr wy wy L h g HL); [exists g, c; auto|exists a, b; auto|apply frame_sym; exact G|rewrite F6; exact Hk|rewrite F7; exact Hb|exact U|]. intros j i Q. rewrite B in Q. cbn in Q. now apply Bool.andb_true_iff in Q.
Qed.
Print Assumptions C105_v2_steps.
(** The number of common entries reported for two filters is at most the count of their union. *)
Theorem C105_v2_common pr wy L a b g n : libm_accurate L -> v2_reach wy L a -> v2_reach wy L b -> 1 <= v2_n_hash_buck a <= 2 ^ 53 -> len (v2_buckets a) <= 2 ^ 44 ->
  v2_union_merge pr L a b = (g, Ok tt) -> v2_unsaturated g -> v2_count_common_entries pr L a b = Ok n -> n <= v2_count_estimate g.
Proof.
  intros HL Ra Rb Hk Hb E U Cn. pose proof (reach_wf _ _ _ Ra) as Wa. pose proof (reach_wf _ _ _ Rb) as Wb. destruct (v2_merge_sem op_or pr L a b g _ Wa Wb E) as [(_ & _ & Q)|(S & M)]; [discriminate|].
  destruct (v2_merge_ok op_and pr L a b Wa Wb S) as (h & r & E' & M'). pose proof (me_frame _ _ _ _ _ _ _ M) as F. pose proof (me_frame _ _ _ _ _ _ _ M') as F'. destruct F as (F1 & F2 & F3 & F4 & F5 & F6 & F7 & F8). destruct F' as (G1 & G2 & G3 & G4 & G5 & G6 & G7 & G8).
  assert (I : v2_bits_in h g). { intros j i Q. rewrite (me_bits _ _ _ _ _ _ _ M') in Q. rewrite (me_bits _ _ _ _ _ _ _ M). cbn in *. apply Bool.andb_true_iff in Q as [-> _]. reflexivity. }
  assert (Uh : v2_unsaturated h). { intros k Hl. destruct (U k) as (i & Hi & B); [rewrite F7, <- G7; exact Hl|]. exists i. split; [exact Hi|]. destruct (v2_bit h k i) eqn:Q; [|reflexivity]. rewrite (I _ _ Q) in B. discriminate. }
  assert (r = Ok tt) as ->.
  { pose proof (me_cases _ _ _ _ _ _ _ M') as C. destruct r as [[]|e|]; [reflexivity|contradiction|]. exfalso. destruct C as (_ & C & _). pose proof (me_wf _ _ _ _ _ _ _ M') as Wh.
    rewrite (v2_estimates_eq L h Wh) in C. change (2 ^ 53) with 9007199254740992 in Hk. change (2 ^ 44) with 17592186044416 in Hb.
    assert (S' : sumN (map (fun j => estimate_count L 32768 (v2_ones h j) (v2_n_hash_buck h)) (seq 0 (length (v2_buckets h)))) <= len (v2_buckets h) * 524288).
    { replace (len (v2_buckets h)) with (len (map (fun j => estimate_count L 32768 (v2_ones h j) (v2_n_hash_buck h)) (seq 0 (length (v2_buckets h))))) by (unfold len; now rewrite map_length, seq_length). apply sumN_le. apply Forall_map, Forall_forall. intros j Hj. apply in_seq in Hj.
      apply est_bucket_le; [exact HL|apply v2_ones_lt; [exact Wh|exact Uh|lia]|rewrite G6; exact Hk]. }
    rewrite G7 in S'. change two64 with 18446744073709551616 in C. lia. }
  rewrite (C54_v2_common_is_intersection pr wy L a b h Ra Rb E') in Cn. injection Cn as <-.
  apply (C105_v2 pr pr wy wy L h g HL); [exists a, b; auto|exists a, b; auto| |rewrite F6; exact Hk|rewrite F7; exact Hb|exact U|].
  - repeat split; congruence.
  - exact I.
Qed.
Print Assumptions C105_v2_common.

(** ** Version 1 *)
Definition v1_merged (L : libm) (g : v1) : Prop := exists a b, v1_reach L a /\ v1_reach L b /\ v1_union_merge L a b = (g, Ok tt).
Definition v1_bits_in (g h : v1) : Prop := forall i, v1_bit g i = true -> v1_bit h i = true.
Theorem C105_v1 L g h : libm_accurate L -> v1_merged L g -> v1_merged L h -> v1_same_frame g h -> 1 <= v1_n_hash h <= 2 ^ 53 -> 1 <= v1_bit_size h <= 2 ^ 40 -> 4 * v1_ones h <= 3 * v1_bit_size h ->
  v1_bits_in g h -> v1_count_estimate g <= v1_count_estimate h.
Proof.
  intros HL (a & b & Ra & Rb & E) (c & d & Rc & Rd & E') (F1 & F2 & F3 & F4 & F5 & F6 & F7) Hk Hm Ho I.
  destruct (v1_union_sem _ _ _ _ _ (v1_reach_wf _ _ Ra) (v1_reach_wf _ _ Rb) E) as [(_ & _ & Q)|(_ & _ & V)]; [discriminate|]. destruct (v1_union_sem _ _ _ _ _ (v1_reach_wf _ _ Rc) (v1_reach_wf _ _ Rd) E') as [(_ & _ & Q)|(_ & _ & V')]; [discriminate|].
  change (v1_count_estimate g) with (v1_count g). change (v1_count_estimate h) with (v1_count h). rewrite (u1_count _ _ _ _ V), (u1_count _ _ _ _ V'), (v1_ones_eq g (u1_wf _ _ _ _ V)), (v1_ones_eq h (u1_wf _ _ _ _ V')), F4, F5.
  rewrite <- F4, <- F5. apply est_v1_mono; [exact HL|exact Hm| |exact Ho|exact Hk]. unfold v1_ones. rewrite F7. apply count_below_mono. intros i _. apply I.
Qed.
Print Assumptions C105_v1.
Theorem C105_v1_steps L a b c g h : libm_accurate L -> v1_reach L a -> v1_reach L b -> v1_reach L c -> v1_union_merge L a b = (g, Ok tt) -> v1_union_merge L g c = (h, Ok tt) ->
  1 <= v1_n_hash a <= 2 ^ 53 -> 1 <= v1_bit_size a <= 2 ^ 40 -> 4 * v1_ones h <= 3 * v1_bit_size a -> v1_count_estimate g <= v1_count_estimate h.
Proof.
  intros HL Ra Rb Rc E E' Hk Hm Ho. assert (Rg : v1_reach L g) by (destruct Ra as (K & A), Rb as (K' & B); eexists; exact (h1_union _ _ _ _ _ _ A B E)).
  destruct (v1_union_sem _ _ _ _ _ (v1_reach_wf _ _ Ra) (v1_reach_wf _ _ Rb) E) as [(_ & _ & Q)|(_ & _ & V)]; [discriminate|]. destruct (v1_union_sem _ _ _ _ _ (v1_reach_wf _ _ Rg) (v1_reach_wf _ _ Rc) E') as [(_ & _ & Q)|(_ & _ & V')]; [discriminate|].
  destruct (u1_frame _ _ _ _ V) as (F1 & F2 & F3 & F4 & F5 & F6 & F7). pose proof (u1_frame _ _ _ _ V') as G. assert (G' := G). destruct G' as (G1 & G2 & G3 & G4 & G5 & G6 & G7).
  apply (C105_v1 L g h HL); [exists a, b; auto|exists g, c; auto|exact G|rewrite G4, F4; exact Hk|rewrite G5, F5; exact Hm|rewrite G5, F5; exact Ho|]. intros i Q. rewrite (u1_bits _ _ _ _ V'), Q. reflexivity.
Qed.
Print Assumptions C105_v1_steps.
Theorem C105_v1_common L a b g n : libm_accurate L -> v1_reach L a -> v1_reach L b -> v1_union_merge L a b = (g, Ok tt) -> 1 <= v1_n_hash a <= 2 ^ 53 -> 1 <= v1_bit_size a <= 2 ^ 40 -> 4 * v1_ones g <= 3 * v1_bit_size a ->
  v1_count_common_entries L a b = Ok n -> n <= v1_count_estimate g.
Proof.
  intros HL Ra Rb E Hk Hm Ho Cn. destruct (v1_union_sem _ _ _ _ _ (v1_reach_wf _ _ Ra) (v1_reach_wf _ _ Rb) E) as [(_ & _ & Q)|(S & _ & V)]; [discriminate|]. apply v1_same_params_iff in S.
  rewrite (C54_v1_common_bits L a b Ra Rb S) in Cn. injection Cn as <-. change (v1_count_estimate g) with (v1_count g). rewrite (u1_count _ _ _ _ V), (v1_ones_eq g (u1_wf _ _ _ _ V)).
  destruct (u1_frame _ _ _ _ V) as (F1 & F2 & F3 & F4 & F5 & F6 & F7). rewrite F4, F5. apply est_v1_mono; [exact HL|exact Hm| |exact Ho|exact Hk]. unfold v1_ones. rewrite F7. apply count_below_mono. intros i _ Q.
  rewrite (u1_bits _ _ _ _ V). apply Bool.andb_true_iff in Q as [-> _]. reflexivity.
Qed.
Print Assumptions C105_v1_common.

(** ** The counts before a merge *)
(** Full statement: the union counts at least what each operand counted. It does not: the entry "amg" sets six bits, not seven, and merging
    an empty filter into the one that holds it makes the count 0. *)
Definition amg : key := KSlice [97; 109; 103].
Definition fg1 : v2 := Eval vm_compute in ins ex_wy fn0 amg.
Definition fg2 : v2 := Eval vm_compute in fst (v2_union_merge Release ref_libm fg1 fn0).
Theorem C105_operand_refuted : exists wy a b g, v2_reach wy ref_libm a /\ v2_reach wy ref_libm b /\ v2_union_merge Release ref_libm a b = (g, Ok tt) /\
  v2_count_estimate a = 1 /\ v2_contains wy g amg = Ok true /\ v2_count_estimate g = 0.
Proof.
  exists ex_wy, fg1, fn0, fg2. assert (R0 : v2_hist ex_wy ref_libm fn0 (fun _ => False)) by exact (vh_make ex_wy ref_libm Release 4 p001 ONone fn0 eq_refl eq_refl fn0_eq).
  assert (E : v2_insert Release ex_wy fn0 amg = (fg1, Ok true)) by (vm_compute; reflexivity). assert (U : v2_union_merge Release ref_libm fg1 fn0 = (fg2, Ok tt)) by (vm_compute; reflexivity).
  split; [eexists; refine (vh_insert _ _ _ _ _ _ _ _ R0 _ E); apply slice_ok; bytes|]. split; [eexists; exact R0|]. split; [exact U|]. split; [reflexivity|]. split; [vm_compute; reflexivity|reflexivity].
Qed.
Print Assumptions C105_operand_refuted.
(** Correctly rounded logarithms: a union of six entries counts 5 (one is in both), merging in "amg" leaves at least 5. *)
Example C105_example : exists g h, v2_reach ex_wy real_libm fa3 /\ v2_reach ex_wy real_libm fc3 /\ v2_reach ex_wy real_libm fg1 /\ v2_union_merge Release real_libm fa3 fc3 = (g, Ok tt) /\
  v2_union_merge Release real_libm g fg1 = (h, Ok tt) /\ v2_unsaturated h /\ v2_count_estimate g = 5 /\ 5 <= v2_count_estimate h.
Proof.
  assert (R : forall f, v2_wf f -> fl_reserved (v2_flags f) = [0;0;0;0;0;0] -> file_size_ok (v2_write f) -> v2_reach ex_wy real_libm f).
  { intros f W Z S. eexists. refine (vh_load ex_wy real_libm Debug _ f (write_bytes _ W) S _). rewrite v2_roundtrip by auto. now rewrite v2_canon_id. }
  pose proof (reach_wf _ _ _ (ex_intro _ _ fa3_hist)) as Wa. pose proof (reach_wf _ _ _ (ex_intro _ _ fc3_hist)) as Wc.
  assert (Wg1 : v2_wf fg1). { assert (E : v2_insert Release ex_wy fn0 amg = (fg1, Ok true)) by (vm_compute; reflexivity). refine (reach_wf ex_wy ref_libm fg1 _). eexists. refine (vh_insert _ _ _ _ _ _ _ _ (vh_make ex_wy ref_libm Release 4 p001 ONone fn0 eq_refl eq_refl fn0_eq) _ E). apply slice_ok. bytes. }
  assert (Ra : v2_reach ex_wy real_libm fa3) by (apply R; [exact Wa|reflexivity|unfold file_size_ok; rewrite write_len by exact Wa; reflexivity]).
  assert (Rc : v2_reach ex_wy real_libm fc3) by (apply R; [exact Wc|reflexivity|unfold file_size_ok; rewrite write_len by exact Wc; reflexivity]).
  assert (R1 : v2_reach ex_wy real_libm fg1) by (apply R; [exact Wg1|reflexivity|unfold file_size_ok; rewrite write_len by exact Wg1; reflexivity]).
  destruct C80_v2_real_example as (g & E & C). pose proof (reach_union _ _ _ _ _ _ Ra Rc E) as Rg. destruct (merge_bits op_or _ _ _ _ _ _ Ra Rc E) as (F & B). pose proof (reach_wf _ _ _ Rg) as Wg.
  assert (S : v2_has_same_params g fg1 = true). { apply same_params_wf; [exact Wg|exact Wg1|]. assert (Q : v2_same_frame fa3 fg1) by (repeat split). destruct F as (F1 & F2 & F3 & F4 & F5 & F6 & F7 & F8), Q as (Q1 & Q2 & Q3 & Q4 & Q5 & Q6 & Q7 & Q8). repeat split; congruence. }
  destruct (v2_merge_ok op_or Release real_libm g fg1 Wg Wg1 S) as (h & r & E' & M). pose proof (me_cases _ _ _ _ _ _ _ M) as Cs. destruct r as [[]|e|]; [|contradiction|destruct Cs; discriminate].
  assert (U : v2_unsaturated h). { intros k Hk. assert (k = 0) as ->. { destruct (me_frame _ _ _ _ _ _ _ M) as (_ & _ & _ & _ & _ & _ & Q & _). destruct F as (_ & _ & _ & _ & _ & _ & Q' & _). rewrite Q, Q' in Hk. change (len (v2_buckets fa3)) with 1 in Hk. lia. }
    exists 0. split; [reflexivity|]. rewrite (me_bits _ _ _ _ _ _ _ M), B. vm_compute. reflexivity. }
  exists g, h. split; [exact Ra|]. split; [exact Rc|]. split; [exact R1|]. split; [exact E|]. split; [exact E'|]. split; [exact U|]. split; [exact C|]. rewrite <- C.
  apply (proj1 (C105_v2_steps Release ex_wy real_libm fa3 fc3 fg1 g h real_libm_accurate Ra Rc R1 ltac:(vm_compute; split; discriminate) ltac:(vm_compute; discriminate))); auto.
Qed.
