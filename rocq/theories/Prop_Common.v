(** C81: the estimated number of common entries (v1.rs:396-406, v2.rs:554-572). *)
From Coq Require Import Lia Reals Lra.
From Verif Require Import M_Base M_Float M_BitSet M_Util M_V1 M_V2 M_RefLibm Spec_Bits Spec_Hash Spec_V1 Spec_V2 Spec_Real Spec_V2Hist Spec_Rate Spec_Count Spec_Common.
From Verif Require Import P_Base P_BitSet P_Hash P_HashMod P_V2 P_V2Sem P_V2Merge P_V2More P_V2Hist P_V2Props P_V2Codec P_V1 P_V1Codec P_V1Hist P_V1More P_V2Size P_V2Sat P_Fpp P_Real P_RealLibm P_Rate P_Est P_Count P_Common Ex_Base Ex_V1.
From Verif Require Import Prop_V1 Prop_V2Merge.
Open Scope N_scope.

(** ** What the answer is computed from *)
Lemma common_count m (p : N -> bool) l l' : (forall i, (i < m)%nat -> p (N.of_nat i) = mem i l && mem i l') -> count_below m p = N.of_nat (common m l l').
Proof.
  unfold common. rewrite <- cnt_filter. intro H. induction m as [|m IH]; [reflexivity|]. cbn [count_below cnt]. rewrite IH by (intros; apply H; lia). rewrite (H m) by lia. destruct (mem m l && mem m l'); lia.
Qed.
(** Version 1: the bits that belong to an entry of [a] and to an entry of [b]. *)
Theorem C81_v1_answer L a b Ka Kb ks ks' : v1_kept L a Ka -> v1_kept L b Kb -> (forall x, Ka x <-> In x ks) -> (forall x, Kb x <-> In x ks') ->
  v1_has_same_params a b = true -> v1_bit_size a <> 0 ->
  let pos x := map N.to_nat (v1_positions a x) in
  v1_count_common_entries L a b = Ok (estimate_count L (v1_bit_size a) (N.of_nat (common (N.to_nat (v1_bit_size a)) (flat_map pos ks) (flat_map pos ks'))) (v1_n_hash a)).
Proof.
  intros Ha Hb Ea Eb Sp B0 pos. destruct (v1_kept_inv _ _ _ Ha) as (Wa & [Ua _] & Pa). destruct (v1_kept_inv _ _ _ Hb) as (Wb & _ & Pb). rewrite v1_common_eq, Sp.
  apply v1_same_params_iff in Sp as (_ & _ & _ & EN & EB & EL). rewrite v1_common_ones by (auto; now symmetry).
  assert (Q : forall x, v1_positions b x = v1_positions a x) by (intro x; unfold v1_positions; now rewrite EN, EB).
  assert (M : forall f ks0 K, (forall x, K x <-> In x ks0) -> (forall i, v1_bit f i = true <-> exists x, K x /\ In i (v1_positions a x)) -> forall i, v1_bit f i = mem (N.to_nat i) (flat_map pos ks0)).
  { intros f ks0 K EK P i. apply eq_true_iff_eq. rewrite P, mem_In, in_flat_map. split; intros (x & Kx & Hi); exists x; (split; [now apply EK|]); unfold pos in *.
    - now apply in_map. - apply in_map_iff in Hi as (y & E & Hy). apply N2Nat.inj in E. now subst y. }
  assert (Ma := M a ks Ka Ea Pa). assert (Mb : forall i, v1_bit b i = mem (N.to_nat i) (flat_map pos ks')). { apply (M b ks' Kb Eb). intro i. rewrite Pb. split; intros (x & Kx & Hi); exists x; rewrite Q in *; auto. }
  do 2 f_equal. rewrite (count_below_extend (N.to_nat (v1_bit_size a))).
  - apply common_count. intros i _. now rewrite Ma, Mb, Nat2N.id.
  - lia.
  - intros i Hi. rewrite N2Nat.id in Hi. destruct (v1_bit a i) eqn:E; [|reflexivity]. apply Pa in E as (x & _ & E). apply dcso_positions_lt in E; [lia|exact B0].
Qed.
Print Assumptions C81_v1_answer.

Lemma common_estimates_eq L a b : v2_wf a -> v2_wf b -> length (v2_buckets a) = length (v2_buckets b) -> common_estimates L a b =
  map (fun j => estimate_count L 32768 (count_below (N.to_nat 32768) (fun i => v2_bit a (N.of_nat j) i && v2_bit b (N.of_nat j) i)) (v2_n_hash_buck a)) (seq 0 (length (v2_buckets a))).
Proof.
  intros Wa Wb EL. unfold common_estimates. rewrite (seq_list ([], [])). rewrite combine_length, <- EL, Nat.min_id. apply map_ext_in. intros j Hj. apply in_seq in Hj. rewrite combine_nth by exact EL. cbn [fst snd].
  pose proof (wf_buckets _ Wa) as Fa. pose proof (wf_buckets _ Wb) as Fb. rewrite Forall_forall in Fa, Fb. destruct (Fa (nth j (v2_buckets a) []) ltac:(apply nth_In; lia)) as [La Ba]. destruct (Fb (nth j (v2_buckets b) []) ltac:(apply nth_In; lia)) as [Lb Bb].
  f_equal. set (x := nth j (v2_buckets a) []) in *. set (y := nth j (v2_buckets b) []) in *.
  assert (Z : zip_with N.land x y = Ok (map (fun p => N.land (fst p) (snd p)) (combine x y))) by (apply zip_with_Ok; lia).
  rewrite <- (map_map (fun p => N.land (fst p) (snd p)) count_ones), (sumN_count 8); [|discriminate|].
  - rewrite (zip_with_len _ _ _ _ Z). assert (L8 : 8 * len x = 32768) by (unfold len; rewrite La; lia). rewrite L8. apply count_below_ext. intros i _. unfold v2_bit, getN. rewrite Nat2N.id. rewrite (nth_error_nth' (v2_buckets a) []), (nth_error_nth' (v2_buckets b) []) by lia.
    fold x y. apply (bit_land 8 _ _ _ i); [unfold len; lia|exact Z].
  - eapply zip_with_words; [|exact Ba|exact Bb|exact Z]. intros u v Hu Hv. now apply land_lt.
Qed.
(** Version 2: the sum over the buckets of the estimates for the bits common to the entries of [a] and of [b] that select the bucket. *)
Theorem C81_v2_answer pr wy L a b Ka Ca Kb Cb ks ks' : v2_kept wy L a Ka Ca -> v2_kept wy L b Kb Cb -> (forall x, Ka x <-> In x ks) -> (forall x, Kb x <-> In x ks') -> v2_same_frame a b ->
  let pos x := map N.to_nat (v2_positions wy a (hash_pop wy x)) in
  let in_bucket j x := N.eqb (N.of_nat j) (v2_bucket_of a (hash_pop wy x)) in
  v2_count_common_entries pr L a b = checked_sum pr (map (fun j => estimate_count L 32768
    (N.of_nat (common (N.to_nat 32768) (flat_map pos (filter (in_bucket j) ks)) (flat_map pos (filter (in_bucket j) ks')))) (v2_n_hash_buck a)) (seq 0 (length (v2_buckets a)))).
Proof.
  intros Ha Hb Ea Eb F pos in_bucket. destruct (v2_kept_inv _ _ _ _ _ Ha) as (Wa & Pa & _). destruct (v2_kept_inv _ _ _ _ _ Hb) as (Wb & Pb & _).
  rewrite common_eq, (proj2 (same_params_wf a b Wa Wb) F) by auto. assert (EL : length (v2_buckets a) = length (v2_buckets b)) by (destruct F as (_ & _ & _ & _ & _ & _ & Q & _); unfold len in Q; lia).
  rewrite common_estimates_eq by auto. f_equal. apply map_ext. intro j. f_equal.
  assert (M : forall f ks0 K, (forall x, K x <-> In x ks0) -> (forall b i, v2_bit f b i = true <-> exists x, K x /\ key_bit wy a x b i) -> forall i, v2_bit f (N.of_nat j) i = mem (N.to_nat i) (flat_map pos (filter (in_bucket j) ks0))).
  { intros f ks0 K EK P i. apply eq_true_iff_eq. rewrite P, mem_In, in_flat_map. split.
    - intros (x & Kx & E & Hi). exists x. split; [apply filter_In; split; [now apply EK|now apply N.eqb_eq]|now apply in_map].
    - intros (x & Kx & Hi). apply filter_In in Kx as [Kx E]. apply N.eqb_eq in E. exists x. split; [now apply EK|]. split; [exact E|]. apply in_map_iff in Hi as (y & E' & Hy). apply N2Nat.inj in E'. now subst y. }
  apply common_count. intros i _. rewrite (M a ks Ka Ea Pa), (M b ks' Kb Eb), Nat2N.id; [reflexivity|]. intros c i'. rewrite Pb. split; intros (x & Kx & H); exists x; (split; [exact Kx|]); now apply (key_bit_frame wy a b x c i' F).
Qed.
Print Assumptions C81_v2_answer.

(** ** Common entries are not missed *)
Lemma sum_parts (B : nat) (g : key -> nat) ks : (forall x, (g x < B)%nat) -> sumN (map (fun j => len (filter (fun x => Nat.eqb j (g x)) ks)) (seq 0 B)) = len ks.
Proof.
  intro H. induction ks as [|x ks IH]; [cbn [filter]; change (len (@nil key)) with 0; induction (seq 0 B); [reflexivity|exact IHl]|]. rewrite len_cons, <- IH. clear IH.
  assert (E : forall l, NoDup l -> sumN (map (fun j => len (filter (fun x => Nat.eqb j (g x)) (x :: ks))) l) = (if in_dec Nat.eq_dec (g x) l then 1 else 0) + sumN (map (fun j => len (filter (fun x => Nat.eqb j (g x)) ks)) l)).
  { induction l as [|j l IH]; intro D; [reflexivity|]. apply NoDup_cons_iff in D as [Nj D]. cbn [map sumN fold_right]. fold (sumN (map (fun j => len (filter (fun x => Nat.eqb j (g x)) (x :: ks))) l)) (sumN (map (fun j => len (filter (fun x => Nat.eqb j (g x)) ks)) l)). rewrite (IH D).
    cbn [filter]. destruct (Nat.eqb_spec j (g x)) as [E|E].
    - subst j. rewrite len_cons. destruct (in_dec Nat.eq_dec (g x) l); [contradiction|]. destruct (in_dec Nat.eq_dec (g x) (g x :: l)) as [_|Q]; [lia|]. exfalso. apply Q. now left.
    - destruct (in_dec Nat.eq_dec (g x) l) as [I|I], (in_dec Nat.eq_dec (g x) (j :: l)) as [I'|I']; try lia; exfalso; [apply I'; now right|]. destruct I' as [I'|I']; contradiction. }
  rewrite E by apply seq_NoDup. destruct (in_dec Nat.eq_dec (g x) (seq 0 B)) as [_|Q]; [lia|]. exfalso. apply Q. apply in_seq. pose proof (H x). lia.
Qed.
Lemma flat_len (k : N) (pos : key -> list N) ks : (forall x, len (pos x) = k) -> len (flat_map pos ks) = k * len ks.
Proof. intro H. induction ks as [|x ks IH]; [cbn; now rewrite N.mul_0_r|]. cbn [flat_map]. rewrite len_app, IH, H, len_cons. lia. Qed.
Lemma sumN_lt B l : Forall (fun x => x <= 524288) l -> len l = B -> B <= 17592186044416 -> sumN l < two64.
Proof. intros F E H. apply sumN_le in F. rewrite E in F. unfold two64. lia. Qed.
(** Entries of both filters whose positions are all different within each bucket are all counted, as long as no bucket has all its
    bits in common. *)
Theorem C81_v2_counted pr wy L a b Ka Kb ks : libm_accurate L -> v2_hist wy L a Ka -> v2_hist wy L b Kb -> v2_same_frame a b -> (forall x, In x ks -> Ka x /\ Kb x) ->
  1 <= v2_n_hash_buck a <= 2 ^ 53 -> 1 <= len (v2_buckets a) <= 2 ^ 44 ->
  (forall j, j < len (v2_buckets a) -> exists i, i < 32768 /\ v2_bit a j i && v2_bit b j i = false) ->
  (forall j, NoDup (flat_map (fun x => v2_positions wy a (hash_pop wy x)) (filter (fun x => Nat.eqb j (N.to_nat (v2_bucket_of a (hash_pop wy x)))) ks))) ->
  exists c, v2_count_common_entries pr L a b = Ok c /\ len ks <= c.
Proof.
  intros HL Ha Hb F HK Hk HB HU HD. destruct (v2_hist_inv _ _ _ _ Ha) as (Wa & Pa). destruct (v2_hist_inv _ _ _ _ Hb) as (Wb & Pb).
  rewrite common_eq, (proj2 (same_params_wf a b Wa Wb) F) by auto. assert (EL : length (v2_buckets a) = length (v2_buckets b)) by (destruct F as (_ & _ & _ & _ & _ & _ & Q & _); unfold len in Q; lia).
  rewrite common_estimates_eq by auto. set (ones := fun j => count_below (N.to_nat 32768) (fun i => v2_bit a (N.of_nat j) i && v2_bit b (N.of_nat j) i)).
  change (map (fun j => estimate_count L 32768 (count_below (N.to_nat 32768) (fun i => v2_bit a (N.of_nat j) i && v2_bit b (N.of_nat j) i)) (v2_n_hash_buck a)) (seq 0 (length (v2_buckets a)))) with (map (fun j => estimate_count L 32768 (ones j) (v2_n_hash_buck a)) (seq 0 (length (v2_buckets a)))).
  assert (Lt : forall j, (j < length (v2_buckets a))%nat -> ones j < 32768).
  { intros j Hj. destruct (HU (N.of_nat j) ltac:(unfold len; lia)) as (i & Hi & E). unfold ones. pose proof (N2Nat.id 32768) as En. revert En. generalize (N.to_nat 32768). intros n En.
    pose proof (count_below_negb n (fun i => v2_bit a (N.of_nat j) i && v2_bit b (N.of_nat j) i)) as Q. assert (X : count_below n (fun i' => existsb (N.eqb i') [i]) <= count_below n (fun i => negb (v2_bit a (N.of_nat j) i && v2_bit b (N.of_nat j) i))).
    { apply count_below_mono. intros i' _ E'. cbn [existsb] in E'. rewrite orb_false_r in E'. apply N.eqb_eq in E'. subst i'. now rewrite E. }
    rewrite count_list in X; [change (len [i]) with 1 in X; lia|constructor; [easy|constructor]|]. intros y [<-|[]]. lia. }
  rewrite checked_sum_spec. rewrite (proj2 (N.ltb_lt _ _)).
  2:{ apply (sumN_lt (len (v2_buckets a))); [|unfold len; now rewrite map_length, seq_length|exact (proj2 HB)]. apply Forall_forall. intros e He. apply in_map_iff in He as (j & <- & Hj). apply in_seq in Hj. apply est_bucket_le; [exact HL|apply Lt; lia|exact Hk]. }
  eexists. split; [reflexivity|]. rewrite <- (sum_parts (length (v2_buckets a)) (fun x => N.to_nat (v2_bucket_of a (hash_pop wy x))) ks).
  2:{ intro x. unfold v2_bucket_of. pose proof (N.mod_lt (xorshift_star (hash_pop wy x)) (len (v2_buckets a)) ltac:(lia)) as Q. unfold len in *. lia. }
  apply sumN_mono. intros j Hj. apply in_seq in Hj. apply N.le_trans with (2 := est_bucket_lower L (ones j) (v2_n_hash_buck a) HL (Lt j ltac:(lia)) Hk).
  apply N.div_le_lower_bound; [lia|]. set (pos := fun x => v2_positions wy a (hash_pop wy x)) in *. set (kj := filter (fun x => Nat.eqb j (N.to_nat (v2_bucket_of a (hash_pop wy x)))) ks) in *.
  rewrite <- (flat_len (v2_n_hash_buck a) pos kj) by (intro x; unfold pos, v2_positions, len; rewrite edh_positions_length; apply N2Nat.id).
  unfold ones. rewrite <- (count_list (N.to_nat 32768) (flat_map pos kj)); [|exact (HD j)|].
  - apply count_below_mono. intros i _ E. apply existsb_exists in E as (y & Hy & E). apply N.eqb_eq in E. subst y. apply in_flat_map in Hy as (x & Hx & Hi). apply filter_In in Hx as [Hx E]. apply Nat.eqb_eq in E. destruct (HK x Hx) as [A B].
    assert (EJ : v2_bucket_of a (hash_pop wy x) = N.of_nat j) by lia. destruct (Pa x A) as (_ & _ & _ & _ & Ca). destruct (Pb x B) as (_ & _ & _ & _ & Cb). unfold v2_covered in Ca, Cb.
    rewrite (frame_bucket_of _ _ _ F), (frame_positions _ _ _ _ F), EJ in Cb. rewrite EJ in Ca. rewrite forallb_forall in Ca, Cb. apply andb_true_iff. split; [exact (Ca i Hi)|exact (Cb i Hi)].
  - intros i Hi. apply in_flat_map in Hi as (x & _ & Hi). apply edh_positions_lt in Hi. rewrite N2Nat.id. lia.
Qed.
Print Assumptions C81_v2_counted.
(** The filters of Prop_V2Merge share the key [7]: it is counted whatever accurate logarithm is used. *)
Lemma any_load L f : v2_wf f -> fl_reserved (v2_flags f) = [0;0;0;0;0;0] -> file_size_ok (v2_write f) -> v2_hist ex_wy L f (fun _ => False).
Proof. intros W Z Sz. refine (vh_load ex_wy L Debug _ f (write_bytes _ W) Sz _). rewrite v2_roundtrip by auto. now rewrite v2_canon_id. Qed.
Example C81_v2_counted_example : exists c, v2_count_common_entries Release real_libm fa3 fc3 = Ok c /\ 1 <= c.
Proof.
  pose proof (reach_wf _ _ _ (ex_intro _ _ (fn0_hist ex_wy))) as W0. assert (H0 : v2_hist ex_wy real_libm fn0 (fun _ => False)) by (apply any_load; [exact W0|reflexivity|unfold file_size_ok; rewrite write_len by exact W0; reflexivity]).
  pose proof (vh_insert _ _ _ _ _ _ _ _ (vh_insert _ _ _ _ _ _ _ _ (vh_insert _ _ _ _ _ _ _ _ H0 (slice_ok [1; 2; 3] ltac:(bytes)) fa1_eq) (slice_ok [5; 6] ltac:(bytes)) fa2_eq) (slice_ok [7] ltac:(bytes)) fa3_eq) as Ha.
  pose proof (vh_insert _ _ _ _ _ _ _ _ (vh_insert _ _ _ _ _ _ _ _ (vh_insert _ _ _ _ _ _ _ _ H0 (slice_ok [11; 2; 3] ltac:(bytes)) fc1_eq) (slice_ok [15; 6] ltac:(bytes)) fc2_eq) (slice_ok [7] ltac:(bytes)) fc3_eq) as Hc.
  apply (C81_v2_counted Release ex_wy real_libm fa3 fc3 _ _ [KSlice [7]] real_libm_accurate Ha Hc).
  - apply same_params_wf; [exact (proj1 (v2_hist_inv _ _ _ _ Ha))|exact (proj1 (v2_hist_inv _ _ _ _ Hc))|vm_compute; reflexivity].
  - intros x [<-|[]]. split; now left.
  - vm_compute. split; discriminate.
  - vm_compute. split; discriminate.
  - intros j Hj. change (len (v2_buckets fa3)) with 1 in Hj. assert (j = 0) by lia. subst j. exists 0. split; [reflexivity|vm_compute; reflexivity].
  - intro j. destruct j as [|j].
    + set (l := flat_map _ _). assert (E : forallb (fun i => N.eqb (len (filter (N.eqb i) l)) 1) l = true) by (vm_compute; reflexivity).
      assert (D : forall l, forallb (fun i => N.eqb (len (filter (N.eqb i) l)) 1) l = true -> NoDup l); [|exact (D l E)]. clear. intros l H. rewrite forallb_forall in H. apply (NoDup_count_occ' N.eq_dec). intros x Hx. specialize (H x Hx). apply N.eqb_eq in H.
      transitivity (length (filter (N.eqb x) l)); [|unfold len in H; lia]. clear. induction l as [|y l IH]; [reflexivity|]. cbn [count_occ filter]. destruct (N.eq_dec y x) as [->|E]; [rewrite N.eqb_refl; cbn [length]; now rewrite IH|]. rewrite (proj2 (N.eqb_neq x y)) by congruence. exact IH.
    + replace (filter _ _) with (@nil key); [constructor|]. cbn [filter]. replace (N.to_nat (v2_bucket_of fa3 (hash_pop ex_wy (KSlice [7])))) with 0%nat by (vm_compute; reflexivity). reflexivity.
Qed.

(** ** Entries that are not common are counted too *)
Lemma est_affine L k x : libm_accurate L -> lm_ln L (S754_zero false) = S754_infinity true -> 1 <= k <= 9007199254740992 -> x <= 32768 ->
  (/ IZR (Z.of_N k) * IZR (Z.of_N x) + - (1) <= IZR (Z.of_N (estimate_count L 32768 x k)))%R.
Proof.
  intros HL HI Hk Hx. set (K := IZR (Z.of_N k)). assert (K1 : (1 <= K)%R) by (apply IZR_le; lia). assert (Ki : (0 < / K <= 1)%R) by (split; [apply Rinv_0_lt_compat; lra|rewrite <- Rinv_1; apply Rinv_le_contravar; lra]).
  destruct (N.eq_dec x 32768) as [->|Ne].
  - change 32768 with bucket_bit_size at 2. rewrite sat_estimate by (auto; unfold two64; lia). change (IZR (Z.of_N 32768)) with 32768%R. change (IZR (Z.of_N u64_max)) with 18446744073709551615%R. lra.
  - pose proof (est_bucket_lower L x k HL ltac:(lia) Hk) as E. apply Rle_trans with (IZR (Z.of_N (x / k))); [|apply IZR_le; lia]. apply Rmult_le_reg_l with K; [lra|].
    replace (K * (/ K * IZR (Z.of_N x) + - (1)))%R with (IZR (Z.of_N x) - K)%R by (field; lra). unfold K. rewrite <- minus_IZR, <- mult_IZR. apply IZR_le. pose proof (N.div_mod x k ltac:(lia)) as D. pose proof (N.mod_lt x k ltac:(lia)) as M.
    revert D M. generalize (x / k) (x mod k). intros q r D M. nia.
Qed.
(** Two buckets filled at random with [n] and [n'] entries, none of them common: the estimate is on average at least
    (32768 / k)(1 - u)(1 - u') - 1, with u and u' the shares of the bits the entries leave unset. *)
Theorem C81_average L k n n' : libm_accurate L -> lm_ln L (S754_zero false) = S754_infinity true -> (1 <= N.of_nat k <= 2 ^ 53) ->
  let m := N.to_nat 32768 in
  (32768 / INR k * ((1 - untouched m (k * n)) * (1 - untouched m (k * n'))) - 1 <= ideal_common m k n n' (fun x => IZR (Z.of_N (estimate_count L 32768 (N.of_nat x) (N.of_nat k)))))%R.
Proof.
  intros HL HI Hk m. assert (En : N.of_nat m = 32768) by apply N2Nat.id. clearbody m.
  apply Rle_trans with (ideal_common m k n n' (fun x => / INR k * INR x + - (1)))%R.
  - rewrite ideal_common_lin, avg_common by lia. replace (INR m) with 32768%R; [right; unfold Rdiv; ring|]. rewrite INR_IZR_INZ, <- nat_N_Z, En. reflexivity.
  - apply ideal_common_le. intros x Hx. rewrite !INR_IZR_INZ, <- !nat_N_Z. apply est_affine; [exact HL|exact HI|exact Hk|lia].
Qed.
Print Assumptions C81_average.
(** When both hold enough entries to set half of the bits, as a bucket filled to its capacity does, that is a quarter of 32768 / k. *)
Theorem C81_average_full L k n n' : libm_accurate L -> lm_ln L (S754_zero false) = S754_infinity true -> (1 <= N.of_nat k <= 2 ^ 53) ->
  22715 <= N.of_nat (k * n) -> 22715 <= N.of_nat (k * n') ->
  (8192 / INR k - 1 <= ideal_common (N.to_nat 32768) k n n' (fun x => IZR (Z.of_N (estimate_count L 32768 (N.of_nat x) (N.of_nat k)))))%R.
Proof.
  intros HL HI Hk Hn Hn'. apply Rle_trans with (2 := C81_average L k n n' HL HI Hk). cbv zeta. assert (En : N.of_nat (N.to_nat 32768) = 32768) by apply N2Nat.id. revert En. generalize (N.to_nat 32768). intros m En.
  assert (Em : INR m = 32768%R) by (rewrite INR_IZR_INZ, <- nat_N_Z, En; reflexivity). assert (U : forall t, 22715 <= N.of_nat t -> (untouched m t <= / 2)%R).
  { intros t Ht. apply untouched_half; [lia|]. rewrite Em, (INR_IZR_INZ t), <- nat_N_Z. apply Rle_trans with 22715%R; [lra|]. apply IZR_le. lia. }
  pose proof (U _ Hn) as U1. pose proof (U _ Hn') as U2. assert (K0 : (0 < / INR k)%R) by (apply Rinv_0_lt_compat, lt_0_INR; lia).
  assert (P : (/ 2 * / 2 <= (1 - untouched m (k * n)) * (1 - untouched m (k * n')))%R) by (apply Rmult_le_compat; lra). set (q := ((1 - untouched m (k * n)) * (1 - untouched m (k * n')))%R) in *. unfold Rdiv.
  assert (32768 * / INR k * (/ 2 * / 2) <= 32768 * / INR k * q)%R by (apply Rmult_le_compat_l; lra). lra.
Qed.
Print Assumptions C81_average_full.
(** Correctly rounded functions with the logarithm of zero that IEEE 754 prescribes. *)
Definition real_libm0 : libm :=
  {| lm_ln := fun x => match x with S754_zero _ => S754_infinity true | _ => lm_ln real_libm x end; lm_exp := lm_exp real_libm; lm_powf := lm_powf real_libm |}.
Lemma real_libm0_accurate : libm_accurate real_libm0.
Proof.
  destruct real_libm_accurate as [A B]. split; [|exact B]. intros x V M O. pose proof (A x V M O) as Q. destruct x; try exact Q. vm_compute in M. discriminate.
Qed.
(** An error rate of 0.01: 7 hash functions, 3418 entries to a bucket. Two such buckets without a common entry are reported to have
    at least 1169 common entries on average. *)
Example C81_average_example : (1169 <= ideal_common (N.to_nat 32768) 7 3418 3418 (fun x => IZR (Z.of_N (estimate_count real_libm0 32768 (N.of_nat x) 7))))%R /\ v2_bucket_cap ref_libm p001 = 3418 /\ v2_n_hash_buck fn0 = 7.
Proof.
  split; [|split; [vm_compute; reflexivity|reflexivity]]. apply Rle_trans with (8192 / INR 7 - 1)%R; [cbn [INR]; lra|]. apply (C81_average_full real_libm0 7 3418 3418 real_libm0_accurate eq_refl); lia.
Qed.
(** Full statement: the estimate for filters without a common entry is 0. It is not, already for three entries each. *)
Theorem C81_refuted : exists a b Ka Kb, v1_kept ref_libm a Ka /\ v1_kept ref_libm b Kb /\ (forall x, Ka x -> ~ Kb x) /\
  v1_has_same_params a b = true /\ v1_count_common_entries ref_libm a b = Ok 1.
Proof.
  assert (K0 : v1_kept ref_libm e0 (fun _ => False)) by exact (k1_make ref_libm 4 p001 e0 ltac:(reflexivity) ltac:(reflexivity) e0_eq).
  pose proof (k1_insert _ _ _ _ _ _ _ (k1_insert _ _ _ _ _ _ _ (k1_insert _ _ _ _ _ _ _ K0 a1_eq) a2_eq) a3_eq) as Ka. pose proof (k1_insert _ _ _ _ _ _ _ (k1_insert _ _ _ _ _ _ _ (k1_insert _ _ _ _ _ _ _ K0 c1_eq) c2_eq) c3_eq) as Kc.
  exists a3, c3. do 2 eexists. split; [exact Ka|]. split; [exact Kc|]. split; [|split; vm_compute; reflexivity].
  intros x [->|[->|[->|[]]]] [E|[E|[E|[]]]]; discriminate.
Qed.
Print Assumptions C81_refuted.
Example C81_v1_answer_example : v1_bit_size a3 = 38 /\ common 38 (flat_map (fun x => map N.to_nat (v1_positions a3 x)) [[7]; [5; 6]; [1; 2; 3]]) (flat_map (fun x => map N.to_nat (v1_positions a3 x)) [[17]; [15; 6]; [11; 2; 3]]) = 9%nat /\
  estimate_count ref_libm 38 9 7 = 1.
Proof. split; [reflexivity|]. split; vm_compute; reflexivity. Qed.
