(** The create and insert commands. *)
From Coq Require Import Lia.
From Verif Require Import M_Cli Spec_Bits Spec_Hash Spec_V2 Spec_V1 Spec_Bloom Spec_Libm Spec_Lines Spec_Cli P_Base P_V2Make P_V2Size P_V1Codec P_Codec P_Bloom P_Lines P_Batch P_Par P_Sink P_Geom.
Open Scope N_scope.

(** ** Counting *)
Lemma count_batch pr w batch ls : file_lines w batch ls -> forall acc, acc + len ls < two64 -> count_lines_batch pr w acc batch = Ok (acc + len ls).
Proof.
  induction 1 as [|p c es r ls E U T H IH]; intros acc Hb; cbn [count_lines_batch]; [now rewrite len_nil, N.add_0_r|]. unfold fs_open. rewrite E. cbn [obind].
  assert (Q : len (lines c) = len es) by (unfold lines, len; rewrite map_length; f_equal; exact (text_length _ _ T)). rewrite Q. rewrite len_app in *. unfold checked_add.
  destruct (N.ltb_spec (acc + len es) two64); [|lia]. cbn [obind]. rewrite IH by lia. f_equal. lia.
Qed.
Lemma sum_joined_ok pr l : forall acc, acc + sumN l < two64 -> sum_joined pr acc (map Ok l) = Ok (acc + sumN l).
Proof.
  induction l as [|x l IH]; intros acc H; cbn [map sum_joined sumN fold_right] in *; [now rewrite N.add_0_r|]. change (fold_right N.add 0 l) with (sumN l) in *. cbn [obind]. unfold checked_add.
  destruct (N.ltb_spec (acc + x) two64); [|lia]. cbn [obind]. rewrite IH by lia. f_equal. lia.
Qed.
Lemma count_ok pr par w files jobs ls : file_lines w files ls -> len ls < two64 -> count_lines_parallel pr par w files jobs = Ok (len ls).
Proof.
  intros F H. unfold count_lines_parallel. set (j := optimal_jobs par jobs). rewrite <- (batches_concat files j) in F. apply batches_file_lines in F as (lss & -> & F).
  assert (E : map (count_lines_batch pr w 0) (batches files j) = map Ok (map (@len _) lss) /\ sumN (map (@len _) lss) = len (concat lss)).
  { assert (G : sumN (map (@len _) lss) = len (concat lss)) by (clear; induction lss as [|l lss IH]; [reflexivity|]; cbn [map sumN fold_right concat]; change (fold_right N.add 0 (map (@len _) lss)) with (sumN (map (@len _) lss)); rewrite IH, len_app; reflexivity).
    split; [|exact G]. rewrite <- G in H. clear G. induction F as [|b l bs lss Fb F IH]; [reflexivity|]. cbn [map sumN fold_right] in *. change (fold_right N.add 0 (map (@len _) lss)) with (sumN (map (@len _) lss)) in H.
    rewrite IH by lia. f_equal. rewrite (count_batch pr w b l Fb 0) by lia. now rewrite N.add_0_l. }
  destruct E as [-> G]. rewrite sum_joined_ok by (rewrite G; lia). now rewrite G, N.add_0_l.
Qed.
Lemma count_missing pr par w files jobs p : In p files -> w p = None -> forall n, count_lines_parallel pr par w files jobs <> Ok n.
Proof.
  intros Hp E. unfold count_lines_parallel. destruct (batches_cover files (optimal_jobs par jobs) p Hp) as (b & Hb & Hpb).
  assert (B : forall acc n, count_lines_batch pr w acc b <> Ok n).
  { clear Hb. induction b as [|q b IH]; [contradiction|]. intros acc n. cbn [count_lines_batch]. unfold fs_open. destruct Hpb as [->|Hpb]; [rewrite E; discriminate|]. destruct (w q) as [c|]; [|discriminate]. cbn [obind].
    destruct (checked_add pr acc (len (lines c))); [|discriminate..]. cbn [obind]. apply IH. exact Hpb. }
  generalize 0 at 1. intro acc. revert acc Hb. induction (batches files (optimal_jobs par jobs)) as [|x bs IH]; [intros ? []|]. intros acc [->|Hb] n; cbn [map sum_joined].
  - destruct (count_lines_batch pr w 0 b) eqn:Q; [contradiction (B _ _ Q)|discriminate..].
  - destruct (count_lines_batch pr w 0 x); [|discriminate..]. cbn [obind]. destruct (checked_add pr acc a); [|discriminate..]. cbn [obind]. apply IH. exact Hb.
Qed.

(** ** A filter with enough room takes every entry *)
Lemma inserts_fit pr wy ds : forall f, bf_wf f -> bf_usable f -> Forall bytes_ok ds -> bf_capacity f < two64 -> bf_count_estimate f + len ds <= bf_capacity f -> exists g, inserts pr wy f ds g.
Proof.
  induction ds as [|d ds IH]; intros f W U B C H; [exists f; constructor|]. inversion B as [|? ? Bd Bds]; subst. rewrite len_cons in H.
  destruct (bf_insert_bytes pr wy f d) as [g r] eqn:E. pose proof (bf_insert_sem _ _ _ _ _ _ W Bd E) as S. pose proof (ib_cases _ _ _ _ _ _ S) as K. destruct r as [b|e|].
  - destruct K as (_ & _ & Kc & _). assert (Cg : bf_count_estimate g <= bf_count_estimate f + 1).
    { rewrite Kc. destruct b; [|lia]. rewrite w64_id by (unfold two64 in *; lia). lia. }
    pose proof (bf_frame_capacity _ _ (ib_frame _ _ _ _ _ _ S)) as Q. destruct (IH g (ib_wf _ _ _ _ _ _ S) (bf_frame_usable _ _ (ib_frame _ _ _ _ _ _ S) U) Bds) as (h & I); [now rewrite Q|rewrite Q; lia|].
    exists h. econstructor; eauto.
  - destruct K as (_ & _ & [K|K]); lia.
  - exfalso. pose proof (bf_insert_no_panic pr wy f d W U Bd) as Q. rewrite E in Q. apply Q; [|reflexivity]. right. unfold u64_max, two64 in *. lia.
Qed.
Lemma fresh_facts (wy : hasher) pr L v cap fpp opt f : cap < two64 -> fpp < two64 -> bf_with_version_capacity_opt pr L v cap fpp opt = Ok f ->
  bf_wf f /\ bf_fpp_real f /\ bf_capacity f = cap /\ bf_count_estimate f = 0 /\ bf_kept wy L f.
Proof.
  intros Hc Hf E. pose proof (bk_make wy L pr v cap fpp opt f Hc Hf E) as K. split; [exact (bf_kept_wf _ _ _ K)|]. apply bf_make_inv in E. destruct f as [f|f]; destruct E as [_ E].
  - apply v1_make_created in E. split; [cbn; rewrite (c1_fpp _ _ _ _ E); exact (fpp_range_real _ Hf (c1_fpp_range _ _ _ _ E))|]. split; [exact (c1_capacity _ _ _ _ E)|]. split; [exact (c1_count _ _ _ _ E)|exact K].
  - apply v2_make_created in E. split; [exact Logic.I|]. split; [exact (cr_capacity _ _ _ _ E)|]. split; [exact (cr_count _ _ _ _ E)|exact K].
Qed.
Lemma fresh_usable pr L v cap fpp opt f : libm_ln2_sq L -> libm_ln_range L -> cap < two64 -> bf_with_version_capacity_opt pr L v cap fpp opt = Ok f -> bf_usable f.
Proof.
  intros A B Hc E. apply bf_make_inv in E. destruct f as [f|f]; destruct E as [_ E]; [exact (v1_created_usable _ _ _ _ (v1_make_created _ _ _ _ E))|exact (make_usable _ _ _ _ _ _ A B Hc E)].
Qed.
Lemma fresh_usable_any pr L v cap fpp opt f : opt <> OSpeed \/ pr = Debug -> cap < two64 -> bf_with_version_capacity_opt pr L v cap fpp opt = Ok f -> bf_usable f.
Proof.
  intros A Hc E. apply bf_make_inv in E. destruct f as [f|f]; destruct E as [_ E]; [exact (v1_created_usable _ _ _ _ (v1_make_created _ _ _ _ E))|exact (make_usable_any _ _ _ _ _ _ Hc A E)].
Qed.

(** ** Parallel insertion keeps filters made by the library *)
Lemma inserts_kept pr wy L f ds g : bf_kept wy L f -> Forall bytes_ok ds -> inserts pr wy f ds g -> bf_kept wy L g.
Proof. intros K B I. induction I as [f|f d g b ds h E I IH]; [exact K|]. inversion B; subst. apply IH; [|assumption]. exact (bk_insert wy L pr f d g b K ltac:(assumption) E). Qed.
Lemma reduce_kept pr wy L : forall l out g, bf_kept wy L out -> Forall (bf_kept wy L) l -> reduce pr L out l = Ok g -> bf_kept wy L g.
Proof.
  induction l as [|h l IH]; intros out g K F E; cbn [reduce] in E; [injection E as <-; exact K|]. inversion F; subst. destruct (bf_union_merge pr L out h) as [out' r] eqn:U. destruct r as [[]|e|]; [|discriminate..].
  apply (IH out' g); [|assumption|exact E]. exact (bk_union wy L pr out h out' K ltac:(assumption) U).
Qed.
Lemma parallel_kept pr L wy par w f files jobs g : bf_kept wy L f -> fs_bytes w -> parallel_insert pr L wy par w f files jobs = Ok g -> bf_kept wy L g.
Proof.
  intros K B. unfold parallel_insert. destruct files as [|p files]; [intro E; injection E as <-; exact K|].
  destruct (join_all (map (worker pr wy w f) (batches (p :: files) (optimal_jobs par jobs)))) as [gs|e|] eqn:J; [|discriminate..]. intro E. change (reduce_all pr L gs = Ok g) in E. apply workers_ok in J.
  assert (F : Forall (bf_kept wy L) gs).
  { clear E. induction J as [|b h bs gs (ls & Fl & I) J IH]; constructor; [|exact IH]. exact (inserts_kept _ _ _ _ _ _ K (file_lines_bytes _ _ _ B Fl) I). }
  apply Forall_rev in F. unfold reduce_all in E. destruct (rev gs) as [|out r]; [discriminate|]. inversion F; subst. exact (reduce_kept pr wy L r out g ltac:(assumption) ltac:(assumption) E).
Qed.
(** Files that fit altogether are inserted, whatever the number of jobs. *)
Lemma parallel_fits pr L wy par w f files jobs ls : bf_wf f -> bf_usable f -> bf_fpp_real f -> fs_bytes w -> file_lines w files ls -> bf_capacity f < two64 -> bf_count_estimate f + len ls <= bf_capacity f ->
  (exists g, parallel_insert pr L wy par w f files jobs = Ok g) \/
  (parallel_insert pr L wy par w f files jobs = Panic /\ pr = Debug /\ bf_version f = 2 /\ 1 < len (batches files (optimal_jobs par jobs))).
Proof.
  intros W U P B F C H. destruct (parallel_cases pr L wy par w f files jobs W B P) as [G|(E & _ & [(b & Hb & Q)|D])]; [now left| |right; auto]. exfalso.
  rewrite <- (batches_concat files (optimal_jobs par jobs)) in F. apply batches_file_lines in F as (lss & -> & F). apply in_split in Hb as (b1 & b2 & Eb). rewrite Eb in F. apply Forall2_app_inv_l in F as (l1 & l2 & F1 & F2 & ->).
  inversion F2 as [|? lb ? l2' Fb F2']; subst. rewrite concat_app in H. cbn [concat] in H. rewrite !len_app in H.
  destruct (inserts_fit pr wy lb f W U (file_lines_bytes _ _ _ B Fb) C ltac:(lia)) as (g & I). apply (Q g). apply worker_ok. eauto.
Qed.
Lemma parallel_bad pr L wy par w f files jobs p : In p files -> bad_file w p -> parallel_insert pr L wy par w f files jobs = Panic.
Proof.
  intros Hp Q. destruct (batches_cover files (optimal_jobs par jobs) p Hp) as (b & Hb & Hpb). apply (parallel_worker_fails pr L wy par w f files jobs b Hb). intros g E. apply worker_ok in E as (ls & F & _).
  exact (file_lines_not_bad _ _ _ _ F Hpb Q).
Qed.
(** ** Saving *)
Lemma fs_set_same w p c : fs_set w p c p = Some c.
Proof. unfold fs_set. now rewrite (proj2 (list_eqb_eq p p) eq_refl). Qed.
Lemma fs_set_other w p c q : q <> p -> fs_set w p c q = w q.
Proof. intro H. unfold fs_set. destruct (list_eqb p q) eqn:E; [|reflexivity]. apply list_eqb_eq in E. congruence. Qed.
Lemma save_ok w p f room : len (bf_write f) <= room -> save w p f room = (fs_set w p (bf_write f), Ok tt).
Proof.
  intro H. unfold save. destruct (write_to_sink (bf_write_calls f) {| sk_got := []; sk_room := room |}) as [s r] eqn:E. destruct (write_to_sink_sem _ _ _ _ E) as ((A & _) & B & _ & C). cbn [sk_got sk_room app] in *.
  change (concat (bf_write_calls f)) with (bf_write f) in *. rewrite A, firstn_len by exact H. destruct B as [->| ->]; [reflexivity|]. specialize (C eq_refl). lia.
Qed.
Lemma save_err w p f room w' r : save w p f room = (w', r) -> r = Ok tt \/ (r = Err IoError /\ room < len (bf_write f)).
Proof.
  unfold save. destruct (write_to_sink (bf_write_calls f) {| sk_got := []; sk_room := room |}) as [s r'] eqn:E. destruct (write_to_sink_sem _ _ _ _ E) as (_ & B & _ & C). intro Q. injection Q as _ <-. destruct B as [->| ->]; [now left|right; split; [reflexivity|exact (C eq_refl)]].
Qed.
