(** The version-independent filter (C01, C39, C53) and the Python wrapper (C52). *)
From Coq Require Import Lia.
From Verif Require Import M_Bloom M_RefLibm Spec_Bits Spec_Hash Spec_V2 Spec_V2Hist Spec_V1 Spec_Bloom P_Base P_V2Codec P_V2Make P_V1Codec P_V2Props P_V1Hist P_Codec P_Bloom Prop_Codec
  Ex_Base Ex_V1.
Open Scope N_scope.

(** * C01/C02 through the generic interface *)
Theorem C01_no_false_negatives wy L f K d : bf_hist wy L f K -> K d -> bf_has_bits f -> bf_contains_bytes wy f d = Ok true.
Proof. exact (bf_hist_contains wy L f K d). Qed.
Print Assumptions C01_no_false_negatives.
Definition be2 : bloom := V1 e2.
Lemma be2_hist wy : bf_hist wy ref_libm be2 (fun x => x = db \/ x = da \/ False).
Proof.
  assert (A : bytes_ok da) by (repeat constructor). assert (B : bytes_ok db) by (repeat constructor).
  assert (E0 : bf_with_version_capacity_opt Release ref_libm 1 4 p001 ONone = Ok (V1 e0)) by (vm_compute; reflexivity).
  assert (E1 : bf_insert_bytes Release wy (V1 e0) da = (V1 e1, Ok true)) by (cbn [bf_insert_bytes]; now rewrite e1_eq).
  assert (E2 : bf_insert_bytes Release wy (V1 e1) db = (V1 e2, Ok true)) by (cbn [bf_insert_bytes]; now rewrite e2_eq).
  exact (bh_insert _ _ _ _ _ _ _ _ (bh_insert _ _ _ _ _ _ _ _ (bh_make wy ref_libm Release 1 4 p001 ONone (V1 e0) eq_refl eq_refl E0) A E1) B E2).
Qed.
Example C01_example wy : bf_hist wy ref_libm be2 (fun x => x = db \/ x = da \/ False) /\ bf_has_bits be2 /\ bf_contains_bytes wy be2 dc = Ok false.
Proof. split; [exact (be2_hist wy)|]. split; [discriminate|]. vm_compute. reflexivity. Qed.

(** * C39 fill inserts a prefix *)
Lemma fill_runs pr wy ds : forall f g r, bf_fill pr wy f ds = (g, r) ->
  exists pre post h, ds = pre ++ post /\ inserts pr wy f pre h /\
    match r with
    | Ok _ => post = [] /\ g = h
    | _ => exists d rest r', post = d :: rest /\ bf_insert_bytes pr wy h d = (g, r') /\ match r' with Ok _ => False | Err e => r = Err e | Panic => r = Panic end
    end.
Proof.
  induction ds as [|d ds IH]; intros f g r E; cbn [bf_fill] in E.
  - apply pair_inj in E as [<- <-]. exists [], [], f. split; [reflexivity|]. split; [constructor|]. auto.
  - destruct (bf_insert_bytes pr wy f d) as [f' [b|e|]] eqn:I.
    + destruct (IH _ _ _ E) as (pre & post & h & -> & A & B). exists (d :: pre), post, h. split; [reflexivity|]. split; [econstructor; eassumption|exact B].
    + apply pair_inj in E as [<- <-]. exists [], (d :: ds), f. split; [reflexivity|]. split; [constructor|]. exists d, ds, (Err e). auto.
    + apply pair_inj in E as [<- <-]. exists [], (d :: ds), f. split; [reflexivity|]. split; [constructor|]. exists d, ds, Panic. auto.
Qed.
(** Full statement: on Ok every entry is contained. Missing: a v1 filter without bits (fpp 1.0), see C39_refuted. *)
Theorem C39_fill_partial pr wy L f ds g r : bf_reach wy L f -> Forall bytes_ok ds -> bf_fill pr wy f ds = (g, r) ->
  exists pre post h, ds = pre ++ post /\ inserts pr wy f pre h /\
    match r with
    | Ok _ => post = [] /\ g = h /\ (bf_has_bits f -> forall d, In d ds -> bf_contains_bytes wy g d = Ok true)
    | Err e => e = TooManyEntries /\ g = h /\ exists d rest, post = d :: rest /\ bf_insert_bytes pr wy h d = (h, Err e)
    | Panic => exists d rest, post = d :: rest /\ bf_insert_bytes pr wy h d = (g, Panic)
    end.
Proof.
  intros R B E. pose proof (bf_reach_wf _ _ _ R) as W. destruct (fill_runs _ _ _ _ _ _ E) as (pre & post & h & -> & A & C). exists pre, post, h. split; [reflexivity|]. split; [exact A|].
  apply Forall_app in B as [B1 B2]. destruct r as [u|e|].
  - destruct C as [-> ->]. split; [reflexivity|]. split; [reflexivity|]. intros HB d Hd. rewrite app_nil_r in Hd. exact (inserts_contains _ _ _ _ _ _ W B1 HB A Hd).
  - destruct C as (d & rest & r' & -> & I & Q). inversion B2; subst. destruct r' as [b|e'|]; [contradiction| |discriminate]. injection Q as ->.
    destruct (inserts_sem _ _ _ _ _ W B1 A) as (_ & Wh & _). match goal with Hd : bytes_ok d |- _ => destruct (ib_cases _ _ _ _ _ _ (bf_insert_sem _ _ _ _ _ _ Wh Hd I)) as (-> & -> & _) end.
    split; [reflexivity|]. split; [reflexivity|]. exists d, rest. auto.
  - destruct C as (d & rest & r' & -> & I & Q). exists d, rest. split; [reflexivity|]. destruct r' as [b|e'|]; [contradiction|discriminate|exact I].
Qed.
Print Assumptions C39_fill_partial.
(** When every entry but the last fits, fill is the same as inserting them one by one: it is determined by its prefix. *)
Theorem C39_fill_iff pr wy f ds g : bf_fill pr wy f ds = (g, Ok tt) <-> inserts pr wy f ds g.
Proof.
  split.
  - intro E. destruct (fill_runs _ _ _ _ _ _ E) as (pre & post & h & -> & A & -> & ->). now rewrite app_nil_r.
  - induction 1 as [f|f d g b ds h E H IH]; [reflexivity|]. cbn [bf_fill]. now rewrite E.
Qed.
Print Assumptions C39_fill_iff.
Theorem C39_refuted : exists f g, bf_with_version_capacity Release ref_libm 1 10 p1 = Ok f /\
  (forall pr wy, bf_fill pr wy f [da] = (g, Ok tt)) /\ forall wy, bf_contains_bytes wy g da = Ok false.
Proof.
  assert (E : exists f, bf_with_version_capacity Release ref_libm 1 10 p1 = Ok f /\ forall pr wy, bf_fill pr wy f [da] = (f, Ok tt) /\ bf_contains_bytes wy f da = Ok false).
  { eexists. split; [vm_compute; reflexivity|]. intros pr wy. split; [destruct pr; vm_compute; reflexivity|vm_compute; reflexivity]. }
  destruct E as (f & E & H). exists f, f. split; [exact E|]. split; [intros pr wy; apply (H pr wy)|intro wy; apply (H Release wy)].
Qed.
Print Assumptions C39_refuted.
(** Three entries in a filter of capacity 2: the first two are inserted. *)
Example C39_example wy : bf_fill Release wy (V1 q0) [da; db; dc] = (V1 q2, Err TooManyEntries) /\ inserts Release wy (V1 q0) [da; db] (V1 q2).
Proof.
  split; [vm_compute; reflexivity|]. apply (ins_cons _ _ _ _ (V1 q1) true); [cbn [bf_insert_bytes]; now rewrite q1_eq|].
  apply (ins_cons _ _ _ _ (V1 q2) true); [cbn [bf_insert_bytes]; now rewrite q2_eq|constructor].
Qed.

(** * C53 Version dispatch *)
Theorem C53_constructor pr L v cap fpp opt :
  (v = 1 -> bf_with_version_capacity_opt pr L v cap fpp opt = match v1_with_capacity L cap fpp with Ok f => Ok (V1 f) | Err e => Err e | Panic => Panic end) /\
  (v = 2 -> bf_with_version_capacity_opt pr L v cap fpp opt = match v2_make pr L cap fpp opt with Ok f => Ok (V2 f) | Err e => Err e | Panic => Panic end) /\
  (v <> 1 -> v <> 2 -> bf_with_version_capacity_opt pr L v cap fpp opt = Err (InvalidVersion v)) /\
  (forall f, bf_with_version_capacity_opt pr L v cap fpp opt = Ok f -> bf_version f = v /\ bf_capacity f = cap /\ bf_fpp f = fpp /\ bf_count_estimate f = 0).
Proof.
  split; [|split; [|split]].
  - intros ->. unfold bf_with_version_capacity_opt. cbn [N.eqb Pos.eqb]. destruct (v1_with_capacity L cap fpp); reflexivity.
  - intros ->. unfold bf_with_version_capacity_opt. cbn [N.eqb Pos.eqb]. destruct (v2_make pr L cap fpp opt); reflexivity.
  - intros A B. unfold bf_with_version_capacity_opt. destruct (N.eqb_spec v 1); [contradiction|]. destruct (N.eqb_spec v 2); [contradiction|reflexivity].
  - intros f E. apply bf_make_inv in E. destruct f as [f|f]; destruct E as [-> E]; (split; [reflexivity|]); cbn [bf_capacity bf_fpp bf_count_estimate].
    + apply v1_make_created in E. destruct E. auto.
    + apply v2_make_created in E. destruct E. auto.
Qed.
Print Assumptions C53_constructor.
(** The version is the first byte written, and the version of the filter read back. *)
Theorem C53_version_byte pr wy L f : bf_reach wy L f ->
  exists t g, bf_write f = bf_version f :: t /\ bf_from_reader pr (bf_write f) = Ok g /\ bf_version g = bf_version f.
Proof.
  intro R. pose proof (bf_reach_wf _ _ _ R) as W. destruct f as [f|f]; cbn [bf_wf] in W.
  - eexists. exists (V1 (v1_canon f)). split; [|split; [exact (bf_ok_v1 _ _ _ _ (v1_roundtrip pr f W))|reflexivity]].
    unfold bf_write, bf_write_calls. change (concat (v1_write_calls f)) with (v1_write f). rewrite v1_write_image. reflexivity.
  - eexists. exists (V2 (v2_canon f)). split; [|split; [exact (bf_ok_v2 _ _ _ _ (v2_roundtrip pr f W))|reflexivity]].
    unfold bf_write, bf_write_calls, v2_write_calls, flags_to_bytes. rewrite (wf_version _ W). reflexivity.
Qed.
Print Assumptions C53_version_byte.
(** The operations are those of the wrapped filter. *)
Theorem C53_operations pr wy L f1 f2 d :
  (bf_insert_bytes pr wy (V1 f1) d = (V1 (fst (v1_insert_bytes pr f1 d)), snd (v1_insert_bytes pr f1 d)) /\
   bf_insert_bytes pr wy (V2 f2) d = (V2 (fst (v2_insert pr wy f2 (KSlice d))), snd (v2_insert pr wy f2 (KSlice d)))) /\
  (bf_contains_bytes wy (V1 f1) d = v1_contains_bytes f1 d /\ bf_contains_bytes wy (V2 f2) d = v2_contains wy f2 (KSlice d)) /\
  (bf_write (V1 f1) = v1_write f1 /\ bf_write (V2 f2) = v2_write f2) /\
  (forall g, bf_union_merge pr L (V1 f1) (V1 g) = (V1 (fst (v1_union_merge L f1 g)), snd (v1_union_merge L f1 g))) /\
  (forall g, bf_union_merge pr L (V2 f2) (V2 g) = (V2 (fst (v2_union_merge pr L f2 g)), snd (v2_union_merge pr L f2 g))) /\
  (forall g, bf_count_common_entries pr L (V1 f1) (V1 g) = v1_count_common_entries L f1 g) /\
  (forall g, bf_count_common_entries pr L (V2 f2) (V2 g) = v2_count_common_entries pr L f2 g) /\
  (* filters of different versions are never merged *)
  (bf_union_merge pr L (V1 f1) (V2 f2) = (V1 f1, Err Merge) /\ bf_union_merge pr L (V2 f2) (V1 f1) = (V2 f2, Err Merge)) /\
  (bf_count_common_entries pr L (V1 f1) (V2 f2) = Err Merge /\ bf_count_common_entries pr L (V2 f2) (V1 f1) = Err Merge).
Proof.
  split; [split; cbn [bf_insert_bytes]; unfold v2_insert_bytes; match goal with |- context [let '(_, _) := ?m in _] => destruct m end; reflexivity|].
  split; [split; reflexivity|]. split; [split; reflexivity|].
  split. { intro g. unfold bf_union_merge. change (bf_has_same_params (V1 f1) (V1 g)) with (Ok (v1_has_same_params f1 g)). destruct (v1_has_same_params f1 g) eqn:P.
    - destruct (v1_union_merge L f1 g); reflexivity. - unfold v1_union_merge. rewrite P. reflexivity. }
  split. { intro g. unfold bf_union_merge. change (bf_has_same_params (V2 f2) (V2 g)) with (Ok (v2_has_same_params f2 g)). destruct (v2_has_same_params f2 g) eqn:P.
    - destruct (v2_union_merge pr L f2 g); reflexivity. - unfold v2_union_merge, v2_merge_with. rewrite P. reflexivity. }
  split. { intro g. unfold bf_count_common_entries. change (bf_has_same_params (V1 f1) (V1 g)) with (Ok (v1_has_same_params f1 g)). cbn [obind]. destruct (v1_has_same_params f1 g) eqn:P; [reflexivity|].
    unfold v1_count_common_entries. rewrite P. reflexivity. }
  split. { intro g. unfold bf_count_common_entries. change (bf_has_same_params (V2 f2) (V2 g)) with (Ok (v2_has_same_params f2 g)). cbn [obind]. destruct (v2_has_same_params f2 g) eqn:P; [reflexivity|].
    unfold v2_count_common_entries. rewrite P. reflexivity. }
  split; split; reflexivity.
Qed.
Print Assumptions C53_operations.
Example C53_example : bf_with_version_capacity_opt Release ref_libm 2 4 p001 OSpeed = Ok (V2 fs0) /\ bf_with_version_capacity_opt Release ref_libm 1 4 p001 OSpeed = Ok (V1 e0) /\
  bf_with_version_capacity_opt Release ref_libm 3 4 p001 ONone = Err (InvalidVersion 3) /\ hd 0 (bf_write (V2 fs0)) = 2 /\ hd 0 (bf_write (V1 e0)) = 1.
Proof.
  split; [unfold bf_with_version_capacity_opt; cbn [N.eqb Pos.eqb]; now rewrite fs0_eq|]. split; [vm_compute; reflexivity|]. split; [reflexivity|]. split; reflexivity.
Qed.

(** * C52 Python round trip *)
(** Full statement: loads(dumps(f)) is equivalent to f. Missing: header bytes of files from elsewhere, which union compares
    (C52_refuted). Everything else comes back and every query and insertion answers the same. *)
Theorem C52_roundtrip_partial pr wy L f : bf_reach wy L f ->
  exists g, py_loads pr (py_dumps f) = Ok g /\ bf_version g = bf_version f /\ bf_capacity g = bf_capacity f /\ bf_fpp g = bf_fpp f /\
    bf_count_estimate g = bf_count_estimate f /\ bf_data g = bf_data f /\ bf_is_full g = bf_is_full f /\ (forall s, bf_spot g s = bf_spot f s) /\
    (forall d, py_contains_bytes wy g d = py_contains_bytes wy f d) /\ (forall pr' d, snd (py_insert_bytes pr' wy g d) = snd (py_insert_bytes pr' wy f d)) /\
    py_dumps g = py_dumps f.
Proof.
  intros [K H]. apply bf_hist_inv in H as [H _]. destruct f as [f|f]; cbn [bf_hist_as] in H; destruct H as (K' & H & _).
  - destruct (C16_v1_roundtrip_partial pr L f (ex_intro _ K' H)) as (g & R1 & R2 & E1 & E2 & E3 & E4 & E5 & E6 & E7 & E8 & E9 & E10 & E11 & E12 & _).
    exists (V1 g). split; [exact R2|]. split; [reflexivity|]. split; [exact E3|]. split; [exact E4|]. split; [exact E2|]. split; [exact E7|]. split; [exact E12|].
    split. { intros [b i|i]; cbn [bf_spot]; [|reflexivity]. unfold v1_bit. now rewrite E1. }
    split; [exact E9|]. split.
    { intros pr' d. specialize (E10 pr' d). unfold py_insert_bytes. cbn [bf_insert_bytes]. destruct (v1_insert_bytes pr' g d), (v1_insert_bytes pr' f d). exact E10. }
    exact (C17_v1_written pr L f g (ex_intro _ K' H) R1).
  - destruct (C16_v2_roundtrip pr wy L f (ex_intro _ K' H)) as (g & R1 & R2 & E1 & E2 & E3 & E4 & E5 & E6 & E7 & E8 & E9 & E10 & E11 & E12 & E13 & E14 & E15 & _).
    exists (V2 g). split; [exact R2|]. split; [reflexivity|]. split; [exact E4|]. split; [exact E5|]. split; [exact E3|]. split; [exact E11|]. split; [exact E15|].
    split. { intros [b i|i]; cbn [bf_spot]; [unfold v2_bit; now rewrite E1|unfold v2_cbit; now rewrite E2]. }
    split; [intro d; exact (E12 (KSlice d))|]. split.
    { intros pr' d. specialize (E13 pr' (KSlice d)). unfold py_insert_bytes. cbn [bf_insert_bytes]. unfold v2_insert_bytes.
      destruct (v2_insert pr' wy g (KSlice d)), (v2_insert pr' wy f (KSlice d)). exact E13. }
    exact (C17_v2_written pr wy L f g (ex_intro _ K' H) R1).
Qed.
Print Assumptions C52_roundtrip_partial.
(** Filters made in Python come back identical. *)
Theorem C52_created pr wy L f : bf_kept wy L f -> py_loads pr (py_dumps f) = Ok f.
Proof. exact (bf_kept_roundtrip pr wy L f). Qed.
Print Assumptions C52_created.
Theorem C52_refuted : exists content f g, (forall pr, py_loads pr content = Ok f) /\ (forall pr, py_loads pr (py_dumps f) = Ok g) /\
  forall pr L, bf_union_merge pr L f g = (f, Err Merge).
Proof.
  destruct C16_v1_refuted as (c & f & g & _ & A & B & _ & _ & P & U). exists c, (V1 f), (V1 g). split; [intro pr; exact (bf_ok_v1 _ _ _ _ (A pr))|].
  split; [intro pr; exact (bf_ok_v1 _ _ _ _ (B pr))|]. intros pr L. unfold bf_union_merge. change (bf_has_same_params (V1 f) (V1 g)) with (Ok (v1_has_same_params f g)). now rewrite P.
Qed.
Print Assumptions C52_refuted.
(** Wrong parameters raise an error, and what is produced has the parameters asked for. *)
Theorem C52_parameters pr L v cap fpp opt :
  (3 < opt -> py_with_params pr L v cap fpp opt = Err (OptLevelError opt)) /\
  (opt <= 3 -> v <> 1 -> v <> 2 -> py_with_params pr L v cap fpp opt = Err (InvalidVersion v)) /\
  (opt <= 3 -> v = 1 \/ v = 2 -> fpp_in_range fpp = false -> py_with_params pr L v cap fpp opt = Err (WrongFpp fpp)) /\
  (v <> 1 -> v <> 2 -> py_with_version pr L v cap fpp = Err (InvalidVersion v)) /\
  (v = 1 \/ v = 2 -> fpp_in_range fpp = false -> py_with_version pr L v cap fpp = Err (WrongFpp fpp)) /\
  (fpp_in_range fpp = false -> py_new pr L cap fpp = Err (WrongFpp fpp)) /\
  (forall f, py_with_params pr L v cap fpp opt = Ok f -> opt <= 3 /\ fpp_in_range fpp = true /\ bf_version f = v /\ bf_capacity f = cap /\ bf_fpp f = fpp /\ bf_count_estimate f = 0) /\
  (forall f, py_with_version pr L v cap fpp = Ok f -> fpp_in_range fpp = true /\ bf_version f = v /\ bf_capacity f = cap /\ bf_fpp f = fpp /\ bf_count_estimate f = 0) /\
  (forall f, py_new pr L cap fpp = Ok f -> fpp_in_range fpp = true /\ bf_version f = 2 /\ bf_capacity f = cap /\ bf_fpp f = fpp /\ bf_count_estimate f = 0).
Proof.
  assert (OK : forall o, opt <= 3 -> opt_of_u8 opt = o -> exists l, o = Ok l).
  { intros o H <-. unfold opt_of_u8. cbn [opt_to_u8]. destruct (N.eqb_spec opt 0); [eauto|]. destruct (N.eqb_spec opt 1); [eauto|]. destruct (N.eqb_spec opt 2); [eauto|]. destruct (N.eqb_spec opt 3); [eauto|lia]. }
  assert (BAD : 3 < opt -> opt_of_u8 opt = Err (OptLevelError opt)).
  { intro H. unfold opt_of_u8. cbn [opt_to_u8]. destruct (N.eqb_spec opt 0); [lia|]. destruct (N.eqb_spec opt 1); [lia|]. destruct (N.eqb_spec opt 2); [lia|]. destruct (N.eqb_spec opt 3); [lia|reflexivity]. }
  assert (FP : forall o, v = 1 \/ v = 2 -> fpp_in_range fpp = false -> bf_with_version_capacity_opt pr L v cap fpp o = Err (WrongFpp fpp)).
  { intros o V R. unfold bf_with_version_capacity_opt, v1_with_capacity, v2_make. rewrite R. destruct V as [-> | ->]; reflexivity. }
  assert (RNG : forall o f, bf_with_version_capacity_opt pr L v cap fpp o = Ok f -> fpp_in_range fpp = true).
  { intros o f E. destruct (fpp_in_range fpp) eqn:R; [reflexivity|]. destruct (N.eq_dec v 1) as [V|V]; [rewrite FP in E by auto; discriminate|].
    destruct (N.eq_dec v 2) as [V'|V']; [rewrite FP in E by auto; discriminate|]. rewrite (proj1 (proj2 (proj2 (C53_constructor pr L v cap fpp o)))) in E by assumption. discriminate. }
  unfold py_with_params, py_with_version, py_new, bf_of_params. cbn [params_opt params_version params_new p_version p_capacity p_fpp p_opt].
  split. { intro H. rewrite (BAD H). reflexivity. }
  split. { intros H A B. destruct (OK _ H eq_refl) as [o ->]. cbn [obind]. now apply C53_constructor. }
  split. { intros H V R. destruct (OK _ H eq_refl) as [o ->]. cbn [obind]. now apply FP. }
  split. { intros A B. now apply C53_constructor. }
  split. { intros V R. now apply FP. }
  split. { intro R. unfold bf_with_capacity, v2_with_capacity, v2_make. rewrite R. reflexivity. }
  split. { intros f E. destruct (N.le_gt_cases opt 3) as [H|H]; [|rewrite (BAD H) in E; discriminate]. destruct (OK _ H eq_refl) as [o Q]. rewrite Q in E. cbn [obind] in E.
    split; [exact H|]. split; [exact (RNG _ _ E)|]. exact (proj2 (proj2 (proj2 (C53_constructor pr L v cap fpp o))) f E). }
  split. { intros f E. split; [exact (RNG _ _ E)|]. exact (proj2 (proj2 (proj2 (C53_constructor pr L v cap fpp ONone))) f E). }
  intros f E. unfold bf_with_capacity in E. apply obind_Ok_inv in E as (g & E & Q). apply Ok_inj in Q. subst f. unfold v2_with_capacity in E.
  apply v2_make_created in E. cbn [bf_version bf_capacity bf_fpp bf_count_estimate]. destruct E. auto.
Qed.
Print Assumptions C52_parameters.
(** A capacity beyond the address space is not an error but a panic. *)
Theorem C52_capacity_refuted : exists cap fpp, cap < two64 /\ fpp < two64 /\ forall pr, py_new pr ref_libm cap fpp = Panic.
Proof. exists 18446744073709551615, p001. split; [reflexivity|]. split; [reflexivity|]. intros []; vm_compute; reflexivity. Qed.
Print Assumptions C52_capacity_refuted.
Example C52_example wy : bf_kept wy ref_libm be2 /\ py_loads Debug (py_dumps be2) = Ok be2 /\ py_with_params Debug ref_libm 2 4 p001 4 = Err (OptLevelError 4) /\
  py_with_version Debug ref_libm 3 4 p001 = Err (InvalidVersion 3) /\ py_new Debug ref_libm 4 0 = Err (WrongFpp 0).
Proof.
  assert (A : bytes_ok da) by (repeat constructor). assert (B : bytes_ok db) by (repeat constructor).
  assert (E0 : bf_with_version_capacity_opt Release ref_libm 1 4 p001 ONone = Ok (V1 e0)) by (vm_compute; reflexivity).
  assert (E1 : bf_insert_bytes Release wy (V1 e0) da = (V1 e1, Ok true)) by (cbn [bf_insert_bytes]; now rewrite e1_eq).
  assert (E2 : bf_insert_bytes Release wy (V1 e1) db = (V1 e2, Ok true)) by (cbn [bf_insert_bytes]; now rewrite e2_eq).
  split; [exact (bk_insert _ _ _ _ _ _ _ (bk_insert _ _ _ _ _ _ _ (bk_make wy ref_libm Release 1 4 p001 ONone (V1 e0) eq_refl eq_refl E0) A E1) B E2)|].
  split; [vm_compute; reflexivity|]. split; [reflexivity|]. split; reflexivity.
Qed.
