(** The commands of README.md (C102). *)
From Coq Require Import Lia String Permutation.
From Verif Require Import M_Args P_Base P_Text P_Args P_Bloom P_V2Make P_RealLibm P_Real P_Lines P_Create P_Par M_RefLibm Ex_Base Ex_V1 Ex_Cli Prop_Bloom Prop_Create Prop_Build Prop_Check Prop_Codec Prop_Args Spec_Libm Spec_V2 Spec_Bits Spec_Lines Spec_Cli Spec_Bloom.
Open Scope N_scope.

(** ** What a run is, given what the arguments are read as *)
Lemma run_create o w argv v j c w' e : read_args argv = Some {| ar_verbose := v; ar_jobs := j; ar_command := Create c |} ->
  main o w argv w' e <-> exists r, e = Wrote r /\ cmd_create (os_build o) (os_libm o) (os_hasher o) (os_par o) w (os_room o) j c = (w', r).
Proof.
  intro R. split.
  - intros [N0|a c' w1 r1 R' C E|a c' w1 r1 R' C E|a c' out1 r1 R' C E|a c' R' C|a p R' C]; try congruence; rewrite R in R'; injection R' as <-; cbn [ar_command ar_jobs] in *; try discriminate. injection C as <-. eauto.
  - intros (r & -> & E). exact (main_create o w argv _ c w' r R eq_refl E).
Qed.
Lemma run_insert o w argv v j c w' e : read_args argv = Some {| ar_verbose := v; ar_jobs := j; ar_command := Insert c |} ->
  main o w argv w' e <-> exists r, e = Wrote r /\ cmd_insert (os_build o) (os_libm o) (os_hasher o) (os_par o) w (os_stdin o) (os_room o) j c = (w', r).
Proof.
  intro R. split.
  - intros [N0|a c' w1 r1 R' C E|a c' w1 r1 R' C E|a c' out1 r1 R' C E|a c' R' C|a p R' C]; try congruence; rewrite R in R'; injection R' as <-; cbn [ar_command ar_jobs] in *; try discriminate. injection C as <-. eauto.
  - intros (r & -> & E). exact (main_insert o w argv _ c w' r R eq_refl E).
Qed.
Lemma run_check o w argv v j c w' e : read_args argv = Some {| ar_verbose := v; ar_jobs := j; ar_command := Check c |} ->
  main o w argv w' e <-> w' = w /\ exists out r, e = Checked out r /\ cmd_check (os_build o) (os_hasher o) w (os_stdin o) j c out r.
Proof.
  intro R. split.
  - intros [N0|a c' w1 r1 R' C E|a c' w1 r1 R' C E|a c' out1 r1 R' C E|a c' R' C|a p R' C]; try congruence; rewrite R in R'; injection R' as <-; cbn [ar_command ar_jobs] in *; try discriminate. injection C as <-. eauto.
  - intros (-> & out & r & -> & E). exact (main_check o w argv _ c out r R eq_refl E).
Qed.

(** ** The command lines *)
Lemma forall_and {A} (P Q : A -> Prop) l : Forall (fun x => P x /\ Q x) l -> Forall P l /\ Forall Q l.
Proof. intro F. split; (eapply Forall_impl; [|exact F]); intros x [A1 A2]; assumption. Qed.
Lemma headed_jobs name args : dashed (bytes_of name) = false -> headed (bytes_of "-j" :: bytes_of "0" :: bytes_of name :: args) false 0 name args.
Proof.
  intro D. exists [Given 1 (bytes_of "0")]. split.
  { apply (l_form main_decls true [bytes_of "-j"; bytes_of "0"] 1 (bytes_of "0") (bytes_of name :: args)); [|now constructor]. exact (f_short_next main_decls 1 (nth 1 main_decls {| d_short := None; d_long := []; d_takes := false |}) 106 (bytes_of "0") eq_refl eq_refl eq_refl eq_refl). }
  split; [constructor; intros t [E|[]]; discriminate|]. apply (ch_given 1 _ _ _ 0 (bytes_of "0")); [now apply values_one|reflexivity].
Qed.
Lemma reads_new f : dashed f = false -> f <> [] -> read_args [bytes_of "create"; bytes_of "-c"; bytes_of "1000"; bytes_of "-p"; bytes_of "0.001"; f] =
  Some {| ar_verbose := false; ar_jobs := 2; ar_command := Create {| ca_version := 2; ca_capacity := 1000; ca_probability := 4562254508917369340; ca_optimize := 0; ca_file := f; ca_dataset := [] |} |}.
Proof.
  intros D Nf. apply C101_create. set (nd := {| d_short := None; d_long := []; d_takes := false |}). exists [bytes_of "-c"; bytes_of "1000"; bytes_of "-p"; bytes_of "0.001"; f], [Given 1 (bytes_of "1000"); Given 2 (bytes_of "0.001"); Operand f]. cbn [ca_version ca_capacity ca_probability ca_optimize ca_file ca_dataset].
  split; [now apply headed_plain|]. split.
  { apply (l_form create_decls false [bytes_of "-c"; bytes_of "1000"] 1 (bytes_of "1000")); [exact (f_short_next create_decls 1 (nth 1 create_decls nd) 99 (bytes_of "1000") eq_refl eq_refl eq_refl eq_refl)|].
    apply (l_form create_decls false [bytes_of "-p"; bytes_of "0.001"] 2 (bytes_of "0.001")); [exact (f_short_next create_decls 2 (nth 2 create_decls nd) 112 (bytes_of "0.001") eq_refl eq_refl eq_refl eq_refl)|]. apply l_operand; [exact D|constructor]. }
  split; [apply ch_default; [now apply values_nil|reflexivity]|]. split; [apply (ch_given 1 _ _ _ _ (bytes_of "1000")); [now apply values_one|vm_compute; reflexivity]|]. split; [apply (ch_given 2 _ _ _ _ (bytes_of "0.001")); [now apply values_one|vm_compute; reflexivity]|].
  split; [apply ch_default; [now apply values_nil|reflexivity]|]. split; [reflexivity|]. split; [exact Nf|constructor].
Qed.
Lemma reads_show p : plain p -> read_args [bytes_of "show"; p] = Some {| ar_verbose := false; ar_jobs := 2; ar_command := Show p |}.
Proof. intros [D U]. apply C101_show. exists [p], [Operand p]. split; [now apply headed_plain|]. split; [apply l_operand; [exact D|constructor]|]. split; [reflexivity|exact U]. Qed.
Lemma reads_insert f ds : Forall plain (f :: ds) -> read_args (bytes_of "insert" :: f :: ds) = Some {| ar_verbose := false; ar_jobs := 2; ar_command := Insert {| ia_stdin := false; ia_file := f; ia_inputs := ds |} |}.
Proof.
  intro P. destruct (forall_and _ _ _ P) as [D U]. apply C101_insert. exists (f :: ds), (map Operand (f :: ds)). split; [now apply headed_plain|]. split; [now apply laid_operands|]. split; [constructor; apply absent_operands|]. split; [apply named_operands|exact U].
Qed.
Lemma reads_check f ds : Forall plain (f :: ds) -> read_args (bytes_of "check" :: f :: ds) = Some {| ar_verbose := false; ar_jobs := 2; ar_command := Check {| ka_stdin := false; ka_silent := false; ka_verify := false; ka_file := f; ka_inputs := ds |} |}.
Proof.
  intro P. destruct (forall_and _ _ _ P) as [D U]. apply C101_check. exists (f :: ds), (map Operand (f :: ds)). split; [now apply headed_plain|]. split; [now apply laid_operands|].
  split; [constructor; apply absent_operands|]. split; [constructor; apply absent_operands|]. split; [constructor; apply absent_operands|]. split; [apply named_operands|exact U].
Qed.
Lemma reads_check_all f ds : Forall plain (f :: ds) -> read_args (bytes_of "-j" :: bytes_of "0" :: bytes_of "check" :: f :: ds) =
  Some {| ar_verbose := false; ar_jobs := 0; ar_command := Check {| ka_stdin := false; ka_silent := false; ka_verify := false; ka_file := f; ka_inputs := ds |} |}.
Proof.
  intro P. destruct (forall_and _ _ _ P) as [D U]. apply C101_check. exists (f :: ds), (map Operand (f :: ds)). split; [now apply headed_jobs|]. split; [now apply laid_operands|].
  split; [constructor; apply absent_operands|]. split; [constructor; apply absent_operands|]. split; [constructor; apply absent_operands|]. split; [apply named_operands|exact U].
Qed.
Definition of_dataset (f : list N) (ds : list (list N)) : create_args := {| ca_version := 2; ca_capacity := 10000; ca_probability := 4562254508917369340; ca_optimize := 0; ca_file := f; ca_dataset := ds |}.
Lemma reads_dataset f ds : dashed f = false -> f <> [] -> Forall plain ds -> read_args (bytes_of "-j" :: bytes_of "0" :: bytes_of "create" :: bytes_of "-p" :: bytes_of "0.001" :: f :: ds) =
  Some {| ar_verbose := false; ar_jobs := 0; ar_command := Create (of_dataset f ds) |}.
Proof.
  intros Df Nf P. destruct (forall_and _ _ _ P) as [D U]. apply C101_create. set (nd := {| d_short := None; d_long := []; d_takes := false |}). exists (bytes_of "-p" :: bytes_of "0.001" :: f :: ds), (Given 2 (bytes_of "0.001") :: map Operand (f :: ds)). cbn [of_dataset ca_version ca_capacity ca_probability ca_optimize ca_file ca_dataset].
  assert (Ab : forall i, i <> 2%nat -> absent i (Given 2 (bytes_of "0.001") :: map Operand (f :: ds))). { intros i Ni t [E|I]; [injection E as E _; congruence|now apply (absent_operands i (f :: ds) t)]. }
  split; [now apply headed_jobs|]. split.
  { apply (l_form create_decls false [bytes_of "-p"; bytes_of "0.001"] 2 (bytes_of "0.001")); [exact (f_short_next create_decls 2 (nth 2 create_decls nd) 112 (bytes_of "0.001") eq_refl eq_refl eq_refl eq_refl)|]. apply laid_operands. now constructor. }
  split; [apply ch_default; [now apply Ab|reflexivity]|]. split; [apply ch_default; [now apply Ab|reflexivity]|].
  split; [apply (ch_given 2 _ _ _ _ (bytes_of "0.001")); [|vm_compute; reflexivity]|].
  { apply (on 2 _ _ [] (map Operand (f :: ds))); [reflexivity|intros t []|apply absent_operands]. }
  split; [apply ch_default; [now apply Ab|reflexivity]|]. split; [apply named_operands|]. split; [exact Nf|exact U].
Qed.

(** ** What they do *)
(** poppy create -c 1000 -p 0.001 f; poppy show f. *)
Theorem C102_new o w f : libm_ln2_sq (os_libm o) -> libm_ln_range (os_libm o) -> fs_bytes w -> plain f -> f <> [] -> w f = None ->
  exists g, bf_with_version_capacity_opt (os_build o) (os_libm o) 2 1000 4562254508917369340 ONone = Ok g /\ (len (bf_write g) <= os_room o ->
    exists w' more, main o w [bytes_of "create"; bytes_of "-c"; bytes_of "1000"; bytes_of "-p"; bytes_of "0.001"; f] w' (Wrote (Ok tt)) /\ (forall q, q <> f -> w' q = w q) /\
      main o w' [bytes_of "show"; f] w' (Showed (Ok (bytes_of "File: " ++ f ++ [10] ++ tab_line "version                                  : " (bytes_of "2") ++ tab_line "capacity (desired number of elements)    : " (bytes_of "1000") ++
        tab_line "n (estimated number of elements)         : " (bytes_of "0") ++ tab_line "fpp (false positive probability)         : " (os_float o 4562254508917369340) ++ more)))).
Proof.
  intros A1 A2 B P Nf Hf. assert (Rg : fpp_in_range 4562254508917369340 = true) by reflexivity. destruct (make_good (os_build o) (os_libm o) 2 1000 4562254508917369340 ONone A1 A2 (or_intror eq_refl) Rg ltac:(reflexivity)) as (g & E). exists g. split; [exact E|]. intro Room.
  set (a := {| ca_version := 2; ca_capacity := 1000; ca_probability := 4562254508917369340; ca_optimize := 0; ca_file := f; ca_dataset := [] |}).
  assert (Cf : create_filter (os_build o) (os_libm o) (os_hasher o) (os_par o) w 2 a = Ok g). { unfold create_filter, check_output. cbn [a ca_file ca_dataset ca_optimize ca_version ca_probability ca_capacity]. rewrite Hf. cbn [obind]. change (opt_of_u8 0) with (@Ok optlevel ONone). cbn [obind]. unfold bf_of_params. cbn [params_opt params_version params_new p_version p_capacity p_fpp p_opt]. now rewrite E. }
  assert (H1 : 1000 < two64) by reflexivity. assert (H2 : 4562254508917369340 < two64) by reflexivity. destruct (fresh_facts (os_hasher o) _ _ _ _ _ _ g H1 H2 E) as (W & _ & Cp & Cn & K). assert (V : bf_version g = 2 /\ bf_fpp g = 4562254508917369340 /\ exists g2, g = V2 g2).
  { pose proof (bf_make_inv _ _ _ _ _ _ _ E) as E'. destruct g as [g|g]; destruct E' as [Q E']; [discriminate|]. apply v2_make_created in E'. split; [reflexivity|]. split; [exact (cr_fpp _ _ _ _ E')|eauto]. } destruct V as (V & Fp & g2 & Eg).
  assert (Bw : fs_bytes (fs_set w f (bf_write g))). { intros q c. unfold fs_set. destruct (list_eqb f q); [intro Q; injection Q as <-; exact (kept_write_bytes _ _ _ K)|apply B]. }
  assert (Wq : fs_set w f (bf_write g) f = Some (bf_write g)). { unfold fs_set. now rewrite (proj2 (list_eqb_eq f f) eq_refl). }
  pose proof (bf_kept_roundtrip (os_build o) (os_hasher o) (os_libm o) g K) as Ld.
  assert (Sz : exists size, bf_size_in_bytes (os_build o) g = Ok size).
  { rewrite Eg in *. cbn [bf_wf] in W. pose proof (wf_buckets_len _ W) as HB. pose proof (wf_cache_len _ W) as HC. pose proof (wf_n_buckets _ W) as HN. pose proof (wf_cache_size _ W) as HS. unfold isize_max, two64 in *.
    cbn [bf_size_in_bytes]. unfold v2_size_in_bytes, checked_mul, checked_add. rewrite HN, HS. change BUCKET_SIZE with 4096. cbv zeta.
    rewrite (proj2 (N.ltb_lt _ _)) by (unfold two64; lia). cbn [obind]. rewrite (proj2 (N.ltb_lt _ _)) by (unfold two64; lia). eexists. reflexivity. }
  destruct Sz as (size & Sz). destruct (C59_show _ _ _ _ _ _ Bw Wq Ld Sz) as (s & Sh & S1 & S2 & S3 & S4 & _). exists (fs_set w f (bf_write g)), (tab_line "Length of data                           : " (bz_text (sh_data s)) ++ tab_line "Size of bloom filter                     : " (bz_text (sh_size s))).
  split; [|split].
  - apply (run_create o w _ false 2 a); [apply reads_new; [exact (proj1 P)|exact Nf]|]. exists (Ok tt). split; [reflexivity|]. unfold cmd_create. rewrite Cf. now apply save_ok.
  - intros q Nq. unfold fs_set. destruct (list_eqb f q) eqn:Q; [apply list_eqb_eq in Q; congruence|reflexivity].
  - assert (Out : show_output (os_float o) (os_build o) (fs_set w f (bf_write g)) f f = Ok (bytes_of "File: " ++ f ++ [10] ++ tab_line "version                                  : " (bytes_of "2") ++ tab_line "capacity (desired number of elements)    : " (bytes_of "1000") ++
        tab_line "n (estimated number of elements)         : " (bytes_of "0") ++ tab_line "fpp (false positive probability)         : " (os_float o 4562254508917369340) ++ tab_line "Length of data                           : " (bz_text (sh_data s)) ++ tab_line "Size of bloom filter                     : " (bz_text (sh_size s)))).
    { unfold show_output. rewrite Sh. cbn [obind]. unfold show_text. rewrite S1, S2, S3, S4, V, Cp, Cn, Fp. reflexivity. }
    rewrite <- Out. exact (main_show o _ _ _ f (reads_show f P) eq_refl).
Qed.
Print Assumptions C102_new.

(** A text that ends with a newline, followed by another one, as in: cat a b. *)
Definition ended (s : list N) : Prop := s = [] \/ exists p, s = p ++ [LF].
Lemma ended_tail l s : ended (l ++ LF :: s) -> ended s.
Proof. intros [E|(p & E)]; [destruct l; discriminate|]. destruct s as [|x s] using rev_ind; [now left|]. right. exists s. rewrite app_comm_cons, app_assoc in E. apply app_inj_tail in E as [_ ->]. reflexivity. Qed.
Lemma text_app a ea b eb : text a ea -> ended a -> text b eb -> text (a ++ b) (ea ++ eb).
Proof.
  intros Ta En Tb. induction Ta as [|l Nl NI|l s es NI Ne Ts IH|l s es NI Ts IH].
  - exact Tb.
  - exfalso. destruct En as [-> |(p & ->)]; [contradiction|]. apply NI, in_app_iff. right. now left.
  - rewrite <- app_assoc. cbn [app]. apply text_lf; [exact NI|exact Ne|]. apply IH. exact (ended_tail _ _ En).
  - rewrite <- app_assoc. cbn [app]. apply text_crlf; [exact NI|]. apply IH. rewrite crlf_as_lf in En. exact (ended_tail _ _ En).
Qed.
(** poppy insert f a b, or: cat a b | poppy insert f. The filters have the same bits and parameters, and all entries. *)
Theorem C102_insert o1 o2 w w1 w2 f a b ca cb c g : os_hasher o2 = os_hasher o1 -> fs_bytes w -> Forall plain [f; a; b] -> w f = Some c -> file_size_ok c -> (forall pr, bf_from_reader pr c = Ok g) -> bf_has_bits g -> w a = Some ca -> w b = Some cb -> ended ca ->
  len c <= os_room o1 -> len c <= os_room o2 -> os_stdin o2 = ca ++ cb -> main o1 w [bytes_of "insert"; f; a; b] w1 (Wrote (Ok tt)) -> main o2 w [bytes_of "insert"; f] w2 (Wrote (Ok tt)) ->
  exists c1 c2 g1 g2 ea eb, w1 f = Some c1 /\ w2 f = Some c2 /\ (forall pr, bf_from_reader pr c1 = Ok g1) /\ (forall pr, bf_from_reader pr c2 = Ok g2) /\ text ca ea /\ text cb eb /\
    (forall s, bf_spot g1 s = bf_spot g2 s) /\ bf_version g1 = bf_version g2 /\ bf_capacity g1 = bf_capacity g2 /\ bf_fpp g1 = bf_fpp g2 /\ bf_data g1 = bf_data g2 /\
    forall d, In d (ea ++ eb) -> bf_contains_bytes (os_hasher o1) g1 d = Ok true /\ bf_contains_bytes (os_hasher o1) g2 d = Ok true.
Proof.
  intros Hh B P Hf Sc Ld HB Ha Hb En R1 R2 St M1 M2. apply Forall_cons_iff in P as [Pf P]. pose proof (reads_insert f [a; b] (Forall_cons _ Pf P)) as Q1. pose proof (reads_insert f [] (Forall_cons _ Pf (Forall_nil _))) as Q2.
  apply (run_insert _ _ _ _ _ _ _ _ Q1) in M1 as (r1 & E1 & M1). injection E1 as <-. apply (run_insert _ _ _ _ _ _ _ _ Q2) in M2 as (r2 & E2 & M2). injection E2 as <-. rewrite Hh in M2.
  assert (Bs : bytes_ok (ca ++ cb)) by (apply Forall_app; split; [exact (B _ _ Ha)|exact (B _ _ Hb)]).
  assert (M1' : cmd_insert (os_build o1) (os_libm o1) (os_hasher o1) (os_par o1) w [] (os_room o1) 2 {| ia_stdin := false; ia_file := f; ia_inputs := [a; b] |} = (w1, Ok tt)) by exact M1.
  destruct (C57_insert _ _ _ _ _ [] _ _ {| ia_stdin := false; ia_file := f; ia_inputs := [a; b] |} _ c g B (Forall_nil _) Hf Sc (Ld _) R1 M1') as (s1 & l1 & c1 & g1 & Sl1 & F1 & W1 & _ & L1 & V1' & C1 & P1 & D1 & T1 & H1 & _).
  rewrite St in M2. destruct (C57_insert _ _ _ _ _ (ca ++ cb) _ _ {| ia_stdin := false; ia_file := f; ia_inputs := [] |} _ c g B Bs Hf Sc (Ld _) R2 M2) as (s2 & l2 & c2 & g2 & Sl2 & F2 & W2 & _ & L2 & V2' & C2 & P2 & D2 & T2 & H2 & _).
  cbn [ia_file ia_inputs] in *. inversion F2; subst l2. inversion F1 as [|? ? ea ? la A1 A2 A3 A4]; subst. inversion A4 as [|? ? eb ? lb B1 B2 B3 B4]; subst. inversion B4; subst. rewrite Ha in A1. injection A1 as <-. rewrite Hb in B1. injection B1 as <-.
  assert (S1 : s1 = []). { destruct Sl1 as [(Rs & _)|[_ Q]]; [|exact Q]. destruct Rs as [Rs|Rs]; discriminate. }
  assert (S2 : s2 = ea ++ eb). { apply (stdin_lines_det {| ia_stdin := false; ia_file := f; ia_inputs := [] |} (ca ++ cb)); [|exact Sl2]. left. split; [now right|]. split; [now apply utf8_app|now apply text_app]. }
  subst s1 s2. rewrite !app_nil_r in *. cbn [app] in *. exists c1, c2, g1, g2, ea, eb. split; [exact W1|]. split; [exact W2|]. split; [exact L1|]. split; [exact L2|]. split; [exact A3|]. split; [exact B3|].
  split; [|split; [congruence|split; [congruence|split; [congruence|split; [congruence|]]]]].
  - intro s. apply Bool.eq_iff_eq_true. rewrite T1, T2. tauto.
  - intros d I. split; [now apply H1|now apply H2].
Qed.
Print Assumptions C102_insert.
(** poppy check f a b, or: cat a b | poppy check f. The same lines are printed, those in the filter; the second time in the order of the input. *)
Theorem C102_check o1 o2 w w1 w2 f a b ca cb c g ea eb out1 out2 r1 r2 : os_hasher o2 = os_hasher o1 -> fs_bytes w -> Forall plain [f; a; b] -> w f = Some c -> file_size_ok c -> (forall pr, bf_from_reader pr c = Ok g) -> bf_usable g ->
  w a = Some ca -> w b = Some cb -> utf8 ca -> utf8 cb -> text ca ea -> text cb eb -> ended ca -> os_stdin o2 = ca ++ cb ->
  main o1 w [bytes_of "check"; f; a; b] w1 (Checked out1 r1) -> main o2 w [bytes_of "check"; f] w2 (Checked out2 r2) ->
  r1 = Ok tt /\ r2 = Ok tt /\ exists l, out2 = map Plain l /\ Permutation (map Plain l) out1 /\ subseq l (ea ++ eb) /\ forall d, In d l <-> In d (ea ++ eb) /\ bf_contains_bytes (os_hasher o1) g d = Ok true.
Proof.
  intros Hh B P Hf Sc Ld U Ha Hb U1 U2 T1 T2 En St M1 M2. apply Forall_cons_iff in P as [Pf P]. pose proof (reads_check f [a; b] (Forall_cons _ Pf P)) as Q1. pose proof (reads_check f [] (Forall_cons _ Pf (Forall_nil _))) as Q2.
  set (k1 := {| ka_stdin := false; ka_silent := false; ka_verify := false; ka_file := f; ka_inputs := [a; b] |}) in *. set (k2 := {| ka_stdin := false; ka_silent := false; ka_verify := false; ka_file := f; ka_inputs := [] |}) in *.
  apply (run_check _ _ _ _ _ _ _ _ Q1) in M1 as (_ & o & r & E & M1). injection E as <- <-. apply (run_check _ _ _ _ _ _ _ _ Q2) in M2 as (_ & o & r & E & M2). injection E as <- <-. rewrite Hh, St in M2.
  assert (K1 : checkable (os_build o1) w (os_stdin o1) k1 g [] (ea ++ eb)). { constructor; [exact B|exists c; auto|exact U| |reflexivity]. apply (fl_cons w a ca ea [b] eb Ha U1 T1). rewrite <- (app_nil_r eb). apply (fl_cons w b cb eb [] [] Hb U2 T2). constructor. }
  assert (K2 : checkable (os_build o2) w (ca ++ cb) k2 g (ea ++ eb) []). { constructor; [exact B|exists c; auto|exact U|constructor|]. split; [apply Forall_app; split; [exact (B _ _ Ha)|exact (B _ _ Hb)]|]. split; [now apply utf8_app|now apply text_app]. }
  assert (J : 2 <> 0) by discriminate. destruct (C44_jobs_partial _ (os_hasher o1) _ _ _ _ _ _ _ K1 J) as [_ R1]. destruct (C44_jobs_partial _ (os_hasher o1) _ _ _ _ _ _ _ K2 J) as [_ R2]. split; [exact (R1 _ _ M1)|]. split; [exact (R2 _ _ M2)|].
  destruct (C45_prints _ _ _ _ _ _ _ _ _ _ _ K1 J M1) as (x1 & ls1 & -> & _ & _ & Pm & _). destruct (C45_prints _ _ _ _ _ _ _ _ _ _ _ K2 J M2) as (x2 & ls2 & -> & _ & _ & Pm2 & _).
  change (answer (os_hasher o1) g k2 []) with (@nil printed) in Pm2. apply Permutation_nil in Pm2 as ->. rewrite app_nil_r. change (answer (os_hasher o1) g k1 [] ++ x1) with x1. exists (filter (contained (os_hasher o1) g) (ea ++ eb)). split; [reflexivity|]. split; [exact Pm|]. split.
  - generalize (ea ++ eb). clear. intro l. induction l as [|d l IH]; [constructor|]. cbn [filter]. destruct (contained _ _ d); [now apply sub_take|now apply sub_skip].
  - intro d. rewrite filter_In. unfold contained. destruct (bf_contains_bytes (os_hasher o1) g d) as [[]|x|]; split; intros [I Q]; try discriminate; auto.
Qed.
Print Assumptions C102_check.
(** poppy -j 0 create -p 0.001 f dataset: the capacity is the number of entries and all are found (release builds; see C46_create_partial for debug ones). *)
Theorem C102_dataset o w f ds ls : os_build o = Release -> libm_ln2_sq (os_libm o) -> libm_ln_range (os_libm o) -> fs_bytes w -> dashed f = false -> f <> [] -> Forall plain ds -> ds <> [] -> good_output Release w f -> file_lines w ds ls -> len ls < 2 ^ 53 ->
  exists g, bf_version g = 2 /\ bf_capacity g = len ls /\ bf_fpp g = 4562254508917369340 /\ (forall d, In d ls -> bf_contains_bytes (os_hasher o) g d = Ok true) /\ (len (bf_write g) <= os_room o ->
    exists w' c, main o w (bytes_of "-j" :: bytes_of "0" :: bytes_of "create" :: bytes_of "-p" :: bytes_of "0.001" :: f :: ds) w' (Wrote (Ok tt)) /\ w' f = Some c /\ (forall pr, bf_from_reader pr c = Ok g) /\ forall q, q <> f -> w' q = w q).
Proof.
  intros Hb A1 A2 B Df Nf P Nd Go Fl Ln. assert (Ga : good_args Release w (of_dataset f ds)) by (split; [exact Go|]; split; [now right|]; split; [discriminate|]; split; reflexivity).
  destruct (C46_create_partial Release (os_libm o) (os_hasher o) (os_par o) w (os_room o) 0 (of_dataset f ds) ls A1 A2 B Ga Nd Fl Ln) as [(g & G & Cp & V & Fp & H & Sv)|(_ & Q & _)]; [|discriminate].
  cbn [of_dataset ca_version ca_probability ca_file] in *. exists g. split; [exact V|]. split; [exact Cp|]. split; [exact Fp|]. split; [apply H; destruct g; [discriminate|exact I]|]. intro Room. destruct (Sv Room) as (w' & c & E & W & L & O). exists w', c. split; [|auto].
  apply (run_create o w _ false 0 (of_dataset f ds)); [now apply reads_dataset|]. exists (Ok tt). rewrite Hb. auto.
Qed.
Print Assumptions C102_dataset.
(** poppy -j 0 check f a b: whatever the filter and the files, the run ends in a panic. *)
Theorem C102_check_zero o w w' f a b g ls e : Forall plain [f; a; b] -> checkable (os_build o) w (os_stdin o) {| ka_stdin := false; ka_silent := false; ka_verify := false; ka_file := f; ka_inputs := [a; b] |} g [] ls ->
  main o w [bytes_of "-j"; bytes_of "0"; bytes_of "check"; f; a; b] w' e -> exists out, e = Checked out Panic.
Proof.
  intros P K M. apply (run_check _ _ _ _ _ _ _ _ (reads_check_all f [a; b] P)) in M as (_ & out & r & -> & M). exists out. assert (Ni : [a; b] <> []) by discriminate. now rewrite (C44_zero _ _ _ _ _ _ _ _ _ _ K Ni M).
Qed.
Print Assumptions C102_check_zero.
Theorem C102_check_refuted : exists o w f a b g ls, Forall plain [f; a; b] /\ checkable (os_build o) w (os_stdin o) {| ka_stdin := false; ka_silent := false; ka_verify := false; ka_file := f; ka_inputs := [a; b] |} g [] ls /\
  (exists out r, main o w [bytes_of "check"; f; a; b] w (Checked out r)) /\ forall w' e, main o w [bytes_of "-j"; bytes_of "0"; bytes_of "check"; f; a; b] w' e -> exists out, e = Checked out Panic.
Proof.
  assert (P : Forall plain [[1]; pa; pb]) by (repeat (constructor; [split; [reflexivity|apply utf8_valid_iff; reflexivity]|]); constructor).
  assert (K : checkable Release shelf [] {| ka_stdin := false; ka_silent := false; ka_verify := false; ka_file := [1]; ka_inputs := [pa; pb] |} be2 [] [da; db]).
  { pose proof plain_checkable as [K1 K2 K3 K4 _]. constructor; [exact K1|exact K2|exact K3| |reflexivity]. cbn [ka_inputs plain_check] in *. pose proof txt_a as A. pose proof txt_b as B.
    apply (file_lines_other txt); [intros p [<-|[<-|[]]]; reflexivity|]. apply (fl_cons txt pa (da ++ [10]) [da] [pb] [db]); [reflexivity|apply utf8_valid_iff; reflexivity| |exact B]. apply (text_lf da [] []); [not_in|apply (not_cr [104; 101; 108; 108] 111); discriminate|constructor]. }
  exists here, shelf, [1], pa, pb, be2, [da; db]. split; [exact P|]. split; [exact K|]. split.
  - destruct (check_exists _ (fun _ => 0) _ _ 2 _ _ _ _ K) as (out & r & C). exists out, r. apply (run_check here shelf _ _ _ _ _ _ (reads_check [1] [pa; pb] P)). split; [reflexivity|]. exists out, r. auto.
  - intros w' e. now apply C102_check_zero with (g := be2) (ls := [da; db]).
Qed.
Print Assumptions C102_check_refuted.
(** poppy create help prints no help: it makes a filter in a file called help. *)
Theorem C102_help_refuted : exists o w w' c g, w (bytes_of "help") = None /\ main o w [bytes_of "create"; bytes_of "help"] w' (Wrote (Ok tt)) /\ w' (bytes_of "help") = Some c /\ bf_from_reader Release c = Ok g /\ bf_capacity g = 10000.
Proof.
  destruct (make_good Release real_libm 2 10000 4576918229304087675 ONone real_libm_ln2_sq real_libm_ln_range (or_intror eq_refl) ltac:(reflexivity) ltac:(reflexivity)) as (g & E). assert (H1 : 10000 < two64) by reflexivity. assert (H2 : 4576918229304087675 < two64) by reflexivity. destruct (fresh_facts (fun _ => 0) _ _ _ _ _ _ g H1 H2 E) as (_ & _ & Cp & _ & K).
  set (o := {| os_build := Release; os_libm := real_libm; os_hasher := fun _ => 0; os_par := None; os_wyhash := fun _ => 0; os_draws := {| dr_roll := fun _ _ => 0; dr_key := fun _ _ _ => 0 |}; os_shuffle := fun l => l; os_stdin := []; os_room := len (bf_write g); os_float := dec |}).
  exists o, (fun _ => None), (fs_set (fun _ => None) (bytes_of "help") (bf_write g)), (bf_write g), g. split; [reflexivity|]. split; [|split; [reflexivity|split; [exact (bf_kept_roundtrip Release _ _ g K)|exact Cp]]].
  apply (run_create o _ _ false 2 {| ca_version := 2; ca_capacity := 10000; ca_probability := 4576918229304087675; ca_optimize := 0; ca_file := bytes_of "help"; ca_dataset := [] |}); [now apply (reads_create (bytes_of "help") [])|]. exists (Ok tt). split; [reflexivity|].
  unfold cmd_create, create_filter, check_output. cbn [ca_file ca_dataset ca_optimize ca_version ca_probability ca_capacity obind]. change (opt_of_u8 0) with (@Ok optlevel ONone). cbn [obind]. unfold bf_of_params. cbn [params_opt params_version params_new p_version p_capacity p_fpp p_opt o os_build os_libm os_hasher os_par os_room]. rewrite E. cbn [obind parallel_insert]. apply save_ok. reflexivity.
Qed.
Print Assumptions C102_help_refuted.

(** The two ways to insert, run on two files. *)
Definition piped : outside := {| os_build := Release; os_libm := ref_libm; os_hasher := fun _ => 0; os_par := None; os_wyhash := fun _ => 0; os_draws := {| dr_roll := fun _ _ => 0; dr_key := fun _ _ _ => 0 |}; os_shuffle := fun l => l; os_stdin := (da ++ [10]) ++ (db ++ [13; 10]); os_room := 100000; os_float := dec |}.
Example C102_example : Forall plain [[1]; pa; pb] /\ ended (da ++ [10]) /\ shelf_e pa = Some (da ++ [10]) /\ shelf_e pb = Some (db ++ [13; 10]) /\ (forall pr, bf_from_reader pr (bf_write (V1 e0)) = Ok (V1 e0)) /\ bf_has_bits (V1 e0) /\
  (exists w1, main here shelf_e [bytes_of "insert"; [1]; pa; pb] w1 (Wrote (Ok tt))) /\ exists w2, main piped shelf_e [bytes_of "insert"; [1]] w2 (Wrote (Ok tt)).
Proof.
  assert (P : Forall plain [[1]; pa; pb]) by (repeat (constructor; [split; [reflexivity|apply utf8_valid_iff; reflexivity]|]); constructor). split; [exact P|]. split; [right; now exists da|]. split; [reflexivity|]. split; [reflexivity|].
  split; [intros []; vm_compute; reflexivity|]. split; [vm_compute; discriminate|]. apply Forall_cons_iff in P as [P1 P]. split.
  - eexists. apply (run_insert here shelf_e _ _ _ _ _ _ (reads_insert [1] [pa; pb] (Forall_cons _ P1 P))). eexists. split; [reflexivity|]. vm_compute. reflexivity.
  - eexists. apply (run_insert piped shelf_e _ _ _ _ _ _ (reads_insert [1] [] (Forall_cons _ P1 (Forall_nil _)))). eexists. split; [reflexivity|]. vm_compute. reflexivity.
Qed.
