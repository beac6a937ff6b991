(** Statistics and the bench command (C60, C61, C65, C66). *)
From Coq Require Import Lia Reals Lra.
From Verif Require Import M_Bench M_RefLibm Spec_Bits Spec_Hash Spec_V2 Spec_V1 Spec_Bloom Spec_Libm Spec_Real Spec_Lines Spec_Cli Spec_Bench P_Base P_Bloom P_Lines P_Check P_Create P_Fpp P_V1 P_V1Codec P_V2Make Prop_Bloom Ex_Base Ex_V1 Ex_Cli.
From Flocq Require Import Core.
From Verif Require Import P_Float P_FloatDiv P_Real P_Stats P_Bench.
Open Scope N_scope.

(** * C60 The counters are exact *)
Theorem C60_counts pr es : counted EvFp es <= 2 ^ 53 -> counted EvTp es <= 2 ^ 53 -> counted EvTn es <= 2 ^ 53 -> counted EvFn es <= 2 ^ 53 ->
  exists s, stats_run pr stats_new es = Ok s /\ st_fp s = f_of_u64 (counted EvFp es) /\ st_tp s = f_of_u64 (counted EvTp es) /\
    st_tn s = f_of_u64 (counted EvTn es) /\ st_fn s = f_of_u64 (counted EvFn es) /\ st_total s = len es.
Proof.
  change (2 ^ 53) with exact_max. intros A B C D. rewrite stats_new_of, run_of by assumption. eexists. split; [reflexivity|]. cbn [stats_of st_fp st_tp st_tn st_fn st_total]. rewrite !N.add_0_l. repeat (split; [reflexivity|]).
  clear. unfold counted. induction es as [|e es IH]; [reflexivity|]. cbn [filter]. destruct e; cbn [same_event]; rewrite ?len_cons; lia.
Qed.
Print Assumptions C60_counts.
(** The rate is the correctly rounded share of false positives among the negatives, NaN when there are none. *)
Theorem C60_rate pr es s : counted EvFp es + counted EvTn es <= 2 ^ 53 -> counted EvTp es <= 2 ^ 53 -> counted EvFn es <= 2 ^ 53 -> stats_run pr stats_new es = Ok s ->
  let fp := counted EvFp es in let tn := counted EvTn es in
  (fp + tn = 0 -> stats_fp_rate s = S754_nan) /\
  (0 < fp + tn -> sf_fin (stats_fp_rate s) /\ (Rabs (sf_R (stats_fp_rate s) - ratio fp (fp + tn)) <= bpow radix2 (-53) * ratio fp (fp + tn))%R /\ (sf_R (stats_fp_rate s) = 0%R <-> fp = 0)).
Proof.
  change (2 ^ 53) with exact_max. intros A B C E fp tn. rewrite stats_new_of, run_of in E by lia. rewrite !N.add_0_l in E. fold fp tn in E. assert (s = stats_of fp (counted EvTp es) tn (counted EvFn es)) as -> by congruence. split; [apply rate_nan|]. intro P.
  pose proof (rate_value fp (counted EvTp es) tn (counted EvFn es) A P) as F. destruct (rnd_ratio fp (fp + tn) ltac:(lia) P A) as (R1 & R2 & R3). rewrite (fval_R _ _ F). split; [exact (fval_fin _ _ F)|]. split; [exact R1|exact R3].
Qed.
Print Assumptions C60_rate.
Example C60_example : exists s, stats_run Debug stats_new [EvFp; EvTn; EvTp; EvTn; EvTn] = Ok s /\ st_total s = 5 /\ st_tn s = f_of_u64 3 /\ stats_fp_rate s = f_div (f_of_u64 1) (f_of_u64 4) /\
  ratio (counted EvFp [EvFp; EvTn; EvTp; EvTn; EvTn]) (counted EvFp [EvFp; EvTn; EvTp; EvTn; EvTn] + counted EvTn [EvFp; EvTn; EvTp; EvTn; EvTn]) = (1 / 4)%R.
Proof. eexists. split; [reflexivity|]. split; [reflexivity|]. split; [vm_compute; reflexivity|]. split; [vm_compute; reflexivity|]. reflexivity. Qed.
(** Beyond 2^53 events of a kind the counter stops. *)
Example C60_limit pr tp tn fn t : t < u64_max ->
  exists s, stats_inc pr {| st_fp := f_of_u64 (2 ^ 53); st_tp := tp; st_tn := tn; st_fn := fn; st_total := t |} EvFp = Ok s /\ st_fp s = f_of_u64 (2 ^ 53) /\ st_total s = t + 1.
Proof.
  intro H. unfold stats_inc. cbn [st_total st_fp st_tp st_tn st_fn]. unfold checked_add. cbv zeta. rewrite (proj2 (N.ltb_lt _ _)) by (unfold u64_max, two64 in *; lia). cbn [obind]. eexists. split; [reflexivity|].
  cbn [st_fp st_total]. split; [vm_compute; reflexivity|reflexivity].
Qed.

(** * C61 The entries of a benchmark *)
Definition total (l : list (list byte)) : N := sumN (map len l).
Definition opt_len (o : option (list byte)) : N := match o with Some e => len e | None => 0 end.
Lemma entries_sem pr wyh limit l : forall size marked es, bench_entries pr wyh limit size marked l = Ok es -> size + sumN (map opt_len l) < two64 ->
  NoDup (map wyh es) /\ (forall e, In e es -> ~ In (wyh e) marked) /\ subseq (map Some es) l /\
  (forall pre e post, es = pre ++ e :: post -> size + total pre <= bz_in_bytes limit) /\
  (size + total es <= bz_in_bytes limit -> ~ In None l /\ forall line, In (Some line) l -> In (wyh line) marked \/ In (wyh line) (map wyh es)).
Proof.
  assert (BZ : forall n, bz_in_bytes (bz_from_bytes n) = n) by (intro n; unfold bz_from_bytes; repeat (destruct (_ <? _); [reflexivity|]); reflexivity).
  induction l as [|[line|] l IH]; intros size marked es E Sz; cbn [bench_entries] in E; [| |discriminate E].
  - injection E as <-. split; [constructor|]. split; [intros e []|]. split; [constructor|]. split; [intros [|? ?] ? ? ?; discriminate|]. intros _. split; [intros []|intros ? []].
  - unfold bz_cmp in E. rewrite BZ in E. change (sumN (map opt_len (Some line :: l))) with (len line + sumN (map opt_len l)) in Sz. destruct (N.compare_spec size (bz_in_bytes limit)) as [H|H|H].
    3:{ injection E as <-. split; [constructor|]. split; [intros e []|]. split; [constructor|]. split; [intros [|? ?] ? ? ?; discriminate|]. change (total []) with 0. lia. }
    1,2: assert (Hl : size <= bz_in_bytes limit) by lia; clear H; destruct (existsb (N.eqb (wyh line)) marked) eqn:M;
      [apply eqb_In in M; destruct (IH _ _ _ E) as (A & B & C & D & F); [lia|]; split; [exact A|]; split; [exact B|]; split; [now constructor|]; split; [exact D|]; intro T; destruct (F T) as [F1 F2]; split; [intros [Q|Q]; [discriminate|auto]|]; intros x [Q|Q]; [injection Q as <-; now left|now apply F2]
      |assert (M' : ~ In (wyh line) marked) by (intro Q; apply eqb_In in Q; congruence); unfold checked_add in E; cbv zeta in E; rewrite (proj2 (N.ltb_lt _ _)) in E by lia; cbn [obind] in E; destruct (bench_entries pr wyh limit (size + len line) (wyh line :: marked) l) as [es'| |] eqn:E'; cbn [obind] in E; try discriminate E; injection E as <-;
       destruct (IH _ _ _ E') as (A & B & C & D & F); [lia|];
       split; [cbn [map]; constructor; [|exact A]; intro Q; apply in_map_iff in Q as (e & Q1 & Q2); apply (B e Q2); left; symmetry; exact Q1|];
       split; [intros e [<-|Q]; [exact M'|]; intro Q'; apply (B e Q); now right|];
       split; [cbn [map]; now constructor|];
       split; [intros [|p pre] e post Q; [change (total []) with 0; lia|]; cbn [app] in Q; injection Q as -> ->; specialize (D pre e post eq_refl); change (total (p :: pre)) with (len p + total pre); lia|];
       change (total (line :: es')) with (len line + total es'); intro T; destruct F as [F1 F2]; [lia|]; split; [intros [Q|Q]; [discriminate|auto]|]; intros x [Q|Q]; [injection Q as <-; right; now left|destruct (F2 x Q) as [[Q'|Q']|Q']; [right; left; exact Q'|now left|right; now right]]].
Qed.
Lemma entries_total pr wyh limit l : forall size marked, ~ In None l -> size + sumN (map opt_len l) < two64 -> exists es, bench_entries pr wyh limit size marked l = Ok es.
Proof.
  induction l as [|[line|] l IH]; intros size marked Nn Sz; cbn [bench_entries]; [now eexists| |destruct Nn; now left].
  change (sumN (map opt_len (Some line :: l))) with (len line + sumN (map opt_len l)) in Sz. assert (Nl : ~ In None l) by (intro; apply Nn; now right). destruct (IH size marked Nl ltac:(lia)) as (e1 & E1). destruct (IH (size + len line) (wyh line :: marked) Nl ltac:(lia)) as (e2 & E2).
  unfold checked_add. cbv zeta. rewrite (proj2 (N.ltb_lt _ _)) by lia. cbn [obind]. rewrite E1, E2. cbn [obind]. destruct (bz_cmp _ _); try (eexists; reflexivity); destruct (existsb _ _); eexists; reflexivity.
Qed.
Lemma chomp_len s : len (chomp s) <= len s.
Proof.
  unfold chomp. destruct (rev s) as [|x r] eqn:E; [apply N.le_0_l|]. assert (S : s = rev r ++ [x]) by (rewrite <- (rev_involutive s), E; reflexivity). destruct (x =? LF); [|lia]. subst s. unfold len. rewrite app_length. cbn [length].
  destruct r as [|y r]; [cbn; lia|]. destruct (y =? CR); rewrite !rev_length; cbn [length]; lia.
Qed.
Lemma lines_total stdin : sumN (map opt_len (lines stdin)) <= len stdin.
Proof.
  rewrite <- (segments_concat stdin) at 2. rewrite lines_map. induction (segments stdin) as [|s l IH]; [apply N.le_0_l|]. cbn [map concat]. change (sumN (opt_len (line_of s) :: map opt_len (map line_of l))) with (opt_len (line_of s) + sumN (map opt_len (map line_of l))).
  assert (opt_len (line_of s) <= len s) by (unfold line_of; destruct (utf8_valid s); [apply chomp_len|apply N.le_0_l]). unfold len in *. rewrite app_length. lia.
Qed.
(** The entries are lines of the input in their order, distinct by hash, taken as long as the size limit is not passed; when
    the limit is not reached, every line has the hash of an entry. *)
Theorem C61_entries pr wyh limit stdin es : len stdin < two64 -> bench_entries pr wyh limit 0 [] (lines stdin) = Ok es ->
  NoDup (map wyh es) /\ subseq (map Some es) (lines stdin) /\ (forall pre e post, es = pre ++ e :: post -> sumN (map len pre) <= bz_in_bytes limit) /\
  (sumN (map len es) <= bz_in_bytes limit -> forall line, In (Some line) (lines stdin) -> In (wyh line) (map wyh es)).
Proof.
  intros H E. pose proof (lines_total stdin) as T. destruct (entries_sem _ _ _ _ _ _ _ E) as (A & _ & B & C & D); [lia|]. split; [exact A|]. split; [exact B|]. split; [exact C|]. intros S line Q. destruct (proj2 (D S) line Q) as [[]|R]. exact R.
Qed.
Print Assumptions C61_entries.
(** Any text is accepted. *)
Theorem C61_accepts pr wyh limit stdin : len stdin < two64 -> utf8 stdin -> exists es, bench_entries pr wyh limit 0 [] (lines stdin) = Ok es.
Proof. intros H U. pose proof (lines_total stdin) as T. apply entries_total; [|lia]. intro Q. apply lines_invalid in Q. contradiction. Qed.
Print Assumptions C61_accepts.
(** The filter made for the entries holds them: filling it is never refused, and it reports all of them. *)
Theorem C61_filter pr L wy version fpp opt es o : libm_ln2_sq L -> libm_ln_range L -> Forall bytes_ok es -> len es < two64 -> fpp < two64 -> opt_of_u8 opt = Ok o ->
  (forall f, bf_with_version_capacity_opt pr L version (len es) fpp o = Ok f -> exists b, bench_filter pr L wy version fpp opt es = Ok b) /\
  forall b, bench_filter pr L wy version fpp opt es = Ok b -> bf_capacity b = len es /\ bf_version b = version /\ bf_fpp b = fpp /\ (bf_has_bits b -> forall e, In e es -> bf_contains_bytes wy b e = Ok true).
Proof.
  intros A1 A2 B Hn Hp Ho. assert (U : bench_filter pr L wy version fpp opt es = let? b := bf_with_version_capacity_opt pr L version (len es) fpp o in let '(b', r) := bf_fill pr wy b es in let? _ := r in Ok b') by (unfold bench_filter; rewrite Ho; reflexivity).
  rewrite U. clear U. split.
  - intros f E. rewrite E. cbn [obind]. destruct (fresh_facts wy pr L _ _ _ _ f Hn Hp E) as (W & _ & C & Z & _). pose proof (fresh_usable pr L _ _ _ _ f A1 A2 Hn E) as Us.
    destruct (inserts_fit pr wy es f W Us B) as (g & G); [rewrite C; exact Hn|lia|]. apply C39_fill_iff in G. rewrite G. eexists. reflexivity.
  - intros b E. destruct (bf_with_version_capacity_opt pr L version (len es) fpp o) as [f| |] eqn:F; cbn [obind] in E; try discriminate E. destruct (bf_fill pr wy f es) as [g r] eqn:G. destruct r as [[]| |]; cbn [obind] in E; try discriminate E. injection E as <-. apply C39_fill_iff in G.
    destruct (fresh_facts wy pr L _ _ _ _ f Hn Hp F) as (W & _ & C & Z & _). destruct (inserts_sem _ _ _ _ _ W B G) as (Fr & Wg & _). rewrite (bf_frame_capacity _ _ Fr), C. split; [reflexivity|].
    assert (V : bf_version f = version /\ bf_fpp f = fpp). { apply bf_make_inv in F. destruct f as [f|f]; destruct F as [-> F]. - split; [reflexivity|]. exact (c1_fpp _ _ _ _ (v1_make_created _ _ _ _ F)). - split; [reflexivity|]. exact (cr_fpp _ _ _ _ (v2_make_created _ _ _ _ _ _ F)). }
    assert (V' : bf_version g = bf_version f /\ bf_fpp g = bf_fpp f). { destruct f as [f|f], g as [g|g]; cbn in Fr |- *; try contradiction; (split; [reflexivity|]); [now destruct Fr as (_ & _ & Q & _)|now destruct Fr as (_ & _ & _ & _ & Q & _)]. }
    destruct V as [V1 V2], V' as [V3 V4]. split; [congruence|]. split; [congruence|]. intros HB e He. apply (inserts_contains pr wy f es g e W B); auto. exact (bf_frame_has_bits _ _ (bf_frame_sym _ _ Fr) HB).
Qed.
Print Assumptions C61_filter.
Definition hsum (l : list byte) : u64 := sumN l.
Example C61_example : bench_entries Debug hsum (bz_from_bytes 7) 0 [] (lines (da ++ [10] ++ da ++ [10] ++ db ++ [10] ++ dc ++ [10])) = Ok [da; db] /\
  exists b, bench_filter Debug ref_libm (fun _ => 7) 1 p001 0 [da; db] = Ok b /\ bf_capacity b = 2 /\ bf_count_estimate b = 2.
Proof. split; [vm_compute; reflexivity|]. eexists. split; [vm_compute; reflexivity|]. split; reflexivity. Qed.

(** * C65 The measured rates *)
(** The queries of a condition are the test lines; a mutated line has every byte xored with its own drawn value. *)
Theorem C65_lines d c test i e : getN test i = Some e ->
  exists m q, getN (mutate_lines d c 0 test) i = Some (m, q) /\ (m = true <-> mutated d c i) /\ len q = len e /\ (~ mutated d c i -> q = e) /\
    (mutated d c i -> forall j b, getN e j = Some b -> getN q j = Some (N.lxor b (dr_key d c i j))).
Proof.
  intro H. rewrite (mutate_nth d c test 0 i e H), N.add_0_l. unfold mutated. destruct (N.ltb_spec (dr_roll d c i) (10 * (c + 1))) as [M|M]; eexists; eexists; (split; [reflexivity|]).
  - split; [tauto|]. split; [apply xor_len|]. split; [contradiction|]. intros _ j b Hj. now rewrite (xor_nth _ _ 0 j b Hj).
  - split; [split; [discriminate|lia]|]. split; [reflexivity|]. split; [reflexivity|lia].
Qed.
Print Assumptions C65_lines.
(** On a usable filter every condition is measured, and its rate is the correctly rounded share of mutated lines that the
    filter reports; NaN when no line was mutated. *)
Lemma condition_rate pr wy d b test c s : len test <= 2 ^ 53 -> bench_measure pr wy b stats_new (mutate_lines d c 0 test) = Ok s ->
  exists tn, n_mutated d test c = n_found wy b d test c + tn /\ n_mutated d test c <= exact_max /\ s = stats_of (n_found wy b d test c) 0 tn 0.
Proof.
  intros Hl E. apply measure_run in E. destruct (events_all wy b (mutate_lines d c 0 test)) as (A & B & C). pose proof (events_fp wy b (mutate_lines d c 0 test)) as D. fold (n_found wy b d test c) in D. fold (n_mutated d test c) in A. rewrite D in A.
  assert (M : n_mutated d test c <= exact_max). { apply N.le_trans with (2 := Hl). unfold n_mutated. rewrite <- (mutate_len d c test 0). generalize (mutate_lines d c 0 test). clear. intro l. induction l as [|x l IH]; [apply N.le_0_l|]. cbn [filter]. destruct (fst x); rewrite ?len_cons; lia. }
  rewrite stats_new_of, run_of in E by lia. rewrite B, C, D, !N.add_0_l in E. eexists. split; [symmetry; exact A|]. split; [exact M|]. congruence.
Qed.
Theorem C65_rate pr wy d b runs test c : bf_wf b -> bf_usable b -> draws_ok d -> Forall bytes_ok test -> len test <= 2 ^ 53 -> runs <> 0 ->
  exists x, bench_condition pr wy d b runs test c = Ok x /\ (x = S754_nan <-> n_mutated d test c = 0) /\
    (n_mutated d test c <> 0 -> sf_fin x /\ (Rabs (sf_R x - found_rate wy b d test c) <= bpow radix2 (-53) * found_rate wy b d test c)%R /\ (sf_R x = 0%R <-> n_found wy b d test c = 0)).
Proof.
  intros W U K B Hl Hr. unfold bench_condition. assert (T : forall x, In x (mutate_lines d c 0 test) -> exists r, bf_contains_bytes wy b (snd x) = Ok r).
  { intros x Hx. eexists. apply bf_contains_total; [exact W|exact U|]. pose proof (mutate_bytes d c test K B 0) as Q. rewrite Forall_forall in Q. apply Q. now apply in_map. }
  destruct (bench_measure pr wy b stats_new (mutate_lines d c 0 test)) as [s|e|] eqn:E.
  - destruct (condition_rate _ _ _ _ _ _ _ Hl E) as (tn & N1 & N2 & ->). cbn [obind]. rewrite (proj2 (N.eqb_neq _ _) Hr). eexists. split; [reflexivity|]. unfold found_rate. rewrite N1 in *. destruct (N.eq_dec (n_found wy b d test c + tn) 0) as [Z|Z].
    + split; [|contradiction]. rewrite rate_nan by exact Z. tauto.
    + pose proof (rate_value (n_found wy b d test c) 0 tn 0 N2 ltac:(lia)) as F. destruct (rnd_ratio (n_found wy b d test c) (n_found wy b d test c + tn) ltac:(lia) ltac:(lia) N2) as (R1 & R2 & R3). split.
      * split; [intro Q; pose proof (fval_not_nan _ _ F) as Q'; rewrite Q in Q'; discriminate Q'|contradiction].
      * intros _. rewrite (fval_R _ _ F). split; [exact (fval_fin _ _ F)|]. split; [exact R1|exact R3].
  - exfalso. rewrite (run_measure _ _ _ _ T) in E. destruct (events_all wy b (mutate_lines d c 0 test)) as (A & B' & C). fold (n_mutated d test c) in A.
    assert (M : n_mutated d test c <= exact_max). { apply N.le_trans with (2 := Hl). unfold n_mutated. rewrite <- (mutate_len d c test 0). generalize (mutate_lines d c 0 test). clear. intro l. induction l as [|x l IH]; [apply N.le_0_l|]. cbn [filter]. destruct (fst x); rewrite ?len_cons; lia. }
    rewrite stats_new_of, run_of in E by lia. discriminate E.
  - exfalso. rewrite (run_measure _ _ _ _ T) in E. destruct (events_all wy b (mutate_lines d c 0 test)) as (A & B' & C). fold (n_mutated d test c) in A.
    assert (M : n_mutated d test c <= exact_max). { apply N.le_trans with (2 := Hl). unfold n_mutated. rewrite <- (mutate_len d c test 0). generalize (mutate_lines d c 0 test). clear. intro l. induction l as [|x l IH]; [apply N.le_0_l|]. cbn [filter]. destruct (fst x); rewrite ?len_cons; lia. }
    rewrite stats_new_of, run_of in E by lia. discriminate E.
Qed.
Print Assumptions C65_rate.
(** Two lines, the first mutated to "poppy" (in the filter), the second to something else in every condition from 50 % on. *)
Definition dr1 : draws := {| dr_roll := fun c i => if c <? 4 then 100 else 3; dr_key := fun c i j => if i =? 0 then nth (N.to_nat j) [24; 10; 28; 28; 22] 0 else 77 |}.
Example C65_example : draws_ok dr1 /\ map snd (mutate_lines dr1 5 0 [da; dc]) = [db; [47; 44; 63]] /\ n_mutated dr1 [da; dc] 5 = 2 /\ n_found (fun _ => 0) (V1 e2) dr1 [da; dc] 5 = 1 /\ n_mutated dr1 [da; dc] 3 = 0 /\
  bench_condition Debug (fun _ => 0) dr1 (V1 e2) 1 [da; dc] 5 = Ok (f_div (f_of_u64 1) (f_of_u64 2)) /\ bench_condition Debug (fun _ => 0) dr1 (V1 e2) 1 [da; dc] 3 = Ok S754_nan.
Proof.
  split. { intros c i j. cbn [dr1 dr_key]. destruct (i =? 0); [|reflexivity]. destruct (N.to_nat j) as [|[|[|[|[|n]]]]]; try reflexivity. cbn [nth]. destruct n; reflexivity. }
  split; [vm_compute; reflexivity|]. split; [vm_compute; reflexivity|]. split; [vm_compute; reflexivity|]. split; [vm_compute; reflexivity|]. split; vm_compute; reflexivity.
Qed.

(** * C66 The verdict *)
Lemma bench_inv pr L wy wyh d shuffle w stdin a r : cmd_bench pr L wy wyh d shuffle w stdin a = Ok r ->
  exists limit es, bench_limit pr (ba_size_mb a) = Ok limit /\ bench_entries pr wyh limit 0 [] (lines stdin) = Ok es /\
    ((r = BMissing /\ exists p c b e, ba_file a = Some p /\ w p = Some c /\ bf_from_reader pr c = Ok b /\ In e es /\ bf_contains_bytes wy b e = Ok false) \/
     exists b rates, bench_subject pr L wy w a es b /\ bench_rates pr wy d b (ba_runs a) (bench_test a shuffle es) conditions = Ok rates /\
       r = if bench_rejects (stat_mean rates) (bf_fpp b) (ba_fp_tol a) then BRate rates else BDone rates).
Proof.
  unfold cmd_bench. destruct (bench_limit pr (ba_size_mb a)) as [limit| |]; cbn [obind]; try discriminate. destruct (bench_entries pr wyh limit 0 [] (lines stdin)) as [es| |] eqn:Ee; cbn [obind]; try discriminate. intro E. exists limit, es. split; [reflexivity|]. split; [exact Ee|].
  assert (AC : forall b, (all_contained wy b es = Ok true -> forall e, In e es -> bf_contains_bytes wy b e = Ok true) /\ (all_contained wy b es = Ok false -> exists e, In e es /\ bf_contains_bytes wy b e = Ok false)).
  { clear. intro b. induction es as [|e es [IH1 IH2]]; cbn [all_contained]; [split; [intros _ ? []|discriminate]|]. destruct (bf_contains_bytes wy b e) as [[]| |] eqn:C; cbn [obind]; (split; intro H; try discriminate H).
    - intros x [<-|Hx]; [exact C|now apply IH1]. - destruct (IH2 H) as (x & X1 & X2). exists x. split; [now right|exact X2]. - exists e. split; [now left|exact C]. }
  fold (bench_test a shuffle es) in E. change [0; 1; 2; 3; 4; 5; 6; 7; 8; 9] with conditions in E.
  assert (Rest : forall b, bench_subject pr L wy w a es b -> (let? _ := show_bf pr b in let? rates := bench_rates pr wy d b (ba_runs a) (bench_test a shuffle es) conditions in Ok (if bench_rejects (stat_mean rates) (bf_fpp b) (ba_fp_tol a) then BRate rates else BDone rates)) = Ok r ->
    exists b rates, bench_subject pr L wy w a es b /\ bench_rates pr wy d b (ba_runs a) (bench_test a shuffle es) conditions = Ok rates /\ r = if bench_rejects (stat_mean rates) (bf_fpp b) (ba_fp_tol a) then BRate rates else BDone rates).
  { clear E. intros b Sb E. destruct (show_bf pr b); cbn [obind] in E; try discriminate E. destruct (bench_rates pr wy d b (ba_runs a) (bench_test a shuffle es) conditions) as [rates| |] eqn:R; cbn [obind] in E; try discriminate E. exists b, rates. split; [exact Sb|]. split; [exact R|]. congruence. }
  destruct (ba_file a) as [p|] eqn:F.
  - unfold fs_open in E. destruct (w p) as [c|] eqn:Wp; cbn [obind] in E; try discriminate E. destruct (bf_from_reader pr c) as [b| |] eqn:Lb; cbn [obind] in E; try discriminate E. destruct (all_contained wy b es) as [[]| |] eqn:A; cbn [obind] in E; try discriminate E.
    + right. apply (Rest b); [|exact E]. exact (bs_file _ _ _ _ _ _ _ _ _ F Wp Lb (proj1 (AC b) A)).
    + left. split; [congruence|]. destruct (proj2 (AC b) A) as (e & He & Ce). exists p, c, b, e. auto.
  - right. destruct (bench_filter pr L wy (ba_version a) (ba_fpp a) (ba_opt a) es) as [b| |] eqn:Bf; cbn [obind] in E; try discriminate E. apply (Rest b); [|exact E]. exact (bs_fill _ _ _ _ _ _ _ F Bf).
Qed.
Lemma rates_inv pr wy d b runs test cs : forall rates, bench_rates pr wy d b runs test cs = Ok rates -> Forall2 (fun c x => bench_condition pr wy d b runs test c = Ok x) cs rates.
Proof.
  induction cs as [|c cs IH]; intros rates E; cbn [bench_rates] in E; [injection E as <-; constructor|]. destruct (bench_condition pr wy d b runs test c) as [x| |] eqn:C; cbn [obind] in E; try discriminate E. destruct (bench_rates pr wy d b runs test cs) as [xs| |] eqn:R; cbn [obind] in E; try discriminate E. injection E as <-. constructor; [exact C|now apply IH].
Qed.
Lemma Forall2_len {A B} (R : A -> B -> Prop) a b : Forall2 R a b -> length a = length b.
Proof. induction 1; cbn; congruence. Qed.
(** When every condition mutates some line, the verdict is right up to 2^-40: the benchmark fails if the average share of mutated
    lines reported is above fpp (1 + tolerance), and passes if it is below.
    Missing for the full statement: conditions without mutated lines (C66_refuted), and mutated lines that are entries
    (C66_innocent_refuted), which are not false positives. *)
Theorem C66_verdict_partial pr L wy wyh d shuffle w stdin a r : cmd_bench pr L wy wyh d shuffle w stdin a = Ok r -> r <> BMissing ->
  exists limit es b rates, bench_limit pr (ba_size_mb a) = Ok limit /\ bench_entries pr wyh limit 0 [] (lines stdin) = Ok es /\ bench_subject pr L wy w a es b /\ (r = BDone rates \/ r = BRate rates) /\
    (fpp_in_range (bf_fpp b) = true -> sf_fin (sf_of_bits (ba_fp_tol a)) -> (0 <= sf_R (sf_of_bits (ba_fp_tol a)) <= 1000)%R -> len (bench_test a shuffle es) <= 2 ^ 53 ->
     (forall c, c < 10 -> n_mutated d (bench_test a shuffle es) c <> 0) ->
     let bound := (sf_R (sf_of_bits (bf_fpp b)) * (1 + sf_R (sf_of_bits (ba_fp_tol a))))%R in
     (mean_rate wy b d (bench_test a shuffle es) >= bound + bpow radix2 (-40) -> r = BRate rates)%R /\
     (mean_rate wy b d (bench_test a shuffle es) <= bound - bpow radix2 (-40) -> r = BDone rates)%R).
Proof.
  intros E Nm. destruct (bench_inv _ _ _ _ _ _ _ _ _ _ E) as (limit & es & El & Ee & [[-> _]|(b & rates & Sb & Rt & Er)]); [contradiction|]. exists limit, es, b, rates. split; [exact El|]. split; [exact Ee|]. split; [exact Sb|]. split; [rewrite Er; destruct (bench_rejects _ _ _); auto|].
  intros Fr Ft Tb Hl Nz bound. destruct (fpp_real _ Fr) as (Ff & F1 & F2). apply sf_fin_fval in Ft. set (test := bench_test a shuffle es) in *.
  assert (V : Forall2 unit_val rates (map (fun c => rnd (found_rate wy b d test c)) conditions) /\ Forall (fun c => n_found wy b d test c <= n_mutated d test c /\ n_mutated d test c <= exact_max) conditions).
  { pose proof (rates_inv _ _ _ _ _ _ _ _ Rt) as Q. assert (Nz' : Forall (fun c => n_mutated d test c <> 0) conditions) by (unfold conditions; repeat (constructor; [apply Nz; reflexivity|]); constructor). clear -Q Nz' Hl. induction Q as [|c x cs xs C Q IH]; [split; constructor|]. inversion Nz' as [|? ? Nc Ncs]; subst. destruct (IH Ncs) as [I1 I2].
    unfold bench_condition in C. destruct (bench_measure pr wy b stats_new (mutate_lines d c 0 test)) as [s| |] eqn:M; cbn [obind] in C; try discriminate C. destruct (ba_runs a =? 0); [discriminate C|]. injection C as <-. destruct (condition_rate _ _ _ _ _ _ _ Hl M) as (tn & N1 & N2 & ->).
    split; [|constructor; [lia|exact I2]]. cbn [map]. constructor; [|exact I1]. unfold found_rate. rewrite N1 in *. split; [apply rate_value; [exact N2|lia]|]. apply (rnd_ratio (n_found wy b d test c) (n_found wy b d test c + tn)); lia. }
  destruct V as [V1 V2]. assert (Len : length rates = 10%nat) by (rewrite (Forall2_len _ _ _ V1); reflexivity). destruct (mean_value _ _ V1 Len) as (m & Fm & Dm). destruct (rejects_R _ _ _ _ _ _ Fm Ff Ft) as (t & Rj & Dt); [pose proof (bpow_gt_0 radix2 (-1022)); lra|exact Tb|].
  assert (Sm : (Rabs (sumR (map (fun c => rnd (found_rate wy b d test c)) conditions) - sumR (map (found_rate wy b d test) conditions)) <= 10 * bpow radix2 (-53))%R).
  { assert (G : (Rabs (sumR (map (fun c => rnd (found_rate wy b d test c)) conditions) - sumR (map (found_rate wy b d test) conditions)) <= IZR (Z.of_nat (length conditions)) * bpow radix2 (-53))%R); [|exact G].
    assert (Nz' : Forall (fun c => n_mutated d test c <> 0) conditions) by (unfold conditions; repeat (constructor; [apply Nz; reflexivity|]); constructor). clear -V2 Nz'. induction conditions as [|c cs IH]; [cbn [map sumR fold_right length]; rewrite Rminus_0_r, Rabs_R0; cbn; lra|].
    inversion V2 as [|? ? [A B] V2']; subst. inversion Nz' as [|? ? Nc Ncs]; subst. specialize (IH V2' Ncs). cbn [map sumR fold_right length]. rewrite Nat2Z.inj_succ, succ_IZR. unfold found_rate at 1 3. destruct (rnd_ratio (n_found wy b d test c) (n_mutated d test c) A ltac:(lia) B) as (R1 & _). pose proof (ratio_bounds (n_found wy b d test c) (n_mutated d test c) A ltac:(lia)) as R2.
    pose proof (bpow_gt_0 radix2 (-53)) as P. assert (R1' : (Rabs (rnd (ratio (n_found wy b d test c) (n_mutated d test c)) - ratio (n_found wy b d test c) (n_mutated d test c)) <= bpow radix2 (-53))%R) by (apply Rle_trans with (1 := R1); rewrite <- (Rmult_1_r (bpow radix2 (-53))) at 2; apply Rmult_le_compat_l; lra).
    unfold sumR in IH. apply Rabs_le_inv in IH, R1'. apply Rabs_le. lra. }
  assert (B53 : (bpow radix2 (-40) = 8192 * bpow radix2 (-53))%R) by (change (-40)%Z with (13 + -53)%Z; rewrite bpow_plus; reflexivity). assert (B41 : (bpow radix2 (-41) = 4096 * bpow radix2 (-53))%R) by (change (-41)%Z with (12 + -53)%Z; rewrite bpow_plus; reflexivity).
  assert (BD : (delta = 24 * bpow radix2 (-53))%R) by (unfold delta; change (-50)%Z with (3 + -53)%Z; rewrite bpow_plus; change (bpow radix2 3) with 8%R; ring). pose proof (bpow_gt_0 radix2 (-53)) as P. rewrite BD in Dm. rewrite B41 in Dt. rewrite B53. unfold mean_rate.
  set (S := sumR (map (found_rate wy b d test) conditions)) in *. set (S' := sumR (map (fun c => rnd (found_rate wy b d test c)) conditions)) in *. replace bound with (sf_R (sf_of_bits (bf_fpp b)) + sf_R (sf_of_bits (bf_fpp b)) * sf_R (sf_of_bits (ba_fp_tol a)))%R by (unfold bound; ring).
  apply Rabs_le_inv in Dm, Dt, Sm. split; intro H.
  - rewrite Er. rewrite (proj2 Rj); [reflexivity|]. lra.
  - rewrite Er. destruct (bench_rejects _ _ _) eqn:Q; [|reflexivity]. exfalso. pose proof (proj1 Rj eq_refl). lra.
Qed.
Print Assumptions C66_verdict_partial.
(** With a file, the benchmark refuses to start only when some entry is not reported. *)
Theorem C66_missing pr L wy wyh d shuffle w stdin a : cmd_bench pr L wy wyh d shuffle w stdin a = Ok BMissing ->
  exists limit es p c b e, bench_limit pr (ba_size_mb a) = Ok limit /\ bench_entries pr wyh limit 0 [] (lines stdin) = Ok es /\ ba_file a = Some p /\ w p = Some c /\ bf_from_reader pr c = Ok b /\ In e es /\ bf_contains_bytes wy b e = Ok false.
Proof.
  intro E. destruct (bench_inv _ _ _ _ _ _ _ _ _ _ E) as (limit & es & El & Ee & [[_ (p & c & b & e & H)]|(b & rates & _ & _ & Er)]); [exists limit, es, p, c, b, e; tauto|]. destruct (bench_rejects _ _ _); discriminate Er.
Qed.
Print Assumptions C66_missing.
Definition ones : v1 := {| v1_flags := v1_flags e0; v1_bitset := [u64_max]; v1_capacity := v1_capacity e0; v1_fpp := v1_fpp e0; v1_n_hash := v1_n_hash e0; v1_bit_size := v1_bit_size e0; v1_count := 2; v1_data := []; v1_fp := v1_fp e0 |}.
Definition one_file (c : list byte) : fs := fun q => if list_eqb [1] q then Some c else None.
Definition p_half : N := 4602678819172646912.
Definition bargs (runs : N) (f : option (list byte)) : bench_args := {| ba_size_mb := 1; ba_test_size := None; ba_runs := runs; ba_fp_tol := p_half; ba_version := 1; ba_fpp := p001; ba_opt := 0; ba_file := f |}.
(** No line is mutated in the first condition, all in the others. *)
Definition dr2 : draws := {| dr_roll := fun c _ => if c =? 0 then 100 else 0; dr_key := fun _ _ _ => 200 |}.
(** A filter that answers yes to everything passes: one condition without mutated lines turns the average into NaN. *)
Theorem C66_refuted : exists d w stdin a b rates, draws_ok d /\ (forall c i, dr_roll d c i <= 100) /\ fs_bytes w /\ (exists c, w [1] = Some c /\ forall pr, bf_from_reader pr c = Ok b) /\ ba_file a = Some [1] /\ bf_fpp b = p001 /\ ba_fp_tol a = p_half /\
  (forall wy x, bytes_ok x -> bf_contains_bytes wy b x = Ok true) /\ (forall pr wy, cmd_bench pr ref_libm wy hsum d (fun l => l) w stdin a = Ok (BDone rates)) /\ rates = S754_nan :: repeat f_one 9.
Proof.
  exists dr2, (one_file (v1_write ones)), (da ++ [10]), (bargs 1 (Some [1])), (V1 ones). eexists. split; [intros c i j; reflexivity|]. split; [intros c i; cbn [dr2 dr_roll]; destruct (c =? 0); discriminate|].
  split. { intros q c. unfold one_file. destruct (list_eqb [1] q); [|discriminate]. intro Q. injection Q as <-. vm_compute (v1_write ones). repeat (constructor; [reflexivity|]). constructor. }
  split; [exists (v1_write ones); split; [reflexivity|]; intros []; vm_compute; reflexivity|]. split; [reflexivity|]. split; [reflexivity|]. split; [reflexivity|]. split; [|split; [intros [] wy; vm_compute; reflexivity|reflexivity]].
  intros wy x Bx. assert (Pos : Forall (fun i => i < 38) (v1_positions ones x)).
  { unfold v1_positions, dcso_positions. apply Forall_forall. intros i Hi. apply in_map_iff in Hi as (k & <- & _). apply N.mod_lt. discriminate. }
  apply bf_contains_sem; [|exact Bx|].
  - apply (bf_load_wf Release (v1_write ones)); [|vm_compute; reflexivity|vm_compute; reflexivity]. vm_compute (v1_write ones). repeat (constructor; [reflexivity|]). constructor.
  - split; [split; [discriminate|split; [|intros _; discriminate]]|].
    + unfold in_range64. eapply Forall_impl; [|exact Pos]. intros i Hi. change (64 * len (v1_bitset ones)) with 64. cbv beta in Hi. lia.
    + intros [k i|i]; cbn [bf_spots bf_spot]; [|contradiction]. intros [-> Hi]. rewrite Forall_forall in Pos. specialize (Pos i Hi). cbv beta in Pos. cbn [N.eqb andb]. unfold v1_bit, bit. clear -Pos.
      rewrite N.div_small, N.mod_small by lia. change (nth_error (v1_bitset ones) (N.to_nat 0)) with (Some (N.ones 64)). cbv iota beta. apply N.ones_spec_low. lia.
Qed.
Print Assumptions C66_refuted.
(** A mutated line that is an entry counts as a false positive: a benchmark of a filter without any false positive among the queries
    fails. Here the only entry is the empty line. *)
Theorem C66_innocent_refuted : exists d stdin a es rates, draws_ok d /\ (forall c i, dr_roll d c i <= 100) /\ utf8 stdin /\
  (forall pr, bench_entries pr hsum (bz_from_bytes 1048576) 0 [] (lines stdin) = Ok es) /\ (forall c m q, In (m, q) (mutate_lines d c 0 (bench_test a (fun l => l) es)) -> In q es) /\
  forall pr wy w, cmd_bench pr ref_libm wy hsum d (fun l => l) w stdin a = Ok (BRate rates).
Proof.
  exists {| dr_roll := fun _ _ => 3; dr_key := fun _ _ _ => 99 |}, [10], (bargs 1 None), [[]]. eexists. split; [intros c i j; reflexivity|]. split; [intros c i; discriminate|]. split; [apply utf8_valid_iff; reflexivity|]. split; [intros []; vm_compute; reflexivity|].
  split; [|intros [] wy w; vm_compute; reflexivity]. intros c m q. change (bench_test _ _ _) with [@nil N]. cbn [mutate_lines xor_bytes]. destruct (_ <? _); intros [Q|[]]; injection Q as _ <-; now left.
Qed.
Print Assumptions C66_innocent_refuted.
(** Zero runs panic. *)
Theorem C66_runs_refuted : exists d stdin a, ba_runs a = 0 /\ forall pr wy w, cmd_bench pr ref_libm wy hsum d (fun l => l) w stdin a = Panic.
Proof. exists dr2, (da ++ [10]), (bargs 0 None). split; [reflexivity|]. intros [] wy w; vm_compute; reflexivity. Qed.
Print Assumptions C66_runs_refuted.
Example C66_example : let d := {| dr_roll := fun _ _ => 3; dr_key := fun _ _ _ => 200 |} in
  cmd_bench Debug ref_libm (fun _ => 0) hsum d (fun l => rev l) txt (da ++ [10] ++ db ++ [10]) (bargs 3 None) = Ok (BDone (repeat (S754_zero false) 10)) /\
  cmd_bench Debug ref_libm (fun _ => 0) hsum d (fun l => rev l) (one_file (v1_write ones)) (da ++ [10] ++ db ++ [10]) (bargs 3 (Some [1])) = Ok (BRate (repeat f_one 10)) /\
  cmd_bench Debug ref_libm (fun _ => 0) hsum d (fun l => rev l) (one_file (v1_write e1)) (da ++ [10] ++ db ++ [10]) (bargs 3 (Some [1])) = Ok BMissing.
Proof. intro d. split; [|split]; vm_compute; reflexivity. Qed.
