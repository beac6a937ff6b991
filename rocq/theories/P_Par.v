(** Parallel insertion: what the workers do, what their union is, and independence from the schedule. *)
From Coq Require Import Lia Permutation.
From Verif Require Import M_Cli Spec_Bits Spec_Hash Spec_V2 Spec_V1 Spec_Bloom Spec_Lines Spec_Cli P_Base P_Codec P_Bloom P_Lines P_Batch.
Open Scope N_scope.

(** ** Reading files *)
Lemma file_lines_app w a b la lb : file_lines w a la -> file_lines w b lb -> file_lines w (a ++ b) (la ++ lb).
Proof. induction 1; intro HB; [exact HB|]. cbn [app]. rewrite <- app_assoc. econstructor; eauto. Qed.
Lemma file_lines_inv w p r l : file_lines w (p :: r) l -> exists c es ls, l = es ++ ls /\ w p = Some c /\ utf8 c /\ text c es /\ file_lines w r ls.
Proof. intro H. inversion H; subst. eauto 10. Qed.
Lemma inserts_inv pr wy f d ds h : inserts pr wy f (d :: ds) h -> exists g b, bf_insert_bytes pr wy f d = (g, Ok b) /\ inserts pr wy g ds h.
Proof. intro H. inversion H; subst. eauto. Qed.
Lemma file_lines_app_inv w a : forall b ls, file_lines w (a ++ b) ls -> exists la lb, ls = la ++ lb /\ file_lines w a la /\ file_lines w b lb.
Proof.
  induction a as [|p a IH]; intros b ls H; cbn [app] in H; [exists [], ls; split; [reflexivity|]; split; [constructor|exact H]|].
  apply file_lines_inv in H as (c & es & ls' & -> & E & U & T & H). destruct (IH _ _ H) as (la & lb & -> & A & B). exists (es ++ la), lb. rewrite app_assoc. split; [reflexivity|]. split; [econstructor; eauto|exact B].
Qed.
Lemma text_det s es : text s es -> forall es', text s es' -> es' = es.
Proof. intros T es' T'. now rewrite <- (text_chomp _ _ T), <- (text_chomp _ _ T'). Qed.
Lemma file_lines_det w files ls : file_lines w files ls -> forall ls', file_lines w files ls' -> ls' = ls.
Proof.
  induction 1 as [|p c es r ls E U T H IH]; intros ls' H'; [now inversion H'|]. apply file_lines_inv in H' as (c' & es' & l & -> & E' & _ & T' & H'). rewrite E in E'. injection E' as <-. now rewrite (text_det _ _ T _ T'), (IH _ H').
Qed.
Lemma file_lines_bytes w files ls : fs_bytes w -> file_lines w files ls -> Forall bytes_ok ls.
Proof.
  intros B. induction 1 as [|p c es r ls E U T H IH]; [constructor|]. apply Forall_app. split; [|exact IH]. apply Forall_forall. intros e He. apply Forall_forall. intros x Hx.
  pose proof (B _ _ E) as Bc. unfold bytes_ok in Bc. rewrite Forall_forall in Bc. apply Bc. exact (text_In _ _ _ _ T He Hx).
Qed.
Lemma file_lines_or_bad w files : (exists ls, file_lines w files ls) \/ exists p, In p files /\ bad_file w p.
Proof.
  induction files as [|p files IH]; [left; exists []; constructor|]. destruct (w p) as [c|] eqn:E.
  - destruct (utf8_valid c) eqn:V.
    + apply utf8_valid_iff in V. destruct IH as [(ls & H)|(q & Hq & B)]; [left|right; exists q; split; [now right|exact B]]. destruct (text_total _ c (le_n _)) as (es & T). exists (es ++ ls). econstructor; eauto.
    + right. exists p. split; [now left|]. right. exists c. split; [exact E|]. rewrite <- utf8_valid_iff, V. discriminate.
  - right. exists p. split; [now left|]. now left.
Qed.
Lemma file_lines_not_bad w files ls p : file_lines w files ls -> In p files -> ~ bad_file w p.
Proof.
  induction 1 as [|q c es r ls E U T H IH]; intros Hp Q; [contradiction|]. destruct Hp as [->|Hp]; [|now apply IH]. destruct Q as [Q|(c' & E' & Q)]; rewrite E in *; [discriminate|]. injection E' as <-. contradiction.
Qed.
(** Per batch. *)
Lemma batches_file_lines w bs : forall ls, file_lines w (concat bs) ls <-> exists lss, ls = concat lss /\ Forall2 (file_lines w) bs lss.
Proof.
  induction bs as [|b bs IH]; intro ls; cbn [concat].
  - split; intro H; [inversion H; exists []; split; [reflexivity|constructor]|]. destruct H as (lss & -> & F). inversion F. constructor.
  - split; intro H.
    + apply file_lines_app_inv in H as (la & lb & -> & A & B). apply IH in B as (lss & -> & F). exists (la :: lss). split; [reflexivity|]. now constructor.
    + destruct H as (lss & -> & F). inversion F; subst. cbn [concat]. apply file_lines_app; [assumption|]. apply IH. eauto.
Qed.

(** ** One worker *)
Lemma insert_lines_some pr wy es : forall f g r, insert_lines pr wy f (map Some es) = (g, r) ->
  (r = Ok tt <-> inserts pr wy f es g) /\
  (r <> Ok tt -> exists pre d rest h r', es = pre ++ d :: rest /\ inserts pr wy f pre h /\ bf_insert_bytes pr wy h d = (g, r') /\ match r' with Ok _ => False | Err e => r = Err e | Panic => r = Panic end).
Proof.
  induction es as [|d es IH]; intros f g r E; cbn [map insert_lines] in E.
  - injection E as <- <-. split; [split; [constructor|reflexivity]|contradiction].
  - destruct (bf_insert_bytes pr wy f d) as [f' [b|e|]] eqn:X.
    + destruct (IH _ _ _ E) as [A B]. split.
      * rewrite A. split; intro H; [econstructor; eassumption|]. apply inserts_inv in H as (g' & b' & X' & H). rewrite X in X'. apply pair_inj in X' as [<- _]. exact H.
      * intro Hr. destruct (B Hr) as (pre & d' & rest & h & r' & -> & Q & I & M). exists (d :: pre), d', rest, h, r'. split; [reflexivity|]. split; [econstructor; eassumption|]. auto.
    + injection E as <- <-. split; [split; [discriminate|]|].
      * intro H. apply inserts_inv in H as (g' & b' & X' & _). congruence.
      * intros _. exists [], d, es, f, (Err e). split; [reflexivity|]. split; [constructor|]. auto.
    + injection E as <- <-. split; [split; [discriminate|]|].
      * intro H. apply inserts_inv in H as (g' & b' & X' & _). congruence.
      * intros _. exists [], d, es, f, Panic. split; [reflexivity|]. split; [constructor|]. auto.
Qed.
Lemma insert_lines_none pr wy l : forall f g r, insert_lines pr wy f l = (g, r) -> In None l -> r <> Ok tt.
Proof.
  induction l as [|[d|] l IH]; intros f g r E H; cbn [insert_lines] in E; [contradiction| |injection E as <- <-; discriminate]. destruct H as [H|H]; [discriminate|].
  destruct (bf_insert_bytes pr wy f d) as [f' [b|e|]]; [exact (IH _ _ _ E H)|injection E as <- <-; discriminate|injection E as <- <-; discriminate].
Qed.
Lemma insert_content pr wy f c g es : text c es -> (insert_lines pr wy f (lines c) = (g, Ok tt) <-> utf8 c /\ inserts pr wy f es g).
Proof.
  intro T. split.
  - intro E. assert (U : utf8 c). { destruct (utf8_valid c) eqn:V; [now apply utf8_valid_iff|]. exfalso. apply (insert_lines_none _ _ _ _ _ _ E); [|reflexivity]. apply lines_invalid. rewrite <- utf8_valid_iff, V. discriminate. }
    split; [exact U|]. rewrite (text_lines _ _ T U) in E. now apply (insert_lines_some _ _ _ _ _ _ E).
  - intros [U I]. rewrite (text_lines _ _ T U). destruct (insert_lines pr wy f (map Some es)) as [g' r] eqn:E. pose proof (proj1 (insert_lines_some _ _ _ _ _ _ E)) as Q.
    destruct r as [[]|e|].
    + pose proof (proj1 Q eq_refl) as Q'. now rewrite (inserts_det _ _ _ _ _ I _ Q').
    + exfalso. revert E I. clear. revert f g g'. induction es as [|d es IH]; intros f g g' E I; cbn [map insert_lines] in E; [discriminate|]. apply inserts_inv in I as (h & b & X & I). rewrite X in E. eauto.
    + exfalso. revert E I. clear. revert f g g'. induction es as [|d es IH]; intros f g g' E I; cbn [map insert_lines] in E; [discriminate|]. apply inserts_inv in I as (h & b & X & I). rewrite X in E. eauto.
Qed.
Lemma worker_ok pr wy w batch : forall f g, worker pr wy w f batch = Ok g <-> exists ls, file_lines w batch ls /\ inserts pr wy f ls g.
Proof.
  induction batch as [|p batch IH]; intros f g; cbn [worker].
  - split; [intro E; injection E as <-; exists []; split; constructor|]. intros (ls & F & I). inversion F; subst. now inversion I.
  - unfold process_file, fs_open. destruct (w p) as [c|] eqn:E.
    + destruct (text_total _ c (le_n _)) as (es & T). destruct (insert_lines pr wy f (lines c)) as [f' r] eqn:X. destruct r as [[]|e|].
      * apply (insert_content _ _ _ _ _ _ T) in X as [U I1]. rewrite IH. split; intros (ls & F & I).
        -- exists (es ++ ls). split; [econstructor; eauto|]. eapply inserts_app; eauto.
        -- apply file_lines_inv in F as (c' & es' & ls' & -> & E' & _ & T' & F). rewrite E in E'. injection E' as <-. rewrite (text_det _ _ T _ T') in I. apply inserts_app_inv in I as (h & I2 & I3).
           rewrite (inserts_det _ _ _ _ _ I1 _ I2) in I3. eauto.
      * split; [discriminate|]. intros (ls & F & I). exfalso. apply file_lines_inv in F as (c' & es' & ls' & -> & E' & U' & T' & F). rewrite E in E'. injection E' as <-. apply inserts_app_inv in I as (h & I2 & _).
        rewrite (proj2 (insert_content _ _ _ _ h _ T') (conj U' I2)) in X. discriminate.
      * split; [discriminate|]. intros (ls & F & I). exfalso. apply file_lines_inv in F as (c' & es' & ls' & -> & E' & U' & T' & F). rewrite E in E'. injection E' as <-. apply inserts_app_inv in I as (h & I2 & _).
        rewrite (proj2 (insert_content _ _ _ _ h _ T') (conj U' I2)) in X. discriminate.
    + split; [discriminate|]. intros (ls & F & I). apply file_lines_inv in F as (c' & es' & ls' & _ & E' & _). congruence.
Qed.

(** ** Joining *)
Lemma join_all_ok {A} (l : list (outcome A)) r : join_all l = Ok r <-> l = map Ok r.
Proof.
  revert r. induction l as [|x l IH]; intro r; cbn [join_all]; [split; [intro E; injection E as <-; reflexivity|destruct r; [reflexivity|discriminate]]|].
  destruct x as [a|e|]; [|split; [discriminate|destruct r; discriminate]..]. destruct (join_all l) as [r'|e|] eqn:E.
  - pose proof (proj1 (IH r') eq_refl) as Q. split; intro H; [injection H as <-; cbn; now rewrite Q|]. destruct r as [|b r]; [discriminate|]. cbn in H. injection H as -> H. pose proof (proj2 (IH r) H) as Q'. injection Q' as ->. reflexivity.
  - split; [discriminate|]. intro H. destruct r as [|b r]; [discriminate|]. cbn in H. injection H as -> H. apply IH in H. discriminate.
  - split; [discriminate|]. intro H. destruct r as [|b r]; [discriminate|]. cbn in H. injection H as -> H. apply IH in H. discriminate.
Qed.
Lemma join_all_cases {A} (l : list (outcome A)) : (exists r, join_all l = Ok r) \/ join_all l = Panic.
Proof. induction l as [|[a|e|] l IH]; cbn [join_all]; [left; eexists; reflexivity| |now right|now right]. destruct IH as [(r & ->)| -> ]; [left; eexists; reflexivity|now right]. Qed.
Lemma workers_ok pr wy w f bs : forall gs, join_all (map (worker pr wy w f) bs) = Ok gs <-> Forall2 (fun b g => exists ls, file_lines w b ls /\ inserts pr wy f ls g) bs gs.
Proof.
  intro gs. rewrite join_all_ok. revert gs. induction bs as [|b bs IH]; intros [|g gs]; cbn [map]; split; intro H; try discriminate; try (now inversion H); try constructor; try reflexivity.
  - injection H as H1 H2. now apply worker_ok in H1.
  - injection H as H1 H2. now apply IH in H2.
  - inversion H; subst. f_equal; [now apply worker_ok|now apply IH].
Qed.

(** ** Merging *)
Lemma reduce_sem pr L : forall l f out g, bf_wf out -> bf_same_frame f out -> Forall (fun h => bf_wf h /\ bf_same_frame f h) l -> reduce pr L out l = Ok g ->
  bf_wf g /\ bf_same_frame f g /\ bf_data g = bf_data out /\ forall s, bf_spot g s = true <-> bf_spot out s = true \/ exists h, In h l /\ bf_spot h s = true.
Proof.
  induction l as [|h l IH]; intros f out g W Fr F E; cbn [reduce] in E.
  - injection E as <-. split; [exact W|]. split; [exact Fr|]. split; [reflexivity|]. intro s. split; [auto|]. intros [Q|(h & [] & _)]. exact Q.
  - inversion F; subst. destruct H1 as [Wh Fh]. destruct (bf_union_merge pr L out h) as [out' r] eqn:U. pose proof (bf_union_sem _ _ _ _ _ _ W Wh U) as S. destruct r as [[]|e|]; [|discriminate..].
    destruct S as (Fr' & W' & D' & _ & Sp). destruct (IH f out' g W' (bf_frame_trans _ _ _ Fr Fr') H2 E) as (A & B & C & D). split; [exact A|]. split; [exact B|]. split; [congruence|].
    intro s. rewrite D, Sp, Bool.orb_true_iff. split.
    + intros [[Q|Q]|(x & Hx & Q)]; [now left|right; exists h; split; [now left|exact Q]|right; exists x; split; [now right|exact Q]].
    + intros [Q|(x & [<-|Hx] & Q)]; [auto|auto|]. right. eauto.
Qed.
(** Filters with the frame of [f] merge, unless the estimate of a v2 union overflows in a debug build. *)
Lemma reduce_cases pr L : forall l f out, bf_wf out -> bf_fpp_real f -> bf_same_frame f out -> Forall (fun h => bf_wf h /\ bf_same_frame f h) l ->
  (exists g, reduce pr L out l = Ok g) \/ (reduce pr L out l = Panic /\ pr = Debug /\ bf_version f = 2 /\ l <> []).
Proof.
  induction l as [|h l IH]; intros f out W P Fr F; cbn [reduce]; [left; eauto|].
  inversion F; subst. destruct H1 as [Wh Fh]. destruct (bf_union_merge pr L out h) as [out' r] eqn:U.
  assert (P' : bf_fpp_real out). { revert P. destruct f as [f|f], out as [o|o]; try contradiction; cbn; [|auto]. destruct Fr as (_ & _ & Q & _). now rewrite Q. }
  assert (V : bf_version out = bf_version f) by (revert Fr; destruct f as [f|f], out as [o|o]; cbn; auto; contradiction).
  destruct (bf_union_frame pr L _ _ _ _ W Wh P' (bf_frame_trans _ _ _ (bf_frame_sym _ _ Fr) Fh) U) as [->|(-> & -> & Q)].
  - pose proof (bf_union_sem _ _ _ _ _ _ W Wh U) as (Fr' & W' & _). destruct (IH f out' W' P (bf_frame_trans _ _ _ Fr Fr') H2) as [G|(E & A & B & C)]; [now left|right]. repeat split; auto. discriminate.
  - right. split; [reflexivity|]. split; [reflexivity|]. split; [congruence|discriminate].
Qed.

(** ** The whole of parallel insertion *)
Lemma workers_wf pr wy w f bs gs : bf_wf f -> fs_bytes w -> Forall2 (fun b g => exists ls, file_lines w b ls /\ inserts pr wy f ls g) bs gs ->
  exists lss, Forall2 (file_lines w) bs lss /\ Forall2 (inserts pr wy f) lss gs /\ Forall (fun h => bf_wf h /\ bf_same_frame f h /\ bf_data h = bf_data f) gs /\
    forall s, (exists h, In h gs /\ bf_spot h s = true) <-> gs <> [] /\ bf_spot f s = true \/ exists d, In d (concat lss) /\ bf_spots wy f d s.
Proof.
  intros W B. induction 1 as [|b g bs gs (ls & Fl & I) F IH].
  - exists []. split; [constructor|]. split; [constructor|]. split; [constructor|]. intro s. split; [intros (h & [] & _)|]. intros [[Q _]|(d & [] & _)]. now contradiction Q.
  - destruct IH as (lss & A1 & A2 & A3 & A4). exists (ls :: lss). split; [now constructor|]. split; [now constructor|].
    destruct (inserts_sem _ _ _ _ _ W (file_lines_bytes _ _ _ B Fl) I) as (S1 & S2 & S3 & S4). split; [now constructor|]. intro s. cbn [concat]. split.
    + intros (h & [<-|Hh] & Q).
      * apply S4 in Q as [Q|(d & Hd & Q)]; [left; split; [discriminate|exact Q]|right; exists d; split; [apply in_or_app; now left|exact Q]].
      * destruct (proj1 (A4 s) (ex_intro _ h (conj Hh Q))) as [[_ R]|(d & Hd & R)]; [left; split; [discriminate|exact R]|right; exists d; split; [apply in_or_app; now right|exact R]].
    + intros [[_ Q]|(d & Hd & Q)].
      * exists g. split; [now left|]. apply S4. now left.
      * apply in_app_or in Hd as [Hd|Hd]; [exists g; split; [now left|]; apply S4; right; eauto|]. destruct (proj2 (A4 s) (or_intror (ex_intro _ d (conj Hd Q)))) as (h & Hh & R). exists h. split; [now right|exact R].
Qed.
Lemma parallel_sem pr L wy par w f files jobs g : bf_wf f -> fs_bytes w -> parallel_insert pr L wy par w f files jobs = Ok g ->
  exists ls, file_lines w files ls /\ bf_wf g /\ bf_same_frame f g /\ bf_data g = bf_data f /\ forall s, bf_spot g s = true <-> bf_spot f s = true \/ exists d, In d ls /\ bf_spots wy f d s.
Proof.
  intros W B. unfold parallel_insert. destruct files as [|p files].
  - intro E. injection E as <-. exists []. split; [constructor|]. split; [exact W|]. split; [apply bf_frame_refl|]. split; [reflexivity|]. intro s. split; [auto|]. intros [Q|(d & [] & _)]. exact Q.
  - set (fl := p :: files). set (bs := batches fl (optimal_jobs par jobs)). destruct (join_all (map (worker pr wy w f) bs)) as [gs|e|] eqn:J; [|discriminate..]. intro E.
    apply workers_ok in J. destruct (workers_wf _ _ _ _ _ _ W B J) as (lss & A1 & A2 & A3 & A4). exists (concat lss). split.
    { rewrite <- (batches_concat fl (optimal_jobs par jobs)). apply batches_file_lines. eauto. }
    change (reduce_all pr L gs = Ok g) in E. unfold reduce_all in E. destruct (rev gs) as [|out r] eqn:R; [discriminate|]. assert (G : forall h, In h gs <-> In h (out :: r)) by (intro h; rewrite <- R; apply in_rev).
    rewrite Forall_forall in A3. destruct (A3 out (proj2 (G out) (or_introl eq_refl))) as (W1 & F1 & D1). assert (Fr : Forall (fun h => bf_wf h /\ bf_same_frame f h) r).
    { apply Forall_forall. intros h Hh. destruct (A3 h (proj2 (G h) (or_intror Hh))) as (X & Y & _). auto. }
    destruct (reduce_sem _ _ _ _ _ _ W1 F1 Fr E) as (W2 & F2 & D2 & S2). split; [exact W2|]. split; [exact F2|]. split; [congruence|]. intro s. rewrite S2.
    assert (Q : bf_spot out s = true \/ (exists h, In h r /\ bf_spot h s = true) <-> exists h, In h gs /\ bf_spot h s = true).
    { split; [intros [Q|(h & Hh & Q)]; [exists out|exists h]; (split; [apply G|exact Q]); [now left|now right]|]. intros (h & Hh & Q). apply G in Hh as [<-|Hh]; eauto. }
    rewrite Q, A4. assert (Ne : gs <> []) by (intros ->; discriminate R). tauto.
Qed.
(** The answers parallel insertion can give. *)
Lemma parallel_cases pr L wy par w f files jobs : bf_wf f -> fs_bytes w -> bf_fpp_real f ->
  (exists g, parallel_insert pr L wy par w f files jobs = Ok g) \/
  (parallel_insert pr L wy par w f files jobs = Panic /\ files <> [] /\
   ((exists b, In b (batches files (optimal_jobs par jobs)) /\ forall g, worker pr wy w f b <> Ok g) \/ (pr = Debug /\ bf_version f = 2 /\ 1 < len (batches files (optimal_jobs par jobs))))).
Proof.
  intros W B P. unfold parallel_insert. destruct files as [|p files]; [left; eauto|]. set (fl := p :: files). set (bs := batches fl (optimal_jobs par jobs)).
  destruct (join_all_cases (map (worker pr wy w f) bs)) as [(gs & J)|J]; rewrite J.
  - pose proof (proj1 (join_all_ok _ _) J) as JM. apply workers_ok in J. destruct (workers_wf _ _ _ _ _ _ W B J) as (lss & _ & _ & A3 & _). cbn [obind]. unfold reduce_all. destruct (rev gs) as [|out r] eqn:R.
    + exfalso. assert (N0 : bs = []). { apply (f_equal (@rev _)) in R. rewrite rev_involutive in R. cbn in R. rewrite R in JM. destruct bs; [reflexivity|discriminate]. } unfold bs in N0. apply batches_nil in N0. discriminate.
    + assert (G : forall h, In h (out :: r) -> In h gs) by (intros h Hh; rewrite <- R in Hh; now apply in_rev in Hh). rewrite Forall_forall in A3.
      destruct (A3 out (G out (or_introl eq_refl))) as (W1 & F1 & _). assert (Fr : Forall (fun h => bf_wf h /\ bf_same_frame f h) r).
      { apply Forall_forall. intros h Hh. destruct (A3 h (G h (or_intror Hh))) as (X & Y & _). auto. }
      destruct (reduce_cases pr L r f out W1 P F1 Fr) as [(g & ->)|(-> & D1 & D2 & D3)]; [left; eauto|right]. split; [reflexivity|]. split; [discriminate|]. right. split; [exact D1|]. split; [exact D2|].
      assert (Q : len gs = len bs) by (apply (f_equal (@len _)) in JM; now rewrite !len_map in JM). fold bs. rewrite <- Q, <- len_rev, R. destruct r; [contradiction|]. rewrite !len_cons. lia.
  - right. split; [reflexivity|]. split; [discriminate|]. left. fold bs. clearbody bs. clear -J. induction bs as [|b bs IH]; [discriminate|]. cbn [map join_all] in J. destruct (worker pr wy w f b) as [g|e|] eqn:E.
    + destruct (join_all (map (worker pr wy w f) bs)); [discriminate|discriminate|]. destruct (IH eq_refl) as (b' & Hb & Q). exists b'. split; [now right|exact Q].
    + exists b. split; [now left|]. rewrite E. discriminate.
    + exists b. split; [now left|]. rewrite E. discriminate.
Qed.
Lemma parallel_worker_fails pr L wy par w f files jobs b : In b (batches files (optimal_jobs par jobs)) -> (forall g, worker pr wy w f b <> Ok g) -> parallel_insert pr L wy par w f files jobs = Panic.
Proof.
  intros Hb Q. unfold parallel_insert. destruct files as [|p files]; [contradiction|]. destruct (join_all_cases (map (worker pr wy w f) (batches (p :: files) (optimal_jobs par jobs)))) as [(gs & J)|J]; rewrite J; [|reflexivity].
  exfalso. apply workers_ok in J. clear -J Hb Q. revert Hb. induction J as [|x g xs gs X F IH]; [intros []|]. intros [->|Hb]; [|auto]. apply worker_ok in X. exact (Q _ X).
Qed.
(** A single batch is the sequential insertion, whose failure becomes a panic. *)
Lemma batches_one {A} (l : list A) jobs : l <> [] -> jobs = 1 \/ len l = 1 -> batches l jobs = [l].
Proof.
  intros Ne H. assert (K : len (batches l jobs) = 1).
  { destruct H as [-> |H].
    - pose proof (batches_count l 1 ltac:(discriminate)) as (A1 & _ & A2 & _). apply A2; [apply N.mod_1_r|exact Ne].
    - destruct (N.eq_dec jobs 0) as [->|J].
      + unfold batches. rewrite H. change (N.max (1 / 0) 1) with 1. pose proof (chunks_count 1 l ltac:(discriminate)). lia.
      + destruct (batches_count l jobs J) as (_ & A2 & _). rewrite A2; lia. }
  pose proof (batches_concat l jobs) as C. destruct (batches l jobs) as [|b [|b' bs]]; [discriminate K| |rewrite !len_cons in K; lia]. cbn in C. rewrite app_nil_r in C. now subst.
Qed.
Lemma parallel_one pr L wy par w f files jobs : files <> [] -> optimal_jobs par jobs = 1 \/ len files = 1 ->
  (forall g, parallel_insert pr L wy par w f files jobs = Ok g <-> worker pr wy w f files = Ok g) /\
  ((forall g, worker pr wy w f files <> Ok g) -> parallel_insert pr L wy par w f files jobs = Panic).
Proof.
  intros Ne H. unfold parallel_insert. destruct files as [|p files]; [contradiction|]. rewrite (batches_one _ _ Ne H). cbn [map join_all]. destruct (worker pr wy w f (p :: files)) as [g|e|]; unfold reduce_all; cbn [rev app reduce].
  - split; [reflexivity|]. intro Q. exfalso. exact (Q g eq_refl).
  - split; [split; discriminate|reflexivity].
  - split; [split; discriminate|reflexivity].
Qed.

(** ** Schedules *)
Definition rest_of (pr : profile) (wy : hasher) (w : fs) (s : tstate) : outcome bloom :=
  match s with
  | Finished r => r
  | Running t => match insert_lines pr wy (t_filter t) (t_lines t) with
                 | (f', Ok _) => worker pr wy w f' (t_files t)
                 | (_, Err e) => Err e
                 | (_, Panic) => Panic
                 end
  end.
Lemma step_rest pr wy w s s' : thread_step pr wy w s = Some s' -> rest_of pr wy w s' = rest_of pr wy w s.
Proof.
  destruct s as [[f [|[d|] l] fl]|r]; cbn [thread_step t_lines t_files t_filter]; [| | |discriminate].
  - destruct fl as [|i fl].
    + intro E. injection E as <-. reflexivity.
    + cbn [rest_of t_lines t_files t_filter insert_lines worker]. unfold process_file. destruct (fs_open w i) as [c|e|]; intro E; injection E as <-; reflexivity.
  - cbn [rest_of t_lines t_files t_filter insert_lines]. destruct (bf_insert_bytes pr wy f d) as [f' [b|e|]]; intro E; injection E as <-; reflexivity.
  - intro E. injection E as <-. reflexivity.
Qed.
Lemma pool_rest pr wy w p q : pool_steps pr wy w p q -> map (rest_of pr wy w) q = map (rest_of pr wy w) p.
Proof.
  induction 1 as [|p q r S H IH]; [reflexivity|]. rewrite IH. destruct S as [a s s' b E]. rewrite !map_app. cbn [map]. now rewrite (step_rest _ _ _ _ _ E).
Qed.
Lemma results_map p : forall rs, results p = Some rs -> p = map Finished rs.
Proof.
  induction p as [|s p IH]; intros rs E; cbn in E; [injection E as <-; reflexivity|]. destruct s as [t|r]; [discriminate|]. fold (results p) in E. destruct (results p) as [l|]; [|discriminate]. injection E as <-. cbn. now rewrite (IH l eq_refl).
Qed.
Lemma map_results rs : results (map Finished rs) = Some rs.
Proof. induction rs as [|r rs IH]; [reflexivity|]. cbn. fold (results (map Finished rs)). now rewrite IH. Qed.
Lemma rest_finished pr wy w rs : map (rest_of pr wy w) (map Finished rs) = rs.
Proof. rewrite map_map. apply map_id. Qed.
Lemma rest_spawn pr wy w f bs : map (rest_of pr wy w) (spawn_all f bs) = map (worker pr wy w f) bs.
Proof. unfold spawn_all. rewrite map_map. reflexivity. Qed.
Lemma run_det pr L wy par w f files jobs r : parallel_insert_run pr L wy par w f files jobs r -> r = parallel_insert pr L wy par w f files jobs.
Proof.
  intros [E|p rs Ne S R]; [now subst|]. apply results_map in R. subst p. apply pool_rest in S. rewrite rest_finished, rest_spawn in S. unfold parallel_insert. destruct files; [contradiction|]. now rewrite S.
Qed.
(** Work left to a thread, in steps. *)
Fixpoint files_work (w : fs) (l : list path) : nat := match l with [] => 0 | p :: r => S (match w p with Some c => length (lines c) | None => 0 end) + files_work w r end%nat.
Definition work (w : fs) (s : tstate) : nat := match s with Finished _ => 0 | Running t => S (length (t_lines t) + files_work w (t_files t)) end%nat.
Lemma step_work pr wy w s s' : thread_step pr wy w s = Some s' -> (work w s' < work w s)%nat.
Proof.
  destruct s as [[f [|[d|] l] fl]|r]; cbn [thread_step t_lines t_files t_filter]; [| | |discriminate].
  - destruct fl as [|i fl]; [intro E; injection E as <-; cbn; lia|]. unfold fs_open. destruct (w i) as [c|] eqn:Ew; intro E; injection E as <-; cbn [work t_lines t_files files_work length]; rewrite ?Ew; lia.
  - destruct (bf_insert_bytes pr wy f d) as [f' [b|e|]]; intro E; injection E as <-; cbn [work t_lines t_files length]; lia.
  - intro E. injection E as <-. cbn. lia.
Qed.
Definition pool_work (w : fs) (p : list tstate) : nat := fold_right (fun s n => work w s + n)%nat O p.
Lemma pool_work_app w a b : pool_work w (a ++ b) = (pool_work w a + pool_work w b)%nat.
Proof. induction a as [|s a IH]; [reflexivity|]. cbn. fold (pool_work w (a ++ b)). fold (pool_work w a). rewrite IH. lia. Qed.
Lemma pool_step_work pr wy w p q : pool_step pr wy w p q -> (pool_work w q < pool_work w p)%nat.
Proof.
  intros [a s s' b E]. rewrite !pool_work_app. cbn [pool_work fold_right]. pose proof (step_work _ _ _ _ _ E). fold (pool_work w b). lia.
Qed.
Lemma pool_progress pr wy w p : (exists q, pool_step pr wy w p q) \/ exists rs, p = map Finished rs.
Proof.
  induction p as [|s p IH]; [right; exists []; reflexivity|]. destruct s as [t|r].
  - left. exists (match thread_step pr wy w (Running t) with Some s' => s' :: p | None => [] end). apply (pool_step_at pr wy w [] _ _ p). reflexivity.
  - destruct IH as [(q & S)|(rs & ->)]; [left|right; now exists (r :: rs)]. destruct S as [a s s' b E]. exists (Finished r :: a ++ s' :: b). exact (pool_step_at pr wy w (Finished r :: a) s s' b E).
Qed.
Lemma pool_finishes pr wy w n : forall p, (pool_work w p <= n)%nat -> exists rs, pool_steps pr wy w p (map Finished rs).
Proof.
  induction n as [|n IH]; intros p Hn; destruct (pool_progress pr wy w p) as [(q & S)|(rs & ->)].
  - pose proof (pool_step_work _ _ _ _ _ S). lia.
  - exists rs. constructor.
  - pose proof (pool_step_work _ _ _ _ _ S). destruct (IH q ltac:(lia)) as (rs & R). exists rs. econstructor; eauto.
  - exists rs. constructor.
Qed.
Lemma run_exists pr L wy par w f files jobs : exists r, parallel_insert_run pr L wy par w f files jobs r.
Proof.
  destruct files as [|p files]; [eexists; now constructor|]. destruct (pool_finishes pr wy w _ (spawn_all f (batches (p :: files) (optimal_jobs par jobs))) (le_n _)) as (rs & S).
  assert (Ne : p :: files <> []) by discriminate. eexists. exact (run_pool _ _ _ _ _ _ _ _ _ rs Ne S (map_results rs)).
Qed.

(** ** The result as a history *)
Definition holds (wy : hasher) (L : libm) (f : bloom) (P : list byte -> Prop) : Prop := exists K, bf_hist wy L f K /\ forall d, P d -> K d.
Lemma holds_weaken wy L f (P Q : list byte -> Prop) : holds wy L f P -> (forall d, Q d -> P d) -> holds wy L f Q.
Proof. intros (K & H & I) S. exists K. auto. Qed.
(** The union of all. *)
Lemma reduce_holds pr wy L : forall l out P Ps g, holds wy L out P -> Forall2 (fun h Q => holds wy L h Q) l Ps -> reduce pr L out l = Ok g ->
  holds wy L g (fun d => P d \/ exists Q, In Q Ps /\ Q d).
Proof.
  induction l as [|h l IH]; intros out P Ps g Ho F E; cbn [reduce] in E; inversion F; subst.
  - injection E as <-. apply (holds_weaken _ _ _ _ _ Ho). intros d [Q|(Q & [] & _)]. exact Q.
  - rename y into Q, l' into Ps. destruct (bf_union_merge pr L out h) as [out' r] eqn:U. destruct r as [[]|e|]; [|discriminate..].
    destruct Ho as (Ko & Ho & Io), H1 as (Kh & Hh & Ih). assert (N1 : holds wy L out' (fun d => P d \/ Q d)).
    { exists (fun x => Ko x \/ Kh x). split; [exact (bh_union _ _ pr _ _ _ _ _ Ho Hh U)|]. intros d [H|H]; auto. }
    apply (holds_weaken _ _ _ _ _ (IH _ _ _ _ N1 H3 E)). intros d [H|(Q' & [<-|H] & HQ)]; [auto|auto|]. right. eauto.
Qed.
Lemma Forall2_rev' {A B} (R : A -> B -> Prop) a b : Forall2 R a b -> Forall2 R (rev a) (rev b).
Proof. induction 1; [constructor|]. cbn. apply Forall2_app; [assumption|]. now repeat constructor. Qed.
Lemma parallel_holds pr L wy par w f files jobs g (P : list byte -> Prop) ls : holds wy L f P -> fs_bytes w -> file_lines w files ls -> parallel_insert pr L wy par w f files jobs = Ok g ->
  holds wy L g (fun d => P d \/ In d ls).
Proof.
  intros Hf B Fl. unfold parallel_insert. destruct files as [|p files].
  - intro E. injection E as <-. inversion Fl; subst. apply (holds_weaken _ _ _ _ _ Hf). intros d [Q|[]]. exact Q.
  - set (fl := p :: files) in *. set (bs := batches fl (optimal_jobs par jobs)). destruct (join_all (map (worker pr wy w f) bs)) as [gs|e|] eqn:J; [|discriminate..]. intro E.
    change (reduce_all pr L gs = Ok g) in E. apply workers_ok in J.
    assert (X : exists lss, Forall2 (file_lines w) bs lss /\ Forall2 (fun h l => holds wy L h (fun d => P d \/ In d l)) gs lss).
    { clear -J Hf B. induction J as [|b h bs gs (l & Fl & I) J IH]; [exists []; split; constructor|]. destruct IH as (lss & A1 & A2). exists (l :: lss). split; [now constructor|]. constructor; [|exact A2].
      destruct Hf as (K & Hf & IK). destruct (inserts_hist _ _ _ _ _ _ _ Hf (file_lines_bytes _ _ _ B Fl) I) as (K' & H' & Q). exists K'. split; [exact H'|]. intros d [Hd|Hd]; apply Q; auto. }
    destruct X as (lss & A1 & A2). assert (Els : ls = concat lss).
    { apply (file_lines_det w fl); [|exact Fl]. rewrite <- (batches_concat fl (optimal_jobs par jobs)). apply batches_file_lines. eauto. }
    apply Forall2_rev' in A2. unfold reduce_all in E. destruct (rev gs) as [|out r]; [discriminate|]. inversion A2 as [|? l0 ? lr H0 Hr Q1 Q2]; subst.
    assert (F2 : Forall2 (fun h Q => holds wy L h Q) r (map (fun l d => P d \/ In d l) lr)) by (clear -Hr; induction Hr; constructor; auto).
    apply (holds_weaken _ _ _ _ _ (reduce_holds _ _ _ _ _ _ _ _ H0 F2 E)). intros d [Hd|Hd]; [auto|]. assert (Hd' : exists l, In l (l0 :: lr) /\ In d l).
    { apply in_concat in Hd as (l & Hl & Hd). exists l. split; [|exact Hd]. rewrite Q2. now apply in_rev in Hl. }
    destruct Hd' as (l & [<-|Hl] & Hd'); [auto|]. right. exists (fun d => P d \/ In d l). split; [|auto]. apply in_map_iff. eauto.
Qed.
