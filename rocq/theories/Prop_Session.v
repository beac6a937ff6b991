(** C100: sessions of commands, Python programs and other programs on the same files. *)
From Coq Require Import Lia Permutation.
From Verif Require Import M_Session M_RefLibm Spec_Bits Spec_Hash Spec_V2 Spec_V2Hist Spec_V1 Spec_Bloom Spec_Lines Spec_Cli P_Base P_Codec P_Bloom P_Lines P_Par P_Create P_Mix Prop_Check Ex_Base Ex_V1 Ex_Cli Prop_Bloom Prop_Par Prop_Create
  Prop_Build Prop_Python.
Open Scope N_scope.

(** What the session has put where: the ledger of C99, where a successful create replaces the entries of a file by the lines of its
    dataset, a successful insert adds the lines of its inputs, and a file written by another program counts as empty. *)
Definition set_file (g : ledger) (p : path) (l : list (list byte)) : ledger := {| lg_objs := lg_objs g; lg_files := fun q => if list_eqb p q then l else lg_files g q; lg_dumps := lg_dumps g |}.
Inductive noted (w : fs) (g : ledger) : event -> ledger -> Prop :=
| nt_create par room jobs a ls : file_lines w (ca_dataset a) ls -> noted w g (SCreate par room jobs a (Ok tt)) (set_file g (ca_file a) ls)
| nt_create_fail par room jobs a r : r <> Ok tt -> noted w g (SCreate par room jobs a r) g
| nt_insert par stdin room jobs a sls ls : stdin_lines a stdin sls -> file_lines w (ia_inputs a) ls ->
    noted w g (SInsert par stdin room jobs a (Ok tt)) (set_file g (ia_file a) (sls ++ ls ++ lg_files g (ia_file a)))
| nt_insert_fail par stdin room jobs a r : r <> Ok tt -> noted w g (SInsert par stdin room jobs a r) g
| nt_python c r : noted w g (SPython c r) (note g (c, r))
| nt_write p c : noted w g (SWrite p c) (set_file g p []).
Definition event_ok (e : event) : Prop :=
  match e with
  | SCreate _ _ _ a _ => ca_capacity a < two64 /\ ca_probability a < two64
  | SInsert _ stdin _ _ _ _ => bytes_ok stdin
  | SPython c _ => call_ok c
  | SWrite _ (Some c) => bytes_ok c /\ file_size_ok c
  | SWrite _ None => True
  end.
(** A session and its ledger. *)
Inductive session (pr : profile) (L : libm) (wy : hasher) : py_world -> ledger -> list event -> py_world -> ledger -> Prop :=
| ss_nil s g : session pr L wy s g [] s g
| ss_event s g e s1 g1 l s2 g2 : event_ok e -> happens pr L wy s e s1 -> noted (pw_files s) g e g1 -> session pr L wy s1 g1 l s2 g2 -> session pr L wy s g (e :: l) s2 g2.

Lemma agree_bytes wy L s g : agree wy L s g -> fs_bytes (pw_files s).
Proof.
  intros A p c E. destruct (ag_files _ _ _ _ A p c E) as [(_ & B & _)|(f & -> & K & H & _)]; [exact B|]. exact (bf_write_bytes f (bf_hist_wf _ _ _ _ H)).
Qed.
Lemma agree_load pr wy L s g p c f : agree wy L s g -> pw_files s p = Some c -> bf_from_reader pr c = Ok f -> holds_all wy L f (lg_files g p).
Proof.
  intros A E Ld. destruct (ag_files _ _ _ _ A p c E) as [(-> & B1 & B2)|(f0 & -> & K0 & Hh & Hl)]; [apply made; exact (bh_load wy L pr c f B1 B2 Ld)|]. exists K0. split; [exact (bh_reload wy L pr f0 K0 f Hh Ld)|exact Hl].
Qed.
Lemma agree_put wy L s g p f l : agree wy L s g -> holds_all wy L f l -> agree wy L (in_files s (fs_set (pw_files s) p (bf_write f))) (set_file g p l).
Proof.
  intros [A1 A2 A3 A4] H. constructor; cbn [in_files pw_objs pw_files set_file lg_objs lg_files lg_dumps]; auto.
  - intros q c Hq. unfold fs_set in Hq. destruct (list_eqb p q); [injection Hq as <-; right; exists f; now split|exact (A2 q c Hq)].
  - intros q Hq. unfold fs_set in Hq. destruct (list_eqb p q); [discriminate|exact (A3 q Hq)].
Qed.
Lemma in_same s : in_files s (pw_files s) = s.
Proof. now destruct s. Qed.
Lemma event_agree pr L wy s g e s' g' : agree wy L s g -> event_ok e -> happens pr L wy s e s' -> noted (pw_files s) g e g' -> agree wy L s' g'.
Proof.
  intros A K H N. pose proof (agree_bytes _ _ _ _ A) as B. destruct H as [par room jobs a w' r Rm E|par stdin room jobs a w' r Rm E|c s' r E|p c]; inversion N; subst; clear N; cbn [event_ok] in K.
  - unfold cmd_create in E. destruct (create_filter pr L wy par (pw_files s) jobs a) as [h|e|] eqn:C; [|discriminate..]. rewrite (save_ok _ _ _ _ (Rm h eq_refl)) in E. injection E as <-. destruct K as [K1 K2].
    destruct (create_inv _ _ _ _ _ _ _ _ B K2 K1 C) as (n & o & f & Hn & Ef & P & _). apply agree_put; [exact A|]. destruct (C40_history pr L wy par (pw_files s) f _ (ca_dataset a) jobs h ls (bh_make wy L pr _ _ _ _ f Hn K2 Ef) B ltac:(assumption) P) as (K' & H' & I). exists K'. split; [exact H'|]. intros d Hd. apply I. now right.
  - unfold cmd_create in E. destruct (create_filter pr L wy par (pw_files s) jobs a) as [h|e|] eqn:C; [rewrite (save_ok _ _ _ _ (Rm h eq_refl)) in E; injection E as _ <-; contradiction|injection E as <- <-; now rewrite in_same..].
  - unfold cmd_insert in E. destruct (insert_filter pr L wy par (pw_files s) stdin jobs a) as [h|e|] eqn:C; [|discriminate..]. rewrite (save_ok _ _ _ _ (Rm h eq_refl)) in E. injection E as <-.
    apply insert_filter_inv in C as (c & f & sls' & f1 & E1 & E2 & S & I & P). match goal with X : stdin_lines a stdin sls |- _ => pose proof (stdin_lines_det _ _ _ _ X S) as -> end. destruct (agree_load pr _ _ _ _ _ _ f A E1 E2) as (K0 & Hh & Hl).
    destruct (inserts_hist pr wy L f sls f1 K0 Hh (stdin_lines_bytes _ _ _ K S) I) as (K1 & H1 & I1). destruct (C40_history pr L wy par (pw_files s) f1 K1 (ia_inputs a) jobs h ls H1 B ltac:(assumption) P) as (K' & H' & I').
    apply agree_put; [exact A|]. exists K'. split; [exact H'|]. intros d Hd. apply I'. apply in_app_or in Hd as [Hd|Hd]; [left; apply I1; now right|]. apply in_app_or in Hd as [Hd|Hd]; [now right|left; apply I1; left; exact (Hl d Hd)].
  - unfold cmd_insert in E. destruct (insert_filter pr L wy par (pw_files s) stdin jobs a) as [h|e|] eqn:C; [rewrite (save_ok _ _ _ _ (Rm h eq_refl)) in E; injection E as _ <-; contradiction|injection E as <- <-; now rewrite in_same..].
  - exact (step_agree _ _ _ _ _ _ _ _ A K E).
  - destruct A as [A1 A2 A3 A4]. constructor; cbn [in_files pw_objs pw_files set_file lg_objs lg_files lg_dumps]; auto; intros q; unfold fs_put; destruct (list_eqb p q); auto. intros c' E. subst c. left. split; [reflexivity|exact K].
Qed.
Lemma session_agree pr L wy s g l s' g' : session pr L wy s g l s' g' -> agree wy L s g -> agree wy L s' g'.
Proof. induction 1 as [|s g e s1 g1 l s2 g2 K H N S IH]; intro A; [exact A|]. apply IH. exact (event_agree _ _ _ _ _ _ _ _ A K H N). Qed.

Definition start (w : fs) : py_world := {| pw_objs := []; pw_files := w |}.
(** Every event of a session has its line in the ledger. *)
Theorem C100_ledger pr L wy w l s g e s' : files_ok w -> session pr L wy (start w) blank l s g -> event_ok e -> happens pr L wy s e s' -> exists g', session pr L wy (start w) blank (l ++ [e]) s' g'.
Proof.
  intros W R K H. pose proof (session_agree _ _ _ _ _ _ _ _ R (agree_start wy L w W)) as A. pose proof (agree_bytes _ _ _ _ A) as B.
  assert (G : exists g', noted (pw_files s) g e g').
  { destruct H as [par room jobs a w' r Rm E|par stdin room jobs a w' r Rm E|c s' r E|p c]; cbn [event_ok] in K.
    - unfold cmd_create in E. destruct (create_filter pr L wy par (pw_files s) jobs a) as [h|e|] eqn:C; [|injection E as <- <-; exists g; now constructor..]. rewrite (save_ok _ _ _ _ (Rm h eq_refl)) in E. injection E as <- <-. destruct K as [K1 K2].
      destruct (create_inv _ _ _ _ _ _ _ _ B K2 K1 C) as (n & o & f & Hn & Ef & P & _). destruct (C40_nothing_lost pr L wy par (pw_files s) f (ca_dataset a) jobs h (ex_intro _ _ (bh_make wy L pr _ _ _ _ f Hn K2 Ef)) B P) as (ls & F & _). eexists. now apply nt_create with (ls := ls).
    - unfold cmd_insert in E. destruct (insert_filter pr L wy par (pw_files s) stdin jobs a) as [h|e|] eqn:C; [|injection E as <- <-; exists g; now constructor..]. rewrite (save_ok _ _ _ _ (Rm h eq_refl)) in E. injection E as <- <-.
      apply insert_filter_inv in C as (c & f & sls & f1 & E1 & E2 & S & I & P). destruct (agree_load pr _ _ _ _ _ _ f A E1 E2) as (K0 & Hh & _). destruct (inserts_hist pr wy L f sls f1 K0 Hh (stdin_lines_bytes _ _ _ K S) I) as (K1 & H1 & _).
      destruct (C40_nothing_lost pr L wy par (pw_files s) f1 (ia_inputs a) jobs h (ex_intro _ _ H1) B P) as (ls & F & _). eexists. apply nt_insert with (sls := sls) (ls := ls); assumption.
    - eexists. constructor.
    - eexists. constructor. }
  destruct G as (g' & N). exists g'. clear A B W. induction R as [s g|s g e0 s1 g1 l s2 g2 K0 H0 N0 R IH]; cbn [app].
  - eapply ss_event; [exact K|exact H|exact N|constructor].
  - eapply ss_event; [exact K0|exact H0|exact N0|]. apply IH; assumption.
Qed.
Print Assumptions C100_ledger.
(** Full statement: after any session, whatever it has put into a filter file is found when the file is loaded, and what it has put
    into a Python object is found there. Missing: version 1 filters without bits (C02_refuted). *)
Theorem C100_files_partial pr pr' L wy w l s g p c f d : files_ok w -> session pr L wy (start w) blank l s g -> pw_files s p = Some c -> bf_from_reader pr' c = Ok f -> bf_has_bits f -> In d (lg_files g p) ->
  bf_contains_bytes wy f d = Ok true.
Proof.
  intros W R E Ld HB Hd. destruct (agree_load pr' _ _ _ _ _ _ f (session_agree _ _ _ _ _ _ _ _ R (agree_start wy L w W)) E Ld) as (K & Hh & Hl). exact (bf_hist_contains wy L f K d Hh (Hl d Hd) HB).
Qed.
Print Assumptions C100_files_partial.
Theorem C100_objects_partial pr L wy w l s g h f d : files_ok w -> session pr L wy (start w) blank l s g -> nth_error (pw_objs s) h = Some f -> bf_has_bits f -> In d (entries_of g h) ->
  bf_contains_bytes wy f d = Ok true.
Proof.
  intros W R E HB Hd. destruct (nth_Forall2 _ _ _ _ _ [] (ag_objs _ _ _ _ (session_agree _ _ _ _ _ _ _ _ R (agree_start wy L w W))) E) as (K & Hh & Hl). exact (bf_hist_contains wy L f K d Hh (Hl d Hd) HB).
Qed.
Print Assumptions C100_objects_partial.
(** A file with entries in the ledger is there and can be loaded. *)
Theorem C100_loads pr pr' L wy w l s g p : files_ok w -> session pr L wy (start w) blank l s g -> lg_files g p <> [] -> exists c f, pw_files s p = Some c /\ bf_from_reader pr' c = Ok f.
Proof.
  intros W R Ne. pose proof (session_agree _ _ _ _ _ _ _ _ R (agree_start wy L w W)) as A. destruct (pw_files s p) as [c|] eqn:E; [|destruct Ne; exact (ag_none _ _ _ _ A p E)]. destruct (ag_files _ _ _ _ A p c E) as [(Z & _)|(f & -> & K & Hh & _)]; [contradiction|].
  destruct (C52_roundtrip_partial pr' wy L f (ex_intro _ K Hh)) as (g' & Ld & _). exists (bf_write f), g'. now split.
Qed.
Print Assumptions C100_loads.
(** So check finds every line of files whose lines the session has put into the filter file. *)
Theorem C100_check_partial pr pr' L wy w l s g k c f ls stdin jobs out r : files_ok w -> session pr L wy (start w) blank l s g ->
  pw_files s (ka_file k) = Some c -> file_size_ok c -> bf_from_reader pr' c = Ok f -> bf_has_bits f -> bf_usable f ->
  file_lines (pw_files s) (ka_inputs k) ls -> (forall d, In d ls -> In d (lg_files g (ka_file k))) -> ka_inputs k <> [] -> ka_stdin k = false -> jobs <> 0 -> cmd_check pr' wy (pw_files s) stdin jobs k out r ->
  r = Ok tt /\ (ka_verify k = true -> out = []) /\ (ka_verify k = false -> ka_silent k = false -> Permutation (map Plain ls) out).
Proof.
  intros W R E Sz Ld HB U Fl I Ni Si J C. apply (check_contained pr' wy (pw_files s) stdin jobs k f ls out r); [|exact J| |exact C].
  - constructor; [exact (agree_bytes _ _ _ _ (session_agree _ _ _ _ _ _ _ _ R (agree_start wy L w W)))|exists c; split; [exact E|split; [exact Sz|exact Ld]]|exact U|exact Fl|]. rewrite Si. destruct (ka_inputs k); [contradiction|reflexivity].
  - intros d Hd. exact (C100_files_partial _ _ _ _ _ _ _ _ _ _ _ d W R E Ld HB (I d Hd)).
Qed.
Print Assumptions C100_check_partial.

(** ** Nothing but what was put in *)
(** Sessions that use no filter from elsewhere: the files of [m] were written by the session itself; and no call has panicked. *)
Definition owned (m : path -> Prop) (g : ledger) (e : event) : Prop :=
  match e with
  | SInsert _ _ _ _ a _ => m (ia_file a)
  | SPython c r => r <> PyRaise PanicException /\ match c with PLoads b => In b (map fst (lg_dumps g)) | PLoad p => m p | _ => True end
  | _ => True
  end.
Definition owns (m : path -> Prop) (e : event) : path -> Prop :=
  match e with
  | SCreate _ _ _ a (Ok tt) => fun p => p = ca_file a \/ m p
  | SPython (PSave _ q) PyNone => fun p => p = q \/ m p
  | SWrite q _ => fun p => p <> q /\ m p
  | _ => m
  end.
Inductive own_session (pr : profile) (L : libm) (wy : hasher) : py_world -> ledger -> (path -> Prop) -> list event -> py_world -> ledger -> (path -> Prop) -> Prop :=
| os_nil s g m : own_session pr L wy s g m [] s g m
| os_event s g m e s1 g1 l s2 g2 m2 : event_ok e -> owned m g e -> happens pr L wy s e s1 -> noted (pw_files s) g e g1 -> own_session pr L wy s1 g1 (owns m e) l s2 g2 m2 -> own_session pr L wy s g m (e :: l) s2 g2 m2.
(** The set bits are those of the entries. *)
Definition only (wy : hasher) (f : bloom) (l : list (list byte)) : Prop := forall s, bf_spot f s = true <-> exists d, In d l /\ bf_spots wy f d s.
Definition exactly (wy : hasher) (L : libm) (f : bloom) (l : list (list byte)) : Prop := bf_kept wy L f /\ only wy f l.
Record tally (wy : hasher) (L : libm) (s : py_world) (g : ledger) (m : path -> Prop) : Prop := {
  ta_objs : Forall2 (exactly wy L) (pw_objs s) (lg_objs g);
  ta_files : forall p, m p -> exists f, pw_files s p = Some (bf_write f) /\ exactly wy L f (lg_files g p);
  ta_dumps : Forall (fun x => exists f, fst x = bf_write f /\ exactly wy L f (snd x)) (lg_dumps g)
}.
Lemma fresh_only wy pr L v cap fpp opt f : cap < two64 -> fpp < two64 -> bf_with_version_capacity_opt pr L v cap fpp opt = Ok f -> exactly wy L f [].
Proof.
  intros Hc Hf E. split; [exact (bk_make wy L pr v cap fpp opt f Hc Hf E)|]. intro s. split; [|intros (d & [] & _)]. intro B. exfalso. apply bf_make_inv in E. destruct f as [f|f]; destruct E as [_ E].
  - apply P_V1Codec.v1_make_created in E. destruct s as [b i|i]; cbn [bf_spot] in B; [rewrite (P_V1Codec.v1_created_bits _ _ _ _ i E), Bool.andb_false_r in B|]; discriminate.
  - apply P_V2Make.v2_make_created in E. destruct (P_V2Make.created_bits _ _ _ _ E) as [B0 C0]. destruct s as [b i|i]; cbn [bf_spot] in B; [rewrite B0 in B|rewrite C0 in B]; discriminate.
Qed.
Lemma params_spots wy a b d s : bf_wf a -> bf_wf b -> bf_has_same_params a b = Ok true -> (bf_spots wy b d s <-> bf_spots wy a d s).
Proof.
  intros Wa Wb H. unfold bf_has_same_params in H. destruct (negb (bf_version a =? bf_version b)); [discriminate|]. destruct a as [a|a], b as [b|b]; try discriminate.
  - injection H as H. apply P_V1Codec.v1_same_params_iff in H as (_ & _ & _ & A & B & _). destruct s as [k i|i]; cbn [bf_spots]; [|tauto]. unfold v1_positions. now rewrite A, B.
  - injection H as H. apply (P_V2Merge.same_params_wf a b Wa Wb) in H. exact (bf_frame_spots wy (V2 a) (V2 b) d s H).
Qed.
Lemma insert_only pr wy L f l d g b : exactly wy L f l -> bytes_ok d -> bf_insert_bytes pr wy f d = (g, Ok b) -> exactly wy L g (d :: l).
Proof.
  intros [K O] Bd E. split; [exact (bk_insert wy L pr f d g b K Bd E)|]. destruct (bf_insert_sem _ _ _ _ _ _ (bf_kept_wf _ _ _ K) Bd E) as [Fr _ _ _ (_ & C & _)]. intro s. rewrite C, (O s). split.
  - intros [(x & Hx & Hs)|Hs]; [exists x; split; [now right|]; now apply (bf_frame_spots wy f g x s Fr)|exists d; split; [now left|]; now apply (bf_frame_spots wy f g d s Fr)].
  - intros (x & [<-|Hx] & Hs); apply (bf_frame_spots wy f g _ s Fr) in Hs; [now right|left; exists x; now split].
Qed.
Lemma union_only pr wy L a b la lb g : exactly wy L a la -> exactly wy L b lb -> bf_union_merge pr L a b = (g, Ok tt) -> exactly wy L g (lb ++ la).
Proof.
  intros [Ka Oa] [Kb Ob] E. split; [exact (bk_union wy L pr a b g Ka Kb E)|]. pose proof (bf_kept_wf _ _ _ Ka) as Wa. pose proof (bf_kept_wf _ _ _ Kb) as Wb. destruct (bf_union_sem _ _ _ _ _ _ Wa Wb E) as (Fr & _ & _ & Sp & U). intro s. rewrite U, Bool.orb_true_iff, (Oa s), (Ob s). split.
  - intros [(x & Hx & Hs)|(x & Hx & Hs)]; exists x; (split; [apply in_or_app; auto|]); apply (bf_frame_spots wy a g x s Fr); [exact Hs|]. now apply (params_spots wy a b x s Wa Wb Sp).
  - intros (x & Hx & Hs). apply (bf_frame_spots wy a g x s Fr) in Hs. apply in_app_or in Hx as [Hx|Hx]; [right|left]; exists x; (split; [exact Hx|]); [now apply (params_spots wy a b x s Wa Wb Sp)|exact Hs].
Qed.
Lemma only_ext wy f l l' : (forall d, In d l <-> In d l') -> only wy f l -> only wy f l'.
Proof. intros H O s. rewrite (O s). split; intros (d & Hd & Hs); exists d; (split; [now apply H|exact Hs]). Qed.
Lemma inserts_only pr wy L f ds g : inserts pr wy f ds g -> forall l, exactly wy L f l -> Forall bytes_ok ds -> exactly wy L g (ds ++ l).
Proof.
  induction 1 as [f|f d g b ds h E I IH]; intros l X B; [exact X|]. apply Forall_cons_iff in B as [Bd B]. destruct (IH (d :: l) (insert_only _ _ _ _ _ _ _ _ X Bd E) B) as [K O]. split; [exact K|]. apply (only_ext wy h (ds ++ d :: l)); [|exact O].
  intro x. rewrite !in_app_iff. cbn [In]. tauto.
Qed.
Lemma parallel_only pr L wy par w f files jobs g l ls : exactly wy L f l -> fs_bytes w -> file_lines w files ls -> parallel_insert pr L wy par w f files jobs = Ok g -> exactly wy L g (ls ++ l).
Proof.
  intros [K O] B Fl P. split; [exact (parallel_kept _ _ _ _ _ _ _ _ _ K B P)|]. destruct (parallel_sem _ _ _ _ _ _ _ _ _ (bf_kept_wf _ _ _ K) B P) as (ls' & Fl' & _ & Fr & _ & S). rewrite <- (file_lines_det _ _ _ Fl' _ Fl) in S. intro s. rewrite S, (O s). split.
  - intros [(x & Hx & Hs)|(x & Hx & Hs)]; exists x; (split; [apply in_or_app; auto|]); now apply (bf_frame_spots wy f g x s Fr).
  - intros (x & Hx & Hs). apply (bf_frame_spots wy f g x s Fr) in Hs. apply in_app_or in Hx as [Hx|Hx]; [right|left]; exists x; now split.
Qed.
Lemma call_tally pr L wy s g m c s' r : agree wy L s g -> tally wy L s g m -> call_ok c -> owned m g (SPython c r) -> py_do pr L wy s c = (s', r) -> tally wy L s' (note g (c, r)) (owns m (SPython c r)).
Proof.
  intros A T K [Np Ow] H. pose proof T as [T1 T2 T3].
  assert (Same : forall e, r = PyRaise e -> s' = s -> note g (c, r) = g -> owns m (SPython c r) = m -> tally wy L s' (note g (c, r)) (owns m (SPython c r))) by (intros e _ -> -> ->; exact T).
  assert (MK : forall o l, note g (c, PyObj (length (pw_objs s))) = add_obj g l -> (forall e, note g (c, PyRaise e) = g) -> (forall x, owns m (SPython c x) = m) -> py_make s o = (s', r) -> (forall f, o = Ok f -> exactly wy L f l) -> tally wy L s' (note g (c, r)) (owns m (SPython c r))).
  { intros o l N1 N2 N3 E Ho. rewrite N3. unfold py_make in E. destruct o as [f|e|]; injection E as <- <-; [rewrite N1|rewrite N2; exact T..]. constructor; cbn; auto. apply Forall2_app; auto. }
  destruct c as [cap fpp|v cap fpp|v cap fpp opt|b|p|h d|h d|h|h o|h o|h|h p|h|h|h|h|h]; cbn [py_do] in H; cbn [call_ok] in K.
  - apply (MK _ [] eq_refl (fun _ => eq_refl) (fun _ => eq_refl) H). intros f E. destruct K as [K1 K2]. unfold py_new, bf_with_capacity in E.
    destruct (v2_with_capacity pr L cap fpp) as [b|e|] eqn:Q; try discriminate. injection E as <-. apply (fresh_only wy pr L 2 cap fpp ONone); auto. unfold bf_with_version_capacity_opt. cbn. unfold v2_with_capacity in Q. now rewrite Q.
  - apply (MK _ [] eq_refl (fun _ => eq_refl) (fun _ => eq_refl) H). intros f E. destruct K as [K1 K2]. exact (fresh_only wy pr L v cap fpp ONone f K1 K2 E).
  - apply (MK _ [] eq_refl (fun _ => eq_refl) (fun _ => eq_refl) H). intros f E. destruct K as [K1 K2]. unfold py_with_params in E. destruct (opt_of_u8 opt) as [o|e|]; try discriminate. exact (fresh_only wy pr L v cap fpp o f K1 K2 E).
  - apply (MK _ (dump_entries g b) eq_refl (fun _ => eq_refl) (fun _ => eq_refl) H). intros f E. unfold dump_entries. destruct (find _ (lg_dumps g)) as [[b' l]|] eqn:F.
    + apply find_some in F as [Fi Fe]. apply list_eqb_eq in Fe. cbn [fst snd] in *. subst b'. rewrite Forall_forall in T3. destruct (T3 _ Fi) as (f0 & Eb & X). cbn [fst snd] in *. subst b. unfold py_loads in E. rewrite (bf_kept_roundtrip pr wy L f0 (proj1 X)) in E. injection E as <-. exact X.
    + apply in_map_iff in Ow as ([b' l] & Q & Hi). cbn [fst] in Q. subst b'. pose proof (find_none _ _ F _ Hi) as Z. cbn [fst] in Z. assert (list_eqb b b = true) by now apply list_eqb_eq. congruence.
  - destruct (T2 p Ow) as (f0 & P & X). unfold fs_open in H. rewrite P in H. apply (MK _ (lg_files g p) eq_refl (fun _ => eq_refl) (fun _ => eq_refl) H). intros f E. rewrite (bf_kept_roundtrip pr wy L f0 (proj1 X)) in E. injection E as <-. exact X.
  - unfold on in H. destruct (nth_error (pw_objs s) h) as [f|] eqn:E; [|injection H as <- <-; exact T]. unfold py_insert_bytes in H. destruct (bf_insert_bytes pr wy f d) as [f' r'] eqn:I. injection H as <- <-. pose proof (nth_Forall2 _ _ _ _ _ [] T1 E) as X. destruct r' as [b|e|]; cbn [raised note owns].
    + constructor; cbn; auto. apply set_at_Forall2; [exact T1|]. exact (insert_only _ _ _ _ _ _ _ _ X K I).
    + destruct (ib_cases _ _ _ _ _ _ (bf_insert_sem _ _ _ _ _ _ (bf_kept_wf _ _ _ (proj1 X)) K I)) as (_ & -> & _). unfold with_obj. rewrite (set_at_same _ _ _ E). now destruct s.
    + now destruct Np.
  - unfold on in H. destruct (nth_error (pw_objs s) h) as [f|]; injection H as <- <-; [|exact T]. destruct (py_contains_bytes wy f d); exact T.
  - unfold on in H. destruct (nth_error (pw_objs s) h) as [f|]; injection H as <- <-; exact T.
  - unfold on in H. destruct (nth_error (pw_objs s) h) as [f|] eqn:E; [|injection H as <- <-; exact T]. destruct (nth_error (pw_objs s) o) as [f2|] eqn:E2; [|injection H as <- <-; exact T]. destruct (Nat.eqb h o); [injection H as <- <-; exact T|].
    destruct (bf_union_merge pr L f f2) as [f' r'] eqn:U. injection H as <- <-. pose proof (nth_Forall2 _ _ _ _ _ [] T1 E) as X. pose proof (nth_Forall2 _ _ _ _ _ [] T1 E2) as X2. destruct r' as [[]|e|]; cbn [raised note owns].
    + constructor; cbn; auto. apply set_at_Forall2; [exact T1|]. exact (union_only _ _ _ _ _ _ _ _ X X2 U).
    + destruct (bf_union_sem _ _ _ _ _ _ (bf_kept_wf _ _ _ (proj1 X)) (bf_kept_wf _ _ _ (proj1 X2)) U) as (_ & -> & _). unfold with_obj. rewrite (set_at_same _ _ _ E). now destruct s.
    + now destruct Np.
  - unfold on in H. destruct (nth_error (pw_objs s) h) as [f|]; [|injection H as <- <-; exact T]. destruct (nth_error (pw_objs s) o) as [f2|]; injection H as <- <-; [|exact T]. destruct (bf_count_common_entries pr L f f2); exact T.
  - unfold on in H. destruct (nth_error (pw_objs s) h) as [f|] eqn:E; injection H as <- <-; [|exact T]. cbn [note owns]. constructor; cbn; auto. constructor; [|exact T3]. exists f. split; [reflexivity|]. exact (nth_Forall2 _ _ _ _ _ [] T1 E).
  - unfold on in H. destruct (nth_error (pw_objs s) h) as [f|] eqn:E; [|injection H as <- <-; exact T]. unfold py_save in H. rewrite save_ok in H by lia. injection H as <- <-. cbn [raised note owns]. constructor; cbn [pw_objs pw_files lg_objs lg_files lg_dumps]; auto.
    intros q Hq. unfold fs_set. destruct (list_eqb p q) eqn:Q; [exists f; split; [reflexivity|exact (nth_Forall2 _ _ _ _ _ [] T1 E)]|]. destruct Hq as [->|Hq]; [assert (list_eqb p p = true) by (now apply list_eqb_eq); congruence|exact (T2 q Hq)].
  - unfold on in H. destruct (nth_error (pw_objs s) h) as [f|]; injection H as <- <-; exact T.
  - unfold on in H. destruct (nth_error (pw_objs s) h) as [f|]; injection H as <- <-; exact T.
  - unfold on in H. destruct (nth_error (pw_objs s) h) as [f|]; injection H as <- <-; exact T.
  - unfold on in H. destruct (nth_error (pw_objs s) h) as [f|]; injection H as <- <-; exact T.
  - unfold on in H. destruct (nth_error (pw_objs s) h) as [f|]; injection H as <- <-; exact T.
Qed.
Lemma tally_put wy L s g m p f l : tally wy L s g m -> exactly wy L f l -> tally wy L (in_files s (fs_set (pw_files s) p (bf_write f))) (set_file g p l) (fun q => q = p \/ m q).
Proof.
  intros [T1 T2 T3] X. constructor; cbn [in_files pw_objs pw_files set_file lg_objs lg_files lg_dumps]; auto. intros q Hq. unfold fs_set. destruct (list_eqb p q) eqn:Q; [exists f; now split|].
  destruct Hq as [->|Hq]; [assert (list_eqb p p = true) by (now apply list_eqb_eq); congruence|exact (T2 q Hq)].
Qed.
Lemma tally_less wy L s g (m m' : path -> Prop) : (forall p, m' p -> m p) -> tally wy L s g m -> tally wy L s g m'.
Proof. intros H [T1 T2 T3]. constructor; auto. Qed.
Lemma event_tally pr L wy s g m e s' g' : agree wy L s g -> tally wy L s g m -> event_ok e -> owned m g e -> happens pr L wy s e s' -> noted (pw_files s) g e g' -> tally wy L s' g' (owns m e).
Proof.
  intros A T K Ow H N. pose proof (agree_bytes _ _ _ _ A) as B. destruct H as [par room jobs a w' r Rm E|par stdin room jobs a w' r Rm E|c s' r E|p c]; inversion N; subst; clear N; cbn [event_ok] in K.
  - unfold cmd_create in E. destruct (create_filter pr L wy par (pw_files s) jobs a) as [h|e|] eqn:C; [|discriminate..]. rewrite (save_ok _ _ _ _ (Rm h eq_refl)) in E. injection E as <-. destruct K as [K1 K2].
    destruct (create_inv _ _ _ _ _ _ _ _ B K2 K1 C) as (n & o & f & Hn & Ef & P & _). apply tally_put; [exact T|]. rewrite <- (app_nil_r ls). exact (parallel_only pr L wy par (pw_files s) f (ca_dataset a) jobs h [] ls (fresh_only wy pr L _ _ _ _ f Hn K2 Ef) B ltac:(assumption) P).
  - unfold cmd_create in E. destruct (create_filter pr L wy par (pw_files s) jobs a) as [h|e|] eqn:C; [rewrite (save_ok _ _ _ _ (Rm h eq_refl)) in E; injection E as _ <-; contradiction|injection E as <- <-; rewrite in_same; exact T..].
  - unfold cmd_insert in E. destruct (insert_filter pr L wy par (pw_files s) stdin jobs a) as [h|e|] eqn:C; [|discriminate..]. rewrite (save_ok _ _ _ _ (Rm h eq_refl)) in E. injection E as <-.
    apply insert_filter_inv in C as (c & f & sls' & f1 & E1 & E2 & S & I & P). match goal with X : stdin_lines a stdin sls |- _ => pose proof (stdin_lines_det _ _ _ _ X S) as -> end. cbn [owned] in Ow. destruct (ta_files _ _ _ _ _ T _ Ow) as (f0 & P0 & X). rewrite P0 in E1. injection E1 as <-.
    rewrite (bf_kept_roundtrip pr wy L f0 (proj1 X)) in E2. injection E2 as <-. pose proof (inserts_only pr wy L f0 sls f1 I _ X (stdin_lines_bytes _ _ _ K S)) as X1. pose proof (parallel_only pr L wy par (pw_files s) f1 (ia_inputs a) jobs h _ ls X1 B ltac:(assumption) P) as X2.
    apply (tally_less wy L _ _ (fun q => q = ia_file a \/ m q)); [intros p Hp; now right|]. apply tally_put; [exact T|]. destruct X2 as [X2 O]. split; [exact X2|]. apply (only_ext wy h (ls ++ sls ++ lg_files g (ia_file a))); [|exact O]. intro x. rewrite !in_app_iff. tauto.
  - unfold cmd_insert in E. destruct (insert_filter pr L wy par (pw_files s) stdin jobs a) as [h|e|] eqn:C; [rewrite (save_ok _ _ _ _ (Rm h eq_refl)) in E; injection E as _ <-; contradiction|injection E as <- <-; rewrite in_same; exact T..].
  - exact (call_tally _ _ _ _ _ _ _ _ _ A T K Ow E).
  - destruct T as [T1 T2 T3]. constructor; cbn [in_files pw_objs pw_files set_file lg_objs lg_files lg_dumps owns]; auto. intros q [Nq Hq]. unfold fs_put. destruct (list_eqb p q) eqn:Q; [apply list_eqb_eq in Q; congruence|exact (T2 q Hq)].
Qed.
Lemma own_tally pr L wy s g m l s' g' m' : own_session pr L wy s g m l s' g' m' -> agree wy L s g -> tally wy L s g m -> agree wy L s' g' /\ tally wy L s' g' m'.
Proof.
  induction 1 as [|s g m e s1 g1 l s2 g2 m2 K Ow H N S IH]; intros A T; [now split|]. apply IH; [exact (event_agree _ _ _ _ _ _ _ _ A K H N)|exact (event_tally _ _ _ _ _ _ _ _ _ A T K Ow H N)].
Qed.
Lemma tally_start wy L w : tally wy L (start w) blank (fun _ => False).
Proof. constructor; cbn; [constructor|contradiction|constructor]. Qed.
(** After such a session the bits of every object and of every file it wrote are exactly those of the entries in the ledger. *)
Theorem C100_exact pr L wy w l s g m : files_ok w -> own_session pr L wy (start w) blank (fun _ => False) l s g m ->
  (forall h f, nth_error (pw_objs s) h = Some f -> forall x, bf_spot f x = true <-> exists d, In d (entries_of g h) /\ bf_spots wy f d x) /\
  (forall p, m p -> exists f, pw_files s p = Some (bf_write f) /\ (forall pr', bf_from_reader pr' (bf_write f) = Ok f) /\ forall x, bf_spot f x = true <-> exists d, In d (lg_files g p) /\ bf_spots wy f d x).
Proof.
  intros W R. destruct (own_tally _ _ _ _ _ _ _ _ _ _ R (agree_start wy L w W) (tally_start wy L w)) as [_ [T1 T2 _]]. split.
  - intros h f E. exact (proj2 (nth_Forall2 _ _ _ _ _ [] T1 E)).
  - intros p Hp. destruct (T2 p Hp) as (f & P & K & O). exists f. split; [exact P|]. split; [intro pr'; exact (bf_kept_roundtrip pr' wy L f K)|exact O].
Qed.
Print Assumptions C100_exact.
(** So an object that nothing was put into contains nothing (unless its entries have no bits, as in version 1 filters without hash functions). *)
Theorem C100_empty pr L wy w l s g m h f d x : files_ok w -> own_session pr L wy (start w) blank (fun _ => False) l s g m -> nth_error (pw_objs s) h = Some f -> entries_of g h = [] -> bytes_ok d -> bf_spots wy f d x ->
  bf_contains_bytes wy f d <> Ok true.
Proof.
  intros W R E Z Bd Hx C. destruct (own_tally _ _ _ _ _ _ _ _ _ _ R (agree_start wy L w W) (tally_start wy L w)) as [_ [T1 _ _]]. destruct (nth_Forall2 _ _ _ _ _ [] T1 E) as [K O]. apply (bf_contains_sem wy f d (bf_kept_wf _ _ _ K) Bd) in C as [_ C]. specialize (C x Hx). apply O in C as (y & Hy & _).
  unfold entries_of in Z. rewrite Z in Hy. contradiction.
Qed.
Print Assumptions C100_empty.
Lemma own_is_session pr L wy s g m l s' g' m' : own_session pr L wy s g m l s' g' m' -> session pr L wy s g l s' g'.
Proof. induction 1 as [|s g m e s1 g1 l s2 g2 m2 K Ow H N S IH]; [constructor|]. eapply ss_event; eassumption. Qed.
(** A filter is created, gets the line of a file, is loaded in Python, gets another entry there and is saved under another name; then the
    text file is removed. *)
Definition sx_create : create_args := {| ca_version := 1; ca_capacity := 4; ca_probability := p001; ca_optimize := 0; ca_file := [1]; ca_dataset := [] |}.
Definition sx_insert : insert_args := {| ia_stdin := false; ia_file := [1]; ia_inputs := [pa] |}.
Definition sx1 : fs := fs_set txt [1] (bf_write (V1 e0)).
Definition sx2 : fs := fs_set sx1 [1] (bf_write (V1 e1)).
Definition sx3 : fs := fs_set sx2 [2] (bf_write (V1 e2)).
Definition sx_events : list event := [SCreate None 1000 1 sx_create (Ok tt); SInsert None [] 1000 1 sx_insert (Ok tt); SPython (PLoad [1]) (PyObj 0); SPython (PInsert 0 db) (PyBool true); SPython (PSave 0 [2]) PyNone; SWrite pa None].
Example C100_example wy : files_ok txt /\ exists g m, own_session Release ref_libm wy (start txt) blank (fun _ => False) sx_events {| pw_objs := [V1 e2]; pw_files := fs_put sx3 pa None |} g m /\
  session Release ref_libm wy (start txt) blank sx_events {| pw_objs := [V1 e2]; pw_files := fs_put sx3 pa None |} g /\ m [1] /\ m [2] /\
  lg_files g [1] = [da] /\ lg_files g [2] = [db; da] /\ entries_of g 0 = [db; da] /\ lg_files g pa = [] /\ bf_contains_bytes wy (V1 e2) dc = Ok false.
Proof.
  split. { intros p c. unfold txt. repeat match goal with |- context [if ?b then _ else _] => destruct b end; intro E; try discriminate; injection E as <-; (split; [repeat (constructor; [reflexivity|]); constructor|reflexivity]). }
  assert (X : exists g m, own_session Release ref_libm wy (start txt) blank (fun _ => False) sx_events {| pw_objs := [V1 e2]; pw_files := fs_put sx3 pa None |} g m /\ m [1] /\ m [2] /\
    lg_files g [1] = [da] /\ lg_files g [2] = [db; da] /\ entries_of g 0 = [db; da] /\ lg_files g pa = [] /\ bf_contains_bytes wy (V1 e2) dc = Ok false).
  2:{ destruct X as (g & m & X1 & X2). exists g, m. split; [exact X1|]. split; [exact (own_is_session _ _ _ _ _ _ _ _ _ _ X1)|exact X2]. }
  eexists. eexists. split; [|split; [|split; [|split; [|split; [|split; [|split]]]]]].
  - unfold sx_events. eapply os_event; [split; reflexivity|exact I| |apply (nt_create (pw_files (start txt)) blank None 1000 1 sx_create []); constructor|].
    { assert (C : create_filter Release ref_libm wy None txt 1 sx_create = Ok (V1 e0)) by (vm_compute; reflexivity). apply (ev_create Release ref_libm wy (start txt) None 1000 1 sx_create sx1 (Ok tt)).
      - cbn [start pw_files]. rewrite C. intros g Q. injection Q as <-. vm_compute. discriminate.
      - cbn [start pw_files]. unfold cmd_create. rewrite C. apply save_ok. vm_compute. discriminate. }
    eapply os_event; [constructor|now left| |apply (nt_insert sx1 _ None [] 1000 1 sx_insert [] [da]); [right; split; [intros [Q|Q]; discriminate|reflexivity]|]|].
    { assert (C : insert_filter Release ref_libm wy None sx1 [] 1 sx_insert = Ok (V1 e1)) by (vm_compute; reflexivity). apply (ev_insert Release ref_libm wy (in_files (start txt) sx1) None [] 1000 1 sx_insert sx2 (Ok tt)).
      - cbn [start in_files pw_files]. rewrite C. intros g Q. injection Q as <-. vm_compute. discriminate.
      - cbn [start in_files pw_files]. unfold cmd_insert. rewrite C. apply save_ok. vm_compute. discriminate. }
    { apply (file_lines_other txt); [|exact txt_a]. intros p [<-|[]]. apply fs_set_other. discriminate. }
    eapply os_event; [exact I|split; [discriminate|now left]|apply (ev_python Release ref_libm wy _ (PLoad [1]) {| pw_objs := [V1 e1]; pw_files := sx2 |} (PyObj 0))|constructor|].
    { cbn [py_do in_files start pw_files pw_objs]. unfold sx2 at 1. unfold fs_open. rewrite fs_set_same. assert (Ld : bf_from_reader Release (bf_write (V1 e1)) = Ok (V1 e1)) by (vm_compute; reflexivity). rewrite Ld. reflexivity. }
    eapply os_event; [repeat (constructor; [reflexivity|]); constructor|split; [discriminate|exact I]|apply (ev_python Release ref_libm wy _ (PInsert 0 db) {| pw_objs := [V1 e2]; pw_files := sx2 |} (PyBool true))|constructor|].
    { cbn [py_do on pw_objs nth_error]. assert (Q : py_insert_bytes Release wy (V1 e1) db = (V1 e2, Ok true)) by (vm_compute; reflexivity). rewrite Q. reflexivity. }
    eapply os_event; [exact I|split; [discriminate|exact I]|apply (ev_python Release ref_libm wy _ (PSave 0 [2]) {| pw_objs := [V1 e2]; pw_files := sx3 |} PyNone)|constructor|].
    { cbn [py_do on pw_objs nth_error pw_files]. unfold py_save. rewrite save_ok by lia. reflexivity. }
    eapply os_event; [exact I|exact I|apply ev_write|constructor|constructor].
  - split; [discriminate|]. right. now left.
  - split; [discriminate|]. now left.
  - reflexivity.
  - reflexivity.
  - reflexivity.
  - reflexivity.
  - vm_compute. reflexivity.
Qed.
