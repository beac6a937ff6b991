(** C98: what check prints arrives, whatever standard output does. *)
From Coq Require Import Lia.
From Verif Require Import M_Stdout M_RefLibm Spec_Bits Spec_Hash Spec_V2 Spec_V1 Spec_Bloom Spec_Lines Spec_Cli P_Base P_Batch P_Lines P_Check P_Stdout Ex_Base Ex_V1 Ex_Cli Prop_Check.
Open Scope N_scope.

(** From the threads to the command: [Q] is what is asked of the lists of lines. *)
Lemma files_full wy w f a jobs out : ka_inputs a <> [] -> jobs <> 0 -> let ws := map (check_worker wy w f a) (batches (ka_inputs a) jobs) in
  interleave (map fst ws) out -> check_files wy w f a jobs out (join_units (map snd ws)).
Proof.
  intros Ne J ws I. apply (cf_run wy w f a jobs (map fst ws) out Ne J); [|exact I]. fold ws. destruct (join_units (map snd ws)); [reflexivity|apply prefix_same..].
Qed.
Lemma open_cases w p : (exists c, fs_open w p = Ok c) \/ fs_open w p = Err IoError.
Proof. unfold fs_open. destruct (w p); eauto. Qed.
Lemma one_list {A} (l : list A) out : interleave [l] out -> out = l.
Proof.
  intro H. remember [l] as ls eqn:E. revert l E. induction H as [ls F|a x l b out H IH]; intros k E.
  - subst. now inversion F.
  - destruct a as [|? [|]]; [|discriminate..]. injection E as <- ->. f_equal. exact (IH _ eq_refl).
Qed.
Lemma stdin_done s l o : writable s -> printing s false [l] so_new o true -> so_buf o = [] /\ so_got o = output l.
Proof.
  intros W H. destruct (printing_good s false [l] so_new o true W eq_refl H (or_introl eq_refl)) as (B & _ & outs & out & _ & S & I & G). split; [exact B|]. rewrite (S eq_refl) in I. now rewrite (one_list _ _ I) in G.
Qed.
Lemma check_level pr wy w stdin jobs a s (Q : list (list printed) -> Prop) o' ok : writable s ->
  (forall failed ls o1 o2 ok o3, Q ls -> so_buf o1 = [] -> printing s failed ls o1 o2 ok -> so_exit s o2 o3 -> exists out, interleave ls out /\ prefix (so_got o3) (so_got o1 ++ output out)) ->
  (forall c f, w (ka_file a) = Some c -> bf_from_reader pr c = Ok f -> Q [fst (check_lines wy f a Panic (lines stdin))] /\ (jobs <> 0 -> Q (map fst (map (check_worker wy w f a) (batches (ka_inputs a) jobs))))) ->
  check_prints pr wy w stdin jobs a s o' ok -> exists out r, cmd_check pr wy w stdin jobs a out r /\ prefix (so_got o') (output out).
Proof.
  intros W S Hq H. assert (O : forall c, fs_open w (ka_file a) = Ok c -> w (ka_file a) = Some c) by (intro c; unfold fs_open; destruct (w (ka_file a)); intro E; [now injection E as ->|discriminate]).
  destruct H as [N|c f out1 r o o' ok E L Rd C P K X|c f out1 o o' E L C P Ne J X|c f out1 o1 o o' ok E L C P J ws P2 X].
  - destruct (open_cases w (ka_file a)) as [(c & E)|E]; [|exists [], (Err IoError); split; [now apply ck_open|now exists []]]. destruct (bf_from_reader pr c) as [f|e|] eqn:L; [now contradiction (N c f E)|exists [], (Err e)|exists [], Panic]; (split; [|now exists []]); [now apply (ck_load_err _ _ _ _ _ _ c)|now apply (ck_load_panic _ _ _ _ _ _ c)].
  - destruct (Hq c f (O c E) L) as [Q1 _]. rewrite C in Q1. cbn [fst] in Q1. destruct (S _ _ so_new _ _ _ Q1 eq_refl P X) as (out & I & Pf). rewrite (one_list _ _ I) in Pf. clear K. destruct (check_lines_stdin _ _ _ _ _ _ C) as [->| ->].
    + destruct (check_files_exists wy w f a jobs) as (out2 & r & F). exists (out1 ++ out2), r. split; [apply (ck_run _ _ _ _ _ _ c f); auto; now rewrite Rd|]. destruct Pf as (t & Pf). exists (t ++ output out2). rewrite output_app, app_assoc, <- Pf. reflexivity.
    + exists out1, Panic. split; [now apply (ck_stdin_panic _ _ _ _ _ _ c f)|exact Pf].
  - destruct (stdin_done s out1 o W P) as [B G]. exists (out1 ++ []), Panic. split; [apply (ck_run _ _ _ _ _ _ c f); auto; now constructor|]. rewrite app_nil_r, <- G. destruct X as [-> | ->]; [apply prefix_refl|rewrite flush_empty by exact B; apply prefix_refl].
  - destruct (stdin_done s out1 o1 W P) as [B G]. unfold ws in *. clear ws. destruct (ka_inputs a) as [|p ps] eqn:EI; cbn [is_nil] in *.
    + cbn [map] in P2. apply printing_nils in P2; [|constructor]. subst o. exists (out1 ++ []), (Ok tt). split; [apply (ck_run _ _ _ _ _ _ c f); auto; [now rewrite EI|now constructor]|]. rewrite app_nil_r, <- G. destruct X as [-> | ->]; [apply prefix_refl|rewrite flush_empty by exact B; apply prefix_refl].
    + assert (J' : jobs <> 0) by (destruct J; [discriminate|assumption]). destruct (Hq c f (O c E) L) as [_ Q2]. specialize (Q2 J'). destruct (S _ _ _ _ _ _ Q2 B P2 X) as (out & I & t & Pf). eexists (out1 ++ out), _. split; [apply (ck_run _ _ _ _ _ _ c f); auto; [now rewrite EI|]; apply files_full; [now rewrite EI|exact J'|rewrite EI; exact I]|].
      exists t. now rewrite output_app, <- G, Pf.
Qed.

(** ** Exit status 0 *)
(** Full statement: the exit status is 0 only if every line has arrived. Missing: a descriptor that is not open for writing, see
    C98_closed_refuted. Nothing is asked of the write calls otherwise: they may take few bytes and fail. *)
Theorem C98_success_partial pr wy w stdin jobs a s o : writable s -> check_prints pr wy w stdin jobs a s o true ->
  exists out, cmd_check pr wy w stdin jobs a out (Ok tt) /\ so_got o = output out.
Proof.
  intros W H. remember true as ok eqn:Ek in H. destruct H as [N|c f out1 r o o' ok E L Rd C P K X|c f out1 o o' E L C P Ne J X|c f out1 o1 o o' ok E L C P J ws P2 X]; try discriminate. subst ok.
  destruct (stdin_done s out1 o1 W P) as [B G]. destruct (printing_good _ _ _ _ _ _ W B P2 (or_introl eq_refl)) as (B2 & Ef & outs & out & F & S & I & G2). symmetry in Ef. apply Bool.negb_true_iff in Ef. specialize (S Ef). subst outs.
  assert (X' : so_got o' = output (out1 ++ out)) by (destruct X as [-> | ->]; [|rewrite flush_empty by exact B2]; now rewrite output_app, <- G).
  exists (out1 ++ out). split; [|exact X']. apply (ck_run _ _ _ _ _ _ c f); auto. apply Bool.negb_false_iff in Ef. unfold ws in *. clear ws. destruct (ka_inputs a) as [|p ps] eqn:EI; cbn [is_nil] in *.
  - cbn [map] in I. inversion I as [|a0 ? ? ? ? ? Ea]; [now constructor|destruct a0; discriminate].
  - assert (J' : jobs <> 0) by (destruct J; [discriminate|assumption]). assert (Ne : ka_inputs a <> []) by (rewrite EI; discriminate). rewrite <- EI in *. pose proof (files_full wy w f a jobs out Ne J' I) as FF. cbn zeta in FF. destruct (join_units _) as [[]|e|]; [exact FF|discriminate..].
Qed.
Print Assumptions C98_success_partial.

(** ** What has arrived is the beginning of the right output *)
(** Full statement: what arrives is the beginning of an output the command may give. Missing: several jobs, lines of 1018 bytes and more
    and write calls that succeed after others have failed, see C98_refuted. *)
(** When a failed output stays so, as a closed pipe does. *)
Theorem C98_dead_partial pr wy w stdin jobs a s o ok : writable s -> (forall t t', s t = Takes 0 -> (t <= t')%nat -> s t' = Takes 0) -> check_prints pr wy w stdin jobs a s o ok ->
  exists out r, cmd_check pr wy w stdin jobs a out r /\ prefix (so_got o) (output out).
Proof.
  intros W D. apply (check_level pr wy w stdin jobs a s (fun _ => True)); auto. intros failed ls o1 o2 ok' o3 _ B P X. destruct (printing_prefix s failed ls o1 o2 ok' W (fun t Ht t' => D t t' Ht) B P) as (St & out & I & Pf). exists out. split; [exact I|].
  destruct X as [-> | ->]; [exact Pf|]. destruct St as [B2|D2]; [now rewrite flush_empty|]. destruct (so_flush s o2) as [o3 ok3] eqn:F. apply puts_flush in F as [[_ _ _ G _] _]; [|exact W]. cbn [fst]. now rewrite (G D2).
Qed.
Print Assumptions C98_dead_partial.
(** When one thread prints. *)
Theorem C98_one_thread_partial pr wy w stdin jobs a s o ok : writable s -> jobs = 1 \/ (length (ka_inputs a) <= 1)%nat -> check_prints pr wy w stdin jobs a s o ok ->
  exists out r, cmd_check pr wy w stdin jobs a out r /\ prefix (so_got o) (output out).
Proof.
  intros W J. apply (check_level pr wy w stdin jobs a s (fun ls => (length ls <= 1)%nat)); auto.
  - intros failed ls o1 o2 ok' o3 L B P X. destruct ls as [|l [|]]; [| |cbn in L; lia].
    + apply printing_nils in P; [|constructor]. subst o2. exists []. split; [constructor; constructor|]. rewrite app_nil_r. destruct X as [-> | ->]; [apply prefix_refl|rewrite flush_empty by exact B; apply prefix_refl].
    + destruct (printing_one s failed l o1 o2 ok' W B P) as (r & G). exists l. split; [pose proof (interleave_concat [l]) as I; cbn in I; now rewrite app_nil_r in I|]. destruct X as [-> | ->]; [exists (so_buf o2 ++ r); now rewrite G|].
      destruct (so_flush s o2) as [o3 ok3] eqn:F. apply puts_flush in F as [[_ _ A _ _] _]; [|exact W]. cbn [fst]. rewrite app_nil_r in A. destruct ok3; [exists (so_buf o3 ++ r); now rewrite G, app_assoc, <- A, <- app_assoc|]. destruct A as (t & A). exists (so_buf o3 ++ t ++ r). now rewrite G, app_assoc, A, <- !app_assoc.
  - intros c f _ _. split; [cbn; lia|]. intro J0. rewrite !map_length. destruct (batches_count (ka_inputs a) jobs J0) as (C1 & C2 & _). unfold len in *. destruct J as [->|J]; [lia|]. rewrite Nat2N.inj_iff in C2. rewrite C2; [exact J|]. lia.
Qed.
Print Assumptions C98_one_thread_partial.
(** When all lines are shorter than 1018 bytes, and none is empty if --verify is given. *)
Lemma line_no_lf c d : In (Some d) (lines c) -> ~ In 10 d.
Proof.
  intro H. rewrite lines_map in H. apply in_map_iff in H as (g & Hg & Hi). unfold line_of in Hg. destruct (utf8_valid g); [|discriminate]. injection Hg as <-. destruct (text_total _ c (le_n _)) as (es & T). apply (in_map chomp) in Hi. rewrite (text_chomp c es T) in Hi.
  clear - T Hi. induction T as [|l H0 H|l c es H H0 T IH|l c es H T IH]; cbn in Hi; [contradiction|destruct Hi as [<-|[]]; exact H|destruct Hi as [<-|Hi]; [exact H|exact (IH Hi)]..].
Qed.
Lemma right_short wy f a d x : len d < 1018 -> (ka_verify a = true -> d <> []) -> ~ In 10 d -> right wy f a [d] x -> short_line x.
Proof.
  intros L V N R. destruct x as [l|l]; cbn [right] in R; destruct R as ([->|[]] & _ & R); split; cbn [shown_bytes]; rewrite ?len_app; auto; try (change (len [10]) with 1; lia). change (len [58; 32; 78; 79; 75; 10]) with 6. lia.
Qed.
Theorem C98_short_partial pr wy w stdin jobs a s o ok : writable s ->
  (forall c d, c = stdin \/ (exists p, In p (ka_inputs a) /\ w p = Some c) -> In (Some d) (lines c) -> len d < 1018 /\ (ka_verify a = true -> d <> [])) ->
  check_prints pr wy w stdin jobs a s o ok -> exists out r, cmd_check pr wy w stdin jobs a out r /\ prefix (so_got o) (output out).
Proof.
  intros W Sh. apply (check_level pr wy w stdin jobs a s (fun ls => Forall (Forall short_line) ls)); auto.
  - intros failed ls o1 o2 ok' o3 F B P X. destruct (printing_short s failed ls o1 o2 ok' W F (or_introl B) P) as (Wh & outs & out & Pf & I & G). destruct (interleave_extend outs out I ls Pf) as (r & I'). exists (out ++ r). split; [exact I'|]. rewrite B in G. cbn [app] in G. rewrite output_app.
    destruct X as [-> | ->]; [exists (so_buf o2 ++ output r); now rewrite app_assoc, <- G, <- app_assoc|]. destruct (so_flush s o2) as [o3 ok3] eqn:E. destruct (flush_whole s o2 o3 ok3 W Wh E) as (_ & _ & G3). cbn [fst]. exists (so_buf o3 ++ output r). now rewrite app_assoc, <- G, <- G3, <- app_assoc.
  - intros c f _ _. split.
    + constructor; [|constructor]. apply Forall_forall. intros x Hx. destruct (check_lines_right wy f a Panic (lines stdin) x Hx) as (d & Hd & R). destruct (Sh stdin d (or_introl eq_refl) Hd) as [L V]. exact (right_short wy f a d x L V (line_no_lf _ _ Hd) R).
    + intros _. apply Forall_forall. intros l Hl. apply in_map_iff in Hl as (x & <- & Hx). apply in_map_iff in Hx as (b & <- & Hb). apply Forall_forall. intros y Hy. destruct (check_worker_right wy w f a b y Hy) as (p & ci & d & Hp & Hw & Hd & R).
      destruct (Sh ci d) as [L V]; [right; exists p; split; [exact (batches_In _ _ _ _ Hb Hp)|exact Hw]|exact Hd|]. exact (right_short wy f a d y L V (line_no_lf _ _ Hd) R).
Qed.
Print Assumptions C98_short_partial.

(** ** With an output that takes bytes this is the check of M_Cli.v *)
Definition willing (s : script) : Prop := writable s /\ forall t, s t <> Takes 0.
Lemma willing_println s o x : willing s -> so_buf o = [] -> exists o', so_println s o x = (o', true) /\ so_buf o' = [] /\ so_got o' = so_got o ++ shown_bytes x.
Proof.
  intros [W T] B. destruct (so_println s o x) as [o' ok] eqn:E. apply puts_println in E as [[_ _ A _ F] Q]; [|exact W]. destruct ok; [|destruct (F eq_refl) as (t & _ & Ht); now apply T in Ht]. exists o'. specialize (Q eq_refl). rewrite Q, B, app_nil_r in A. auto.
Qed.
Lemma willing_printing s failed outs out : willing s -> interleave outs out -> forall ls o, Forall2 prefix outs ls -> (failed = false -> outs = ls) -> so_buf o = [] ->
  exists o', printing s failed ls o o' (negb failed) /\ so_buf o' = [] /\ so_got o' = so_got o ++ output out.
Proof.
  intros W. induction 1 as [outs H|a x l b out H IH]; intros ls o F S B.
  - exists o. split; [|split; [exact B|now rewrite app_nil_r]]. destruct failed; [apply pr_exit|]. apply pr_done. now rewrite <- (S eq_refl).
  - apply Forall2_app_inv_l in F as (a' & t & Fa & Ft & ->). inversion Ft as [|? l' ? b' (q & Hq) Fb]; subst. destruct (willing_println s o x W B) as (o1 & E & B1 & G1).
    destruct (IH (a' ++ (l ++ q) :: b') o1) as (o2 & P & B2 & G2); [apply Forall2_app; [exact Fa|constructor; [now exists q|exact Fb]]| |exact B1|].
    { intro Hf. specialize (S Hf). assert (La : length a = length a') by (clear - Fa; induction Fa; cbn; congruence). assert (E2 : a = a' /\ (x :: l) :: b = ((x :: l) ++ q) :: b') by (clear - S La; revert a' La S; induction a as [|y a IHa]; intros [|y' a'] La S; try discriminate; [auto|]; injection S as <- S; injection La as La; destruct (IHa _ La S) as [-> E]; auto). destruct E2 as [-> E2]. injection E2 as E3 ->. rewrite E3 at 1. reflexivity. }
    exists o2. split; [|split; [exact B2|now rewrite G2, G1, output_cons, <- app_assoc]]. cbn [app]. exact (pr_line s failed a' x (l ++ q) b' o o1 o2 _ E P).
Qed.
Theorem C98_reliable pr wy w stdin jobs a s : willing s ->
  (forall o ok, check_prints pr wy w stdin jobs a s o ok -> exists out r, cmd_check pr wy w stdin jobs a out r /\ (r = Ok tt <-> ok = true) /\ so_got o = output out) /\
  (forall out r, cmd_check pr wy w stdin jobs a out r -> exists o ok, check_prints pr wy w stdin jobs a s o ok /\ (r = Ok tt <-> ok = true) /\ so_got o = output out).
Proof.
  intros Wl. pose proof Wl as [W T]. split.
  - intros o' ok H. destruct H as [N|c f out1 r o o' ok E L Rd C P K X|c f out1 o o' E L C P Ne J X|c f out1 o1 o o' ok E L C P J ws P2 X].
    + destruct (open_cases w (ka_file a)) as [(c & E)|E]; [|exists [], (Err IoError); split; [now apply ck_open|split; [split; discriminate|reflexivity]]]. destruct (bf_from_reader pr c) as [f|e|] eqn:L; [now contradiction (N c f E)|exists [], (Err e)|exists [], Panic]; (split; [|split; [split; discriminate|reflexivity]]); [now apply (ck_load_err _ _ _ _ _ _ c)|now apply (ck_load_panic _ _ _ _ _ _ c)].
    + destruct (printing_good _ _ _ so_new _ _ W eq_refl P (or_intror T)) as (B & Ek & _). cbn in Ek. subst ok. cbn [andb] in K. destruct (stdin_done _ _ _ W P) as [_ G]. destruct (check_lines_stdin _ _ _ _ _ _ C) as [->| ->]; [discriminate|]. exists out1, Panic. split; [now apply (ck_stdin_panic _ _ _ _ _ _ c f)|]. split; [split; discriminate|]. destruct X as [-> | ->]; [exact G|now rewrite flush_empty].
    + destruct (stdin_done s out1 o W P) as [B G]. exists (out1 ++ []), Panic. split; [apply (ck_run _ _ _ _ _ _ c f); auto; now constructor|]. split; [split; discriminate|]. rewrite app_nil_r, <- G. destruct X as [-> | ->]; [reflexivity|now rewrite flush_empty].
    + destruct (stdin_done s out1 o1 W P) as [B G]. destruct (printing_good _ _ _ _ _ _ W B P2 (or_intror T)) as (B2 & Ef & outs & out & F & S & I & G2). subst ok.
      assert (X' : so_got o' = output (out1 ++ out)) by (destruct X as [-> | ->]; [|rewrite flush_empty by exact B2]; now rewrite output_app, <- G). exists (out1 ++ out), (join_units (map snd ws)). split; [|split; [|exact X']].
      * apply (ck_run _ _ _ _ _ _ c f); auto. unfold ws in *. clear ws. destruct (ka_inputs a) as [|p ps] eqn:EI; cbn [is_nil] in *.
        -- cbn [map] in *. inversion F; subst. inversion I as [|a0 ? ? ? ? ? Ea]; [now constructor|destruct a0; discriminate].
        -- assert (J' : jobs <> 0) by (destruct J; [discriminate|assumption]). rewrite <- EI in *. apply (cf_run wy w f a jobs outs out); auto; [rewrite EI; discriminate|]. destruct (join_units _) as [[]|e|]; [now apply S|exact F..].
      * rewrite Bool.negb_involutive. destruct (join_units (map snd ws)) as [[]|e|]; split; auto; discriminate.
  - intros out r H. destruct H as [e E|c e E L|c E L|c f out E L Rd C|c f out1 out2 r E L C F].
    1-3: exists so_new, false; (split; [apply cp_load; intros c' f' E' L'; congruence|split; [split; discriminate|reflexivity]]).
    + destruct (willing_printing s false [out] out Wl) with (ls := [out]) (o := so_new) as (o & P & B & G); [pose proof (interleave_concat [out]) as I; cbn in I; now rewrite app_nil_r in I|apply prefix_same|reflexivity|reflexivity|]. exists o, false. split; [|split; [split; discriminate|exact G]]. apply (cp_stdin pr wy w stdin jobs a s c f out Panic o o true); auto. now left.
    + destruct (willing_printing s false [out1] out1 Wl) with (ls := [out1]) (o := so_new) as (o1 & P & B & G); [pose proof (interleave_concat [out1]) as I; cbn in I; now rewrite app_nil_r in I|apply prefix_same|reflexivity|reflexivity|]. cbn [negb] in P. cbn [so_got so_new app] in G.
      destruct F as [En|Ne Jz|outs out2 Ne Nz ws res Cd I].
      * exists o1, true. split; [|split; [split; reflexivity|now rewrite app_nil_r]]. apply (cp_run pr wy w stdin jobs a s c f out1 o1 o1 o1 true); auto; [rewrite En; cbn; apply (pr_done s false); constructor|now left].
      * exists o1, false. split; [|split; [split; discriminate|now rewrite app_nil_r]]. apply (cp_zero pr wy w stdin jobs a s c f out1 o1 o1); auto. now left.
      * destruct (willing_printing s (negb (M_Stdout.is_ok res)) outs out2 Wl I (map fst ws) o1) as (o2 & P2 & B2 & G2); [destruct res; [subst outs; apply prefix_same|exact Cd..]| |exact B|].
        { intro Hf. destruct res as [[]|e|]; [exact Cd|discriminate..]. }
        exists o2, (M_Stdout.is_ok res). split; [|split; [destruct res as [[]|e|]; split; auto; discriminate|now rewrite G2, G, output_app]]. apply (cp_run pr wy w stdin jobs a s c f out1 o1 o2 o2); auto; [|now left].
        rewrite Bool.negb_involutive in P2. assert (Z : is_nil (ka_inputs a) = false) by (destruct (ka_inputs a); [contradiction|reflexivity]). rewrite Z. exact P2.
Qed.
Print Assumptions C98_reliable.

(** ** Counterexamples *)
(** An empty filter in file [1], an empty line in file [2], "hello" in [pa]; check --verify with two jobs. *)
Definition void : fs := fs_set (fs_set txt [1] (bf_write (V1 e0))) [2] [10].
Definition void_check : check_args := {| ka_stdin := false; ka_silent := false; ka_verify := true; ka_file := [1]; ka_inputs := [[2]; pa] |}.
(** The output takes two bytes, fails once and then takes everything. *)
Definition hiccup : script := fun t => match t with 0 => Takes 2 | 1 => Takes 0 | _ => Takes 100 end%nat.
Lemma void_bytes : fs_bytes void.
Proof.
  intros p c. unfold void, fs_set. destruct (list_eqb [2] p); [intro E; injection E as <-; repeat (constructor; [reflexivity|]); constructor|]. destruct (list_eqb [1] p); [|apply txt_bytes]. intro E. injection E as <-. change (bytes_ok (bf_write (V1 e0))). vm_compute (bf_write (V1 e0)). repeat (constructor; [reflexivity|]). constructor.
Qed.
Lemma void_checkable : checkable Release void [] void_check (V1 e0) [] [[]; da].
Proof.
  constructor; [exact void_bytes| | | |reflexivity].
  - exists (bf_write (V1 e0)). split; [reflexivity|]. split; [vm_compute; reflexivity|]. vm_compute. reflexivity.
  - split; [discriminate|]. intros _. discriminate.
  - apply (fl_cons void [2] [10] [[]] [pa] [da]); [reflexivity|apply utf8_valid_iff; reflexivity|apply (text_lf [] [] []); [not_in|intros (p & E); destruct p; discriminate|constructor]|].
    apply (file_lines_other txt); [|exact txt_a]. intros p [<-|[]]. reflexivity.
Qed.
Lemma hiccup_writable : writable hiccup.
Proof. intros [|[|t]]; discriminate. Qed.
(** The two bytes of the line that failed and the line of the other thread arrive as one line; no output of the command begins so. *)
Theorem C98_refuted : exists wy w a s o, writable s /\ checkable Release w [] a (V1 e0) [] [[]; da] /\ check_prints Release wy w [] 2 a s o false /\
  so_got o = [58; 32] ++ da ++ [58; 32; 78; 79; 75; 10] /\ forall out r, cmd_check Release wy w [] 2 a out r -> ~ prefix (so_got o) (output out).
Proof.
  exists (fun _ => 0), void, void_check, hiccup. set (o1 := fst (so_println hiccup so_new (Nok []))). set (o := fst (so_println hiccup o1 (Nok da))). exists o. split; [exact hiccup_writable|]. split; [exact void_checkable|].
  assert (G : so_got o = [58; 32] ++ da ++ [58; 32; 78; 79; 75; 10]) by (vm_compute; reflexivity). split; [|split; [exact G|]].
  - apply (cp_run Release (fun _ => 0) void [] 2 void_check hiccup (bf_write (V1 e0)) (V1 e0) [] so_new o o false); [reflexivity|vm_compute; reflexivity|reflexivity|apply (pr_done hiccup false); repeat constructor|right; discriminate| |now left].
    replace (if is_nil (ka_inputs void_check) then [] else map (check_worker (fun _ => 0) void (V1 e0) void_check) (batches (ka_inputs void_check) 2)) with [([Nok []], Ok tt); ([Nok da], Ok tt)] by (vm_compute; reflexivity). cbn [map fst snd].
    apply (pr_panic hiccup _ [] (Nok []) [] [[Nok da]] so_new o1 o false); [vm_compute; reflexivity|]. apply (pr_line hiccup true [[]] (Nok da) [] [] o1 o o false); [vm_compute; reflexivity|]. apply (pr_done hiccup true). repeat constructor.
  - intros out r H (t & Pf). rewrite G in Pf. assert (J : 2 <> 0) by discriminate. destruct (C45_prints _ _ _ _ _ _ _ _ _ _ _ void_checkable J H) as (out2 & lss & -> & _ & _ & P & _). change (answer (fun _ => 0) (V1 e0) void_check []) with (@nil printed) in Pf. cbn [app] in Pf.
    replace (answer (fun _ => 0) (V1 e0) void_check [[]; da]) with [Nok []; Nok da] in P by (vm_compute; reflexivity). apply Permutation.Permutation_length_2_inv in P as [-> | ->]; discriminate Pf.
Qed.
Print Assumptions C98_refuted.
(** The same without --verify needs a line of 1024 bytes: thirty of them arrive, then "hello". *)
Example C98_long_line : let s := fun t => match t with 0 => Takes 30 | 1 => Takes 0 | _ => Takes 100 end%nat in
  let '(o, ok) := so_println s so_new (Plain (repeat 120 (N.to_nat 1024))) in ok = false /\ so_got (fst (so_println s o (Plain da))) = repeat 120 30 ++ da ++ [10].
Proof. vm_compute. auto. Qed.
(** One byte less, and the line is completed by the next thread. *)
Example C98_short_line : let s := fun t => match t with 0 => Takes 30 | 1 => Takes 0 | _ => Takes 1000 end%nat in
  let '(o, ok) := so_println s so_new (Plain (repeat 120 (N.to_nat 1022))) in ok = false /\ so_got (fst (so_println s o (Plain da))) = repeat 120 (N.to_nat 1022) ++ [10] ++ da ++ [10].
Proof. vm_compute. auto. Qed.
(** A descriptor that is open for reading only: exit status 0 and nothing has arrived. *)
Theorem C98_closed_refuted : exists wy w a s o, check_prints Release wy w [] 1 a s o true /\ so_got o = [] /\ (exists out r, cmd_check Release wy w [] 1 a out r) /\ forall out r, cmd_check Release wy w [] 1 a out r -> output out <> [].
Proof.
  exists (fun _ => 0), void, void_check. set (s := (fun _ => Closed) : script). exists s. set (o1 := fst (so_println s so_new (Nok []))). set (o := fst (so_println s o1 (Nok da))). exists o. split; [|split; [vm_compute; reflexivity|split; [exact (check_exists _ _ _ _ _ _ _ _ _ void_checkable)|]]].
  - apply (cp_run Release (fun _ => 0) void [] 1 void_check s (bf_write (V1 e0)) (V1 e0) [] so_new o o true); [reflexivity|vm_compute; reflexivity|reflexivity|apply (pr_done s false); repeat constructor|right; discriminate| |now left].
    replace (if is_nil (ka_inputs void_check) then [] else map (check_worker (fun _ => 0) void (V1 e0) void_check) (batches (ka_inputs void_check) 1)) with [([Nok []; Nok da], Ok tt)] by (vm_compute; reflexivity). cbn [map fst snd].
    apply (pr_line s _ [] (Nok []) [Nok da] [] so_new o1 o true); [vm_compute; reflexivity|]. apply (pr_line s _ [] (Nok da) [] [] o1 o o true); [vm_compute; reflexivity|]. apply (pr_done s false). repeat constructor.
  - intros out r H E. assert (J : 1 <> 0) by discriminate. destruct (C45_prints _ _ _ _ _ _ _ _ _ _ _ void_checkable J H) as (out2 & lss & -> & _ & _ & P & _). replace (answer (fun _ => 0) (V1 e0) void_check [[]; da]) with [Nok []; Nok da] in P by (vm_compute; reflexivity).
    rewrite output_app in E. apply app_eq_nil in E as [_ E]. apply Permutation.Permutation_length_2_inv in P as [-> | ->]; discriminate E.
Qed.
Print Assumptions C98_closed_refuted.
(** A closed pipe: two bytes arrive, then nothing; the second thread fails too. *)
Example C98_dead_example : let s := fun t => match t with 0 => Takes 2 | _ => Takes 0 end%nat in writable s /\ (forall t t', s t = Takes 0 -> (t <= t')%nat -> s t' = Takes 0) /\ exists o, check_prints Release (fun _ => 0) void [] 2 void_check s o false /\ so_got o = [58; 32].
Proof.
  intro s. split; [intros [|t]; discriminate|]. split; [intros [|t] [|t'] H L; try discriminate; [lia|reflexivity]|]. set (o1 := fst (so_println s so_new (Nok []))). set (o := fst (so_println s o1 (Nok da))). exists o. split; [|vm_compute; reflexivity].
  apply (cp_run Release (fun _ => 0) void [] 2 void_check s (bf_write (V1 e0)) (V1 e0) [] so_new o o false); [reflexivity|vm_compute; reflexivity|reflexivity|apply (pr_done s false); repeat constructor|right; discriminate| |now left].
  replace (if is_nil (ka_inputs void_check) then [] else map (check_worker (fun _ => 0) void (V1 e0) void_check) (batches (ka_inputs void_check) 2)) with [([Nok []], Ok tt); ([Nok da], Ok tt)] by (vm_compute; reflexivity). cbn [map fst snd].
  apply (pr_panic s _ [] (Nok []) [] [[Nok da]] so_new o1 o false); [vm_compute; reflexivity|]. apply (pr_panic s true [[]] (Nok da) [] [] o1 o o false); [vm_compute; reflexivity|]. apply (pr_done s true). repeat constructor.
Qed.
