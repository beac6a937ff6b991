(** Parallel insertion of files (C40-C43). *)
From Coq Require Import Lia.
From Verif Require Import M_Cli M_RefLibm Spec_Bits Spec_Hash Spec_V2 Spec_V1 Spec_Bloom Spec_Lines Spec_Cli P_Base P_Codec P_Bloom P_Lines P_Batch P_Par Ex_Base Ex_V1 Ex_Cli.
Open Scope N_scope.

(** * C40 *)
Theorem C40_nothing_lost pr L wy par w f files jobs g : bf_reach wy L f -> fs_bytes w -> parallel_insert pr L wy par w f files jobs = Ok g ->
  exists ls, file_lines w files ls /\ bf_same_frame f g /\ bf_data g = bf_data f /\
    (forall s, bf_spot g s = true <-> bf_spot f s = true \/ exists d, In d ls /\ bf_spots wy f d s) /\
    (bf_has_bits f -> forall d, In d ls -> bf_contains_bytes wy g d = Ok true) /\
    (forall d, bytes_ok d -> bf_contains_bytes wy f d = Ok true -> bf_contains_bytes wy g d = Ok true) /\
    (forall h, inserts pr wy f ls h -> bf_same_content h g).
Proof.
  intros R B E. pose proof (bf_reach_wf _ _ _ R) as W. destruct (parallel_sem _ _ _ _ _ _ _ _ _ W B E) as (ls & Fl & Wg & Fr & D & S). pose proof (file_lines_bytes _ _ _ B Fl) as Bl.
  assert (M : forall s, bf_spot f s = true -> bf_spot g s = true) by (intros s Hs; apply S; now left). exists ls. split; [exact Fl|]. split; [exact Fr|]. split; [exact D|]. split; [exact S|]. split; [|split].
  - intros HB d Hd. destruct R as (K & H). destruct (parallel_holds pr L wy par w f files jobs g (fun _ => False) ls (ex_intro _ K (conj H (fun d' (F : False) => match F return K d' with end))) B Fl E) as (K' & H' & I').
    exact (bf_hist_contains wy L g K' d H' (I' d (or_intror Hd)) (bf_frame_has_bits _ _ Fr HB)).
  - intros d Bd. exact (bf_contains_mono wy f g d W Wg Bd Fr M).
  - intros h I. destruct (inserts_sem _ _ _ _ _ W Bl I) as (Fh & Wh & _ & Sh). apply bf_spots_ext; [exact Wh|exact Wg|exact (bf_frame_trans _ _ _ (bf_frame_sym _ _ Fh) Fr)|]. intro s. now rewrite S, Sh.
Qed.
Print Assumptions C40_nothing_lost.
(** The result is a filter like any other: reached by calls of the interface, whatever was inserted before and every line
    being among the inserted entries. *)
Theorem C40_history pr L wy par w f K files jobs g ls : bf_hist wy L f K -> fs_bytes w -> file_lines w files ls -> parallel_insert pr L wy par w f files jobs = Ok g ->
  exists K', bf_hist wy L g K' /\ forall d, K d \/ In d ls -> K' d.
Proof. intros H B Fl E. exact (parallel_holds pr L wy par w f files jobs g K ls (ex_intro _ K (conj H (fun d F => F))) B Fl E). Qed.
Print Assumptions C40_history.
(** Three files of one line, two at a time, into a filter that already holds two entries. *)
Example C40_example : exists g, parallel_insert Release ref_libm (fun _ => 0) (Some 2) txt (V1 e0) [pa; pb; pc] 0 = Ok g /\ bf_contains_bytes (fun _ => 0) g dc = Ok true /\
  bf_contains_bytes (fun _ => 0) g db = Ok true /\ len (batches [pa; pb; pc] (optimal_jobs (Some 2) 0)) = 3.
Proof. eexists. split; [vm_compute; reflexivity|]. split; [vm_compute; reflexivity|]. split; vm_compute; reflexivity. Qed.
(** A line that is not UTF-8 makes it fail. *)
Example C40_example_bad : parallel_insert Release ref_libm (fun _ => 0) (Some 2) txt (V1 e0) [pa; pbad] 0 = Panic.
Proof. vm_compute. reflexivity. Qed.

(** * C41 *)
(** Every complete run, whatever the schedule, gives the outcome of the workers run one after the other. *)
Theorem C41_any_schedule pr L wy par w f files jobs r : parallel_insert_run pr L wy par w f files jobs r -> r = parallel_insert pr L wy par w f files jobs.
Proof. exact (run_det pr L wy par w f files jobs r). Qed.
Print Assumptions C41_any_schedule.
Theorem C41_deterministic pr L wy par w f files jobs r1 r2 : parallel_insert_run pr L wy par w f files jobs r1 -> parallel_insert_run pr L wy par w f files jobs r2 -> r1 = r2.
Proof. intros H1 H2. now rewrite (run_det _ _ _ _ _ _ _ _ _ H1), (run_det _ _ _ _ _ _ _ _ _ H2). Qed.
Print Assumptions C41_deterministic.
(** There is no infinite schedule and no deadlock: a pool in which nobody can make a step has all its results. *)
Theorem C41_terminates pr wy w : well_founded (fun q p => pool_step pr wy w p q) /\ forall p, (forall q, ~ pool_step pr wy w p q) -> exists rs, results p = Some rs.
Proof.
  split.
  - apply (Wf_nat.well_founded_lt_compat _ (pool_work w)). intros q p. exact (pool_step_work pr wy w p q).
  - intros p Q. destruct (pool_progress pr wy w p) as [(q & S)|(rs & ->)]; [contradiction (Q q S)|]. exists rs. apply map_results.
Qed.
Print Assumptions C41_terminates.
Theorem C41_run_exists pr L wy par w f files jobs : exists r, parallel_insert_run pr L wy par w f files jobs r.
Proof. exact (run_exists pr L wy par w f files jobs). Qed.
Print Assumptions C41_run_exists.
(** Two interleavings of two workers. *)
Definition t0 : list tstate := spawn_all (V1 e0) [[pa]; [pb]].
Definition at_ (i : nat) (p : list tstate) : list tstate :=
  match nth_error p i with
  | Some s => match thread_step Release (fun _ => 0) txt s with Some s' => upd p i s' | None => p end
  | None => p
  end.
Example C41_example : fold_left (fun p i => at_ i p) [0; 0; 0; 1; 1; 1]%nat t0 = fold_left (fun p i => at_ i p) [1; 0; 1; 0; 0; 1]%nat t0 /\
  results (fold_left (fun p i => at_ i p) [1; 0; 1; 0; 0; 1]%nat t0) <> None /\ results (fold_left (fun p i => at_ i p) [1; 0; 1; 0; 0]%nat t0) = None.
Proof. split; [vm_compute; reflexivity|]. split; [vm_compute; discriminate|vm_compute; reflexivity]. Qed.

(** * C42 *)
(** Full statement: parallel insertion fails with TooManyEntries whenever sequential insertion does. *)
(** Proved: with one job, or one file, it fails exactly when sequential insertion does (by a panic). Missing: several batches,
    and the error, see the refutations. *)
Theorem C42_one_batch_partial pr L wy par w f files jobs : files <> [] -> optimal_jobs par jobs = 1 \/ len files = 1 ->
  (forall g, parallel_insert pr L wy par w f files jobs = Ok g <-> exists ls, file_lines w files ls /\ inserts pr wy f ls g) /\
  ((forall ls g, file_lines w files ls -> ~ inserts pr wy f ls g) -> parallel_insert pr L wy par w f files jobs = Panic).
Proof.
  intros Ne H. destruct (parallel_one pr L wy par w f files jobs Ne H) as [A B]. split.
  - intro g. rewrite A. apply worker_ok.
  - intro Q. apply B. intros g E. apply worker_ok in E as (ls & Fl & I). exact (Q ls g Fl I).
Qed.
Print Assumptions C42_one_batch_partial.
(** A batch that does not fit on its own makes it fail. *)
Theorem C42_batch_partial pr L wy par w f files jobs b : In b (batches files (optimal_jobs par jobs)) -> (forall ls g, file_lines w b ls -> ~ inserts pr wy f ls g) ->
  parallel_insert pr L wy par w f files jobs = Panic.
Proof. intros Hb Q. apply (parallel_worker_fails pr L wy par w f files jobs b Hb). intros g E. apply worker_ok in E as (ls & Fl & I). exact (Q ls g Fl I). Qed.
Print Assumptions C42_batch_partial.
(** And nothing else does in release builds: only the capacity of each batch alone is looked at. *)
Theorem C42_exact L wy par w f files jobs : bf_reach wy L f -> bf_fpp_real f -> fs_bytes w -> files <> [] ->
  (exists g, parallel_insert Release L wy par w f files jobs = Ok g) <-> forall b, In b (batches files (optimal_jobs par jobs)) -> exists ls g, file_lines w b ls /\ inserts Release wy f ls g.
Proof.
  intros R P B Ne. pose proof (bf_reach_wf _ _ _ R) as W. split.
  - intros (g & E) b Hb. destruct (worker Release wy w f b) as [h|e|] eqn:Q.
    + apply worker_ok in Q as (ls & Fl & I). eauto.
    + rewrite (parallel_worker_fails Release L wy par w f files jobs b Hb) in E; [discriminate|]. rewrite Q. discriminate.
    + rewrite (parallel_worker_fails Release L wy par w f files jobs b Hb) in E; [discriminate|]. rewrite Q. discriminate.
  - intro H. destruct (parallel_cases Release L wy par w f files jobs W B P) as [G|(_ & _ & [(b & Hb & Q)|(Q & _)])]; [exact G| |discriminate]. exfalso.
    destruct (H b Hb) as (ls & g & Fl & I). apply (Q g). apply worker_ok. eauto.
Qed.
Print Assumptions C42_exact.
(** Three lines into a filter of capacity 2: refused sequentially, accepted with three jobs. *)
Theorem C42_refuted : exists wy par w f files jobs ls h g, bf_reach wy ref_libm f /\ fs_bytes w /\ file_lines w files ls /\ bf_fill Release wy f ls = (h, Err TooManyEntries) /\
  parallel_insert Release ref_libm wy par w f files jobs = Ok g /\ bf_capacity g < len ls.
Proof.
  exists (fun _ => 0), None, txt, (V1 q0), [pa; pb; pc], 3, [da; db; dc]. eexists. eexists. split; [apply q0_reach|]. split; [exact txt_bytes|]. split; [exact txt_abc|].
  split; [vm_compute; reflexivity|]. split; [vm_compute; reflexivity|]. vm_compute. reflexivity.
Qed.
Print Assumptions C42_refuted.
(** With one job the failure is a panic, not TooManyEntries. *)
Theorem C42_error_refuted : exists wy par w f files ls h, bf_reach wy ref_libm f /\ fs_bytes w /\ file_lines w files ls /\ bf_fill Release wy f ls = (h, Err TooManyEntries) /\
  parallel_insert Release ref_libm wy par w f files 1 = Panic.
Proof.
  exists (fun _ => 0), None, txt, (V1 q0), [pa; pb; pc], [da; db; dc]. eexists. split; [apply q0_reach|]. split; [exact txt_bytes|]. split; [exact txt_abc|].
  split; [vm_compute; reflexivity|]. vm_compute. reflexivity.
Qed.
Print Assumptions C42_error_refuted.
Example C42_example : exists g, parallel_insert Release ref_libm (fun _ => 0) None txt (V1 q0) [pa; pb] 1 = Ok g /\ bf_is_full g = true.
Proof. eexists. split; vm_compute; reflexivity. Qed.

(** * C43 *)
Theorem C43_batches {A} (files : list A) jobs : concat (batches files jobs) = files /\ (forall b, In b (batches files jobs) -> b <> [] /\ len b <= N.max (len files / jobs) 1).
Proof. split; [apply batches_concat|]. intros b Hb. split; [exact (batches_nonempty _ _ _ Hb)|exact (batches_size _ _ _ Hb)]. Qed.
Print Assumptions C43_batches.
(** Full statement: at most [jobs] batches. Proved: fewer than twice as many, and no more when there are at most [jobs] files or
    their number is a multiple of [jobs]. Missing: the other cases, see C43_refuted. *)
Theorem C43_count_partial {A} (files : list A) jobs : jobs <> 0 -> len (batches files jobs) < 2 * jobs /\ (len files <= jobs \/ len files mod jobs = 0 -> len (batches files jobs) <= jobs).
Proof.
  intro J. destruct (batches_count files jobs J) as (A1 & A2 & A3 & _). split; [exact A1|]. intros [H|H]; [rewrite A2; lia|]. destruct files as [|x files]; [rewrite A2; cbn; lia|]. rewrite A3; [lia|exact H|discriminate].
Qed.
Print Assumptions C43_count_partial.
(** The requested parallelism is used when there are enough files. *)
Theorem C43_enough {A} (files : list A) jobs : jobs <> 0 -> jobs <= len files -> jobs <= len (batches files jobs).
Proof. intros J. apply (batches_count files jobs J). Qed.
Print Assumptions C43_enough.
Theorem C43_refuted : exists files : list N, exists jobs, jobs <> 0 /\ jobs < len (batches files jobs).
Proof. exists [1; 2; 3; 4; 5], 2. split; [discriminate|]. vm_compute. reflexivity. Qed.
Print Assumptions C43_refuted.
Theorem C43_jobs par jobs : optimal_jobs par jobs <> 0 /\ (jobs <> 0 -> optimal_jobs par jobs = jobs) /\ (jobs = 0 -> forall n, n <> 0 -> par = Some n -> optimal_jobs par jobs = n).
Proof.
  split; [apply optimal_jobs_pos|]. unfold optimal_jobs. split; intro J.
  - now destruct (N.eqb_spec jobs 0).
  - intros n Hn ->. rewrite J. cbn. lia.
Qed.
Print Assumptions C43_jobs.
(** With the number of jobs left to the system and no answer from it, one worker gets all files. *)
Theorem C43_unknown {A} (files : list A) : files <> [] -> batches files (optimal_jobs None 0) = [files].
Proof.
  intro Ne. change (optimal_jobs None 0) with 1. destruct (batches_count files 1 ltac:(discriminate)) as (_ & _ & C & _). specialize (C (N.mod_1_r _) Ne). pose proof (batches_concat files 1) as E.
  destruct (batches files 1) as [|b [|b' l]]; [discriminate| |]. { cbn in E. rewrite app_nil_r in E. now subst. } { unfold len in C. cbn [length] in C. lia. }
Qed.
Print Assumptions C43_unknown.
Example C43_example : batches [1; 2; 3; 4; 5] 2 = [[1; 2]; [3; 4]; [5]] /\ batches [1; 2; 3] 8 = [[1]; [2]; [3]] /\ batches [1; 2; 3; 4; 5; 6] 3 = [[1; 2]; [3; 4]; [5; 6]].
Proof. split; [|split]; vm_compute; reflexivity. Qed.
