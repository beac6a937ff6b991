(** C83, C84: loading through BufReader from a medium that gives short reads, is interrupted or fails. *)
From Coq Require Import Lia.
From Verif Require Import M_BufRead M_RefLibm P_Base P_BufRead Ex_Base Ex_V1.
Open Scope N_scope.

Definition stuck_at (fuel : nat) (m : medium) : Prop := (fuel <= length (md_plan m) + length (md_all m))%nat.
Definition troubled (m : medium) : Prop := ~ md_calm m \/ md_broken m = true.
Definition same_whole {A} (m : medium) (a a' : A) : Prop := a = a' /\ md_broken m = false.

Lemma start_at fuel m : len (md_all m) < two64 -> md_pos m = 0 ->
  agree (fun a a' => fst a = fst a' /\ (br_at (md_all m) (md_at (md_all m) (md_broken m)) (snd a) (r_pos (snd a')) /\ (br_mu md_mu (snd a) <= length (md_plan m))%nat /\ (md_calm m -> br_calm md_calm (snd a))) /\ r_all (snd a') = md_all m)
    (troubled m) (stuck_at fuel m) (g_flags (br_if fuel (md_ops fuel)) (br_new m)) (Some (read_flags (reader_of (md_all m)))).
Proof.
  intros Hl Hp. rewrite <- io_flags. refine (g_flags_agree _ _ _ _ _ _ _ (reader_of (md_all m)) (br_isim _ _ _ fuel _ _ _ (length (md_plan m)) (md_calm m) (md_sim (md_all m) (md_broken m) fuel)) _ eq_refl).
  split; [|split; [unfold br_mu, md_mu; cbn; lia|easy]]. apply br_at_new. cbn [r_pos reader_of]. repeat split; auto.
Qed.
Lemma second_sim fuel m : isim (br_if fuel (br_ops (md_ops fuel))) (md_all m) (troubled m) (stuck_at fuel m) (md_broken m = false)
  (fun b p => br_at (md_all m) (br_at (md_all m) (md_at (md_all m) (md_broken m))) b p /\ (br_mu (br_mu md_mu) b <= length (md_plan m))%nat /\ (md_calm m -> br_calm (br_calm md_calm) b)).
Proof. exact (br_isim _ _ _ fuel _ _ _ (length (md_plan m)) (md_calm m) (br_sim _ _ _ _ _ _ _ (md_sim (md_all m) (md_broken m) fuel))). Qed.
Lemma v1_core fuel pr m partial : len (md_all m) < two64 -> md_pos m = 0 ->
  agree (same_whole m) (troubled m) (stuck_at fuel m) (buf_v1 fuel pr m partial) (Some (v1_from_reader_partial pr (md_all m) partial)).
Proof.
  intros Hl Hp. unfold buf_v1, v1_from_reader_partial. rewrite <- (sbind_ext _ (fun a => let '(fl, r) := a in if negb (fl_version fl =? 1) then Some (Err (InvalidVersion (fl_version fl))) else g_v1 io_if pr r fl partial)).
  - eapply agree_bind; [now apply start_at|]. intros [fl a] [fl' r] (E & (A & M & K) & Er). cbn [fst snd] in *. subst fl'. destruct (negb (fl_version fl =? 1)); [reflexivity|].
    apply (g_v1_agree _ _ _ _ _ _ pr _ r fl partial (second_sim fuel m)); [|exact Er]. split; [now apply br_at_new|]. split; [exact M|exact K].
  - intros [fl r]. destruct (negb _); [reflexivity|apply io_v1].
Qed.
Lemma v2_core fuel pr m partial : len (md_all m) < two64 -> md_pos m = 0 ->
  agree (same_whole m) (troubled m) (stuck_at fuel m) (buf_v2 fuel pr m partial) (Some (v2_from_reader_partial pr (md_all m) partial)).
Proof.
  intros Hl Hp. unfold buf_v2, v2_from_reader_partial. rewrite <- (sbind_ext _ (fun a => let '(fl, r) := a in if negb (fl_version fl =? 2) then Some (Err (InvalidVersion (fl_version fl))) else g_v2 io_if pr r fl partial)).
  - eapply agree_bind; [now apply start_at|]. intros [fl a] [fl' r] (E & (A & M & K) & Er). cbn [fst snd] in *. subst fl'. destruct (negb (fl_version fl =? 2)); [reflexivity|].
    apply (g_v2_agree _ _ _ _ _ _ pr _ r fl partial (second_sim fuel m)); [|exact Er]. split; [now apply br_at_new|]. split; [exact M|exact K].
  - intros [fl r]. destruct (negb _); [reflexivity|apply io_v2].
Qed.
Lemma load_core fuel pr m partial : len (md_all m) < two64 -> md_pos m = 0 ->
  agree (same_whole m) (troubled m) (stuck_at fuel m) (buf_load fuel pr m partial) (Some (bf_from_reader_partial pr (md_all m) partial)).
Proof.
  intros Hl Hp. unfold buf_load, bf_from_reader_partial. rewrite <- (sbind_ext _ (fun a => let '(fl, r) := a in
    if fl_version fl =? 1 then let! f := g_v1 io_if pr r fl partial in Some (Ok (V1 f)) else if fl_version fl =? 2 then let! f := g_v2 io_if pr r fl partial in Some (Ok (V2 f)) else Some (Err (InvalidVersion (fl_version fl))))).
  - eapply agree_bind; [now apply start_at|]. intros [fl a] [fl' r] (E & (A & M & K) & Er). cbn [fst snd] in *. subst fl'. destruct (fl_version fl =? 1); [|destruct (fl_version fl =? 2); [|reflexivity]].
    + eapply agree_bind; [apply (g_v1_agree _ _ _ _ _ _ pr _ r fl partial (second_sim fuel m)); [|exact Er]; split; [now apply br_at_new|]; split; [exact M|exact K]|]. intros f f' (<- & W). now apply agree_ret.
    + eapply agree_bind; [apply (g_v2_agree _ _ _ _ _ _ pr _ r fl partial (second_sim fuel m)); [|exact Er]; split; [now apply br_at_new|]; split; [exact M|exact K]|]. intros f f' (<- & W). now apply agree_ret.
  - intros [fl r]. destruct (fl_version fl =? 1); [|destruct (fl_version fl =? 2); [|reflexivity]]; rewrite ?io_v1, ?io_v2; now apply sbind_ext.
Qed.

(** ** C83: how the bytes arrive does not matter *)
(** Short reads and interruptions, however many: the answer is that for the content. *)
Lemma agree_calm {A} m fuel (x : option (outcome A)) y : ~ In Fail (md_plan m) -> md_broken m = false -> (length (md_plan m) + length (md_all m) < fuel)%nat -> agree (same_whole m) (troubled m) (stuck_at fuel m) x (Some y) -> x = Some y.
Proof.
  intros C B F H. assert (T : ~ troubled m) by (unfold troubled, md_calm; rewrite B; intros [Q|Q]; [now apply Q|discriminate]). unfold stuck_at in H. destruct x as [[a|e|]|]; cbn [agree] in H; [|destruct e; try congruence; destruct H; [contradiction|congruence]|congruence|lia].
  destruct H as (a' & E & -> & _). now symmetry.
Qed.
Theorem C83_load fuel pr m partial : len (md_all m) < two64 -> md_pos m = 0 -> md_broken m = false -> ~ In Fail (md_plan m) -> (length (md_plan m) + length (md_all m) < fuel)%nat ->
  buf_load fuel pr m partial = Some (bf_from_reader_partial pr (md_all m) partial).
Proof. intros Hl Hp Hb Hf Hn. eapply agree_calm; eauto. now apply load_core. Qed.
Print Assumptions C83_load.
Theorem C83_v1 fuel pr m partial : len (md_all m) < two64 -> md_pos m = 0 -> md_broken m = false -> ~ In Fail (md_plan m) -> (length (md_plan m) + length (md_all m) < fuel)%nat ->
  buf_v1 fuel pr m partial = Some (v1_from_reader_partial pr (md_all m) partial).
Proof. intros Hl Hp Hb Hf Hn. eapply agree_calm; eauto. now apply v1_core. Qed.
Print Assumptions C83_v1.
Theorem C83_v2 fuel pr m partial : len (md_all m) < two64 -> md_pos m = 0 -> md_broken m = false -> ~ In Fail (md_plan m) -> (length (md_plan m) + length (md_all m) < fuel)%nat ->
  buf_v2 fuel pr m partial = Some (v2_from_reader_partial pr (md_all m) partial).
Proof. intros Hl Hp Hb Hf Hn. eapply agree_calm; eauto. now apply v2_core. Qed.
Print Assumptions C83_v2.

(** ** C84: failures *)
(** Whatever fails, the answer is IoError or that for the content; in particular a filter that is returned is the one in the content. *)
Theorem C84_load fuel pr m partial : len (md_all m) < two64 -> md_pos m = 0 -> (length (md_plan m) + length (md_all m) < fuel)%nat ->
  buf_load fuel pr m partial = Some (Err IoError) \/ buf_load fuel pr m partial = Some (bf_from_reader_partial pr (md_all m) partial).
Proof.
  intros Hl Hp Hn. pose proof (load_core fuel pr m partial Hl Hp) as H. destruct (buf_load fuel pr m partial) as [[a|e|]|]; cbn [agree] in H.
  - destruct H as (a' & E & -> & _). right. now symmetry.
  - destruct e; try (right; now symmetry). now left.
  - right. now symmetry.
  - unfold stuck_at in H. lia.
Qed.
Print Assumptions C84_load.
(** A medium that breaks off, wherever, never gives a filter, even if the bytes before are a complete file. *)
Theorem C84_broken fuel pr m partial f : len (md_all m) < two64 -> md_pos m = 0 -> md_broken m = true -> buf_load fuel pr m partial <> Some (Ok f).
Proof. intros Hl Hp Hb E. pose proof (load_core fuel pr m partial Hl Hp) as H. rewrite E in H. destruct H as (f' & _ & _ & W). congruence. Qed.
Print Assumptions C84_broken.

(** A v1 filter of three entries: its file has 56 bytes. *)
Definition a3_file : list byte := Eval vm_compute in v1_write a3.
Definition a3_medium (plan : list step) (broken : bool) : medium := {| md_all := a3_file; md_pos := 0; md_plan := plan; md_broken := broken |}.
(** Byte by byte at first, with interruptions, then in larger pieces. *)
Example C83_example : len a3_file = 56 /\ v1_from_reader Debug a3_file = Ok a3 /\
  buf_load 100 Debug (a3_medium [Short 1; Short 1; Interrupt; Short 3; Interrupt; Interrupt; Short 0; Short 20] false) false = Some (Ok (V1 a3)).
Proof. split; [reflexivity|]. split; vm_compute; reflexivity. Qed.
(** A failure in the middle, a failure after the last byte is asked for, and a medium that breaks off after the last byte. *)
Example C84_example :
  buf_load 100 Debug (a3_medium [Short 30; Fail] false) false = Some (Err IoError) /\
  buf_load 100 Debug (a3_medium [Short 30; Short 26; Short 1; Fail] false) false = Some (Ok (V1 a3)) /\
  buf_load 100 Debug (a3_medium [] true) false = Some (Err IoError).
Proof. repeat split; vm_compute; reflexivity. Qed.
