(** C85: reading lines from a medium that gives short reads, is interrupted or fails. *)
From Coq Require Import Lia.
From Verif Require Import M_BufRead P_Base P_BufRead P_BufLines.
Open Scope N_scope.

Lemma medium_at m : len (md_all m) < two64 -> md_pos m = 0 -> br_at (md_all m) (md_at (md_all m) (md_broken m)) (br_new m) 0.
Proof. intros Hl Hp. apply br_at_new. repeat split; auto. Qed.
Lemma fail_in l : ~ ~ In Fail l -> In Fail l.
Proof. intros H. induction l as [|a l IH]; [now destruct H|]. destruct a; try (right; apply IH; intros G; apply H; intros [E|E]; [discriminate|contradiction]). now left. Qed.
(** Short reads and interruptions do not matter: the lines are those of the content, and so is their number. *)
Theorem C85_lines n fuel m : len (md_all m) < two64 -> md_pos m = 0 -> md_broken m = false -> ~ In Fail (md_plan m) ->
  (length (md_plan m) + length (md_all m) < fuel)%nat -> (length (md_all m) < n)%nat ->
  br_lines n fuel (md_ops fuel) (br_new m) = Some (lines (md_all m)) /\ buf_count n fuel m = Some (len (lines (md_all m))).
Proof.
  intros Hl Hp Hb Hf Hn Hm. assert (E : br_lines n fuel (md_ops fuel) (br_new m) = Some (lines (md_all m))).
  { pose proof (medium_at m Hl Hp) as A. rewrite Hb in A. exact (lines_sim _ _ fuel _ _ _ fuel (md_sim (md_all m) false fuel) n _ 0 A Hf Hn Hm). }
  split; [exact E|]. unfold buf_count. now rewrite E.
Qed.
Print Assumptions C85_lines.
(** The loops with [line?]: they come to the end only if nothing failed, with all lines of the content; otherwise what they handled
    are the first lines of the content, and they stopped because of a failure or because the next line is not UTF-8. *)
Theorem C85_each n fuel m : len (md_all m) < two64 -> md_pos m = 0 -> (length (md_plan m) + length (md_all m) < fuel)%nat -> (length (md_all m) < n)%nat ->
  exists ls, (buf_each n fuel m = Some (ls, true) /\ md_broken m = false /\ lines (md_all m) = map Some ls) \/
  (buf_each n fuel m = Some (ls, false) /\ exists l, lines (md_all m) = map Some ls ++ l /\ (In Fail (md_plan m) \/ md_broken m = true \/ exists l', l = None :: l')).
Proof.
  intros Hl Hp Hn Hm. pose proof (each_sim _ _ _ fuel _ _ _ fuel (md_sim (md_all m) (md_broken m) fuel) n _ 0 (medium_at m Hl Hp)) as H. unfold buf_each. destruct (br_each n fuel (md_ops fuel) (br_new m)) as [[ls [|]]|].
  - exists ls. left. destruct H as [H B]. auto.
  - exists ls. right. split; [reflexivity|]. destruct H as (l & E & H). exists l. split; [exact E|]. destruct H as [H|H]; [left; now apply fail_in|now right].
  - destruct H as [H|H]; [|unfold br_mu, md_mu in H; cbn [br_in br_new] in H]; exfalso; change (rest (md_all m) 0) with (md_all m) in *; lia.
Qed.
Print Assumptions C85_each.
(** Failures while counting make the count larger, never smaller: no line is missed. *)
Theorem C85_count_least n fuel m k : len (md_all m) < two64 -> md_pos m = 0 -> buf_count n fuel m = Some k -> len (lines (md_all m)) <= k.
Proof.
  intros Hl Hp. unfold buf_count. destruct (br_lines n fuel (md_ops fuel) (br_new m)) as [l|] eqn:E; [|discriminate]. intro Q. injection Q as <-.
  pose proof (lines_least _ _ _ fuel _ _ _ fuel (md_sim (md_all m) (md_broken m) fuel) n _ 0 _ (medium_at m Hl Hp) E) as H. change (rest (md_all m) 0) with (md_all m) in H. unfold lines, len. rewrite map_length. lia.
Qed.
Print Assumptions C85_count_least.
(** A file whose reading fails for good, as that of a directory does: counting its lines never ends, whatever came before. *)
Theorem C85_broken_count n fuel m : len (md_all m) < two64 -> md_pos m = 0 -> md_broken m = true -> buf_count n fuel m = None.
Proof.
  intros Hl Hp Hb. unfold buf_count. pose proof (medium_at m Hl Hp) as A. rewrite Hb in A. now rewrite (lines_broken _ _ fuel _ _ _ fuel (md_sim (md_all m) true fuel) n _ 0 A).
Qed.
Print Assumptions C85_broken_count.
(** Full statement: counting ends for every file that can be opened. *)
Theorem C85_refuted : exists m, md_pos m = 0 /\ md_all m = [] /\ (exists fuel n, buf_each n fuel m = Some ([], false)) /\ forall n fuel, buf_count n fuel m = None.
Proof.
  exists {| md_all := []; md_pos := 0; md_plan := []; md_broken := true |}. split; [reflexivity|]. split; [reflexivity|]. split; [exists 1%nat, 1%nat; reflexivity|]. intros n fuel. now apply C85_broken_count.
Qed.
Print Assumptions C85_refuted.
(** "ab", CR, LF, "c", LF, LF, "d" in pieces; and the same with a failure after the first line. *)
Definition ex_text : list byte := [97; 98; 13; 10; 99; 10; 10; 100].
Example C85_example : lines ex_text = [Some [97; 98]; Some [99]; Some []; Some [100]] /\
  buf_count 20 20 {| md_all := ex_text; md_pos := 0; md_plan := [Short 1; Interrupt; Short 2; Short 1; Interrupt; Short 3]; md_broken := false |} = Some 4 /\
  buf_count 20 20 {| md_all := ex_text; md_pos := 0; md_plan := [Short 1; Fail; Short 2]; md_broken := false |} = Some 5 /\
  buf_each 20 20 {| md_all := ex_text; md_pos := 0; md_plan := [Short 3; Short 2; Fail]; md_broken := false |} = Some ([[97; 98]], false) /\
  buf_each 20 20 {| md_all := ex_text; md_pos := 0; md_plan := []; md_broken := true |} = Some ([[97; 98]; [99]; []], false).
Proof. repeat split; vm_compute; reflexivity. Qed.
