(** Line splitting and UTF-8 validation against their specification. *)
From Coq Require Import Lia.
From Verif Require Import M_Lines Spec_Lines P_Base.
Open Scope N_scope.

(** ** UTF-8 *)
Lemma in_rng_iff lo hi b : in_rng lo hi b = true <-> lo <= b <= hi.
Proof. unfold in_rng. rewrite andb_true_iff, !N.leb_le. tauto. Qed.
Lemma cont_iff b : cont b = true <-> 128 <= b <= 191.
Proof. apply in_rng_iff. Qed.
Lemma utf8_nil : utf8 []. Proof. exists []. split; [constructor|reflexivity]. Qed.
Lemma utf8_cons c s : utf8_char c -> utf8 s -> utf8 (c ++ s).
Proof. intros H (cs & A & ->). exists (c :: cs). split; [now constructor|reflexivity]. Qed.

Lemma utf8_valid_sound n : forall s, (length s <= n)%nat -> utf8_valid s = true -> utf8 s.
Proof.
  induction n as [|n IH]; intros s Hn H. { destruct s; [exact utf8_nil|cbn in Hn; lia]. }
  destruct s as [|a s1]; [exact utf8_nil|]. cbn [utf8_valid] in H. cbn [length] in Hn.
  destruct (N.ltb_spec a 128) as [A|A]. { apply (utf8_cons [a]); [constructor; lia|]. apply IH; [lia|exact H]. }
  destruct s1 as [|b s2]; [discriminate|]. cbn [length] in Hn.
  destruct (in_rng 194 223 a) eqn:R2. { apply andb_true_iff in H as [H1 H2]. rewrite in_rng_iff in R2. rewrite cont_iff in H1. apply (utf8_cons [a; b]); [now constructor|]. apply IH; [lia|exact H2]. }
  destruct s2 as [|c s3]; [discriminate|]. cbn [length] in Hn.
  destruct (in_rng 224 239 a) eqn:R3.
  { rewrite !andb_true_iff in H. destruct H as [[H1 H2] H3]. rewrite in_rng_iff in R3. rewrite cont_iff in H2. apply (utf8_cons [a; b; c]); [|apply IH; [lia|exact H3]].
    destruct (N.eqb_spec a 224) as [->|N1]; [rewrite in_rng_iff in H1; now constructor|]. destruct (N.eqb_spec a 237) as [->|N2]; [rewrite in_rng_iff in H1; now constructor|].
    rewrite cont_iff in H1. destruct (N.le_gt_cases a 236); [apply u3_ec|apply u3_ef]; auto; lia. }
  destruct s3 as [|d s4]; [discriminate|]. cbn [length] in Hn.
  rewrite !andb_true_iff in H. destruct H as [[R4 [[H1 H2] H3]] H4]. rewrite in_rng_iff in R4. rewrite cont_iff in H2, H3. apply (utf8_cons [a; b; c; d]); [|apply IH; [lia|exact H4]].
  destruct (N.eqb_spec a 240) as [->|N1]; [rewrite in_rng_iff in H1; now constructor|]. destruct (N.eqb_spec a 244) as [->|N2]; [rewrite in_rng_iff in H1; now constructor|].
  rewrite cont_iff in H1. apply u4_f1; auto; lia.
Qed.
Ltac tst := repeat match goal with
  | |- context [?a <? ?b] => destruct (N.ltb_spec a b); [try (exfalso; lia)|try (exfalso; lia)]
  | |- context [?a <=? ?b] => destruct (N.leb_spec a b); [try (exfalso; lia)|try (exfalso; lia)]
  | |- context [?a =? ?b] => destruct (N.eqb_spec a b); [try (exfalso; lia)|try (exfalso; lia)]
  end.
Lemma utf8_valid_char c s : utf8_char c -> utf8_valid (c ++ s) = utf8_valid s.
Proof.
  intro H. destruct H; cbn [app utf8_valid]; unfold cont, in_rng; tst; cbn [andb]; reflexivity.
Qed.
Lemma utf8_valid_iff s : utf8_valid s = true <-> utf8 s.
Proof.
  split; [apply (utf8_valid_sound (length s)); lia|]. intros (cs & H & ->). induction H as [|c cs Hc H IH]; [reflexivity|]. cbn [concat]. now rewrite utf8_valid_char.
Qed.
Lemma utf8_app a b : utf8 a -> utf8 b -> utf8 (a ++ b).
Proof. intros (ca & Ha & ->) (cb & Hb & ->). exists (ca ++ cb). split; [now apply Forall_app|]. now rewrite concat_app. Qed.
Lemma utf8_split c a b : c < 128 -> utf8 (a ++ c :: b) -> utf8 a /\ utf8 b.
Proof.
  intros Hc (cs & H & E). revert a E. induction H as [|x cs Hx H IH]; intros a E; [destruct a; discriminate|]. cbn [concat] in E.
  assert (B : utf8 (concat cs)) by (exists cs; auto).
  destruct Hx; cbn [app] in E; repeat (match type of E with _ ++ _ :: _ = ?h :: _ => destruct a as [|? a]; cbn [app] in E; injection E as ? E; subst end); try lia.
  all: try (split; [exact utf8_nil|]; subst; exact B).
  all: destruct (IH a E) as [A D]; (split; [|exact D]).
  - apply (utf8_cons [a0]); [now constructor|exact A].
  - apply (utf8_cons [a0; b0]); [now constructor|exact A].
  - apply (utf8_cons [224; b0; c0]); [now constructor|exact A].
  - apply (utf8_cons [a0; b0; c0]); [now apply u3_ec|exact A].
  - apply (utf8_cons [237; b0; c0]); [now constructor|exact A].
  - apply (utf8_cons [a0; b0; c0]); [now apply u3_ef|exact A].
  - apply (utf8_cons [240; b0; c0; d]); [now constructor|exact A].
  - apply (utf8_cons [a0; b0; c0; d]); [now apply u4_f1|exact A].
  - apply (utf8_cons [244; b0; c0; d]); [now constructor|exact A].
Qed.

(** ** Segments and lines *)
Lemma seg_lf l s : ~ In LF l -> segments (l ++ LF :: s) = (l ++ [LF]) :: segments s.
Proof.
  induction l as [|c l IH]; intro H; cbn [app segments]; [reflexivity|]. destruct (N.eqb_spec c LF) as [->|Nc]; [exfalso; apply H; now left|].
  rewrite IH; [reflexivity|]. intro Q. apply H. now right.
Qed.
Lemma seg_last l : l <> [] -> ~ In LF l -> segments l = [l].
Proof.
  induction l as [|c l IH]; intros N0 H; [contradiction|]. cbn [segments]. destruct (N.eqb_spec c LF) as [->|Nc]; [exfalso; apply H; now left|].
  destruct l as [|d l]; [reflexivity|]. rewrite IH; [reflexivity|discriminate|]. intro Q. apply H. now right.
Qed.
Lemma ends_cr_rev l : ends_cr l <-> exists p, rev l = CR :: p.
Proof.
  split.
  - intros (p & ->). exists (rev p). now rewrite rev_app_distr.
  - intros (p & E). exists (rev p). rewrite <- (rev_involutive l), E. reflexivity.
Qed.
Lemma chomp_lf l : ~ ends_cr l -> chomp (l ++ [LF]) = l.
Proof.
  intro H. unfold chomp. rewrite rev_app_distr. cbn [rev app]. rewrite N.eqb_refl. destruct (rev l) as [|y r] eqn:E.
  - rewrite <- (rev_involutive l), E. reflexivity.
  - destruct (N.eqb_spec y CR) as [->|Ny]; [exfalso; apply H, ends_cr_rev; eauto|]. now rewrite <- E, rev_involutive.
Qed.
Lemma chomp_crlf l : chomp (l ++ [CR; LF]) = l.
Proof. unfold chomp. rewrite rev_app_distr. cbn [rev app]. rewrite !N.eqb_refl. apply rev_involutive. Qed.
Lemma chomp_last l : ~ In LF l -> chomp l = l.
Proof.
  intro H. unfold chomp. destruct (rev l) as [|x r] eqn:E; [rewrite <- (rev_involutive l), E; reflexivity|]. destruct (N.eqb_spec x LF) as [->|Nx]; [|reflexivity].
  exfalso. apply H, in_rev. rewrite E. now left.
Qed.
Lemma not_in_app_cr l : ~ In LF l -> ~ In LF (l ++ [CR]).
Proof. intros H Q. apply in_app_or in Q as [Q|[Q|[]]]; [contradiction|discriminate]. Qed.
Lemma crlf_as_lf l s : l ++ CR :: LF :: s = (l ++ [CR]) ++ LF :: s.
Proof. now rewrite <- app_assoc. Qed.

(** [line_of seg] is the entry read from one raw segment. *)
Definition line_of (seg : list byte) : option (list byte) := if utf8_valid seg then Some (chomp seg) else None.
Lemma lines_map s : lines s = map line_of (segments s). Proof. reflexivity. Qed.
Lemma valid_lf l : utf8_valid (l ++ [LF]) = utf8_valid l.
Proof.
  apply Bool.eq_true_iff_eq. rewrite !utf8_valid_iff. split; intro H; [exact (proj1 (utf8_split LF l [] ltac:(reflexivity) H))|].
  apply utf8_app; [exact H|]. apply (utf8_cons [LF] []); [constructor; discriminate|exact utf8_nil].
Qed.
Lemma text_lines s es : text s es -> utf8 s -> lines s = map Some es.
Proof.
  induction 1 as [|l N0 H|l s es H Hc T IH|l s es H T IH]; intro U; rewrite lines_map.
  - reflexivity.
  - rewrite seg_last by assumption. cbn [map]. unfold line_of. apply utf8_valid_iff in U. now rewrite U, chomp_last.
  - rewrite seg_lf by assumption. apply utf8_split in U as [U1 U2]; [|reflexivity]. cbn [map]. unfold line_of at 1. apply utf8_valid_iff in U1. rewrite valid_lf, U1, chomp_lf by assumption.
    f_equal. exact (IH U2).
  - rewrite crlf_as_lf in *. rewrite seg_lf by now apply not_in_app_cr. apply utf8_split in U as [U1 U2]; [|reflexivity]. cbn [map]. unfold line_of at 1. apply utf8_valid_iff in U1.
    rewrite valid_lf, U1. rewrite <- app_assoc. cbn [app]. rewrite chomp_crlf. f_equal. exact (IH U2).
Qed.
Lemma text_length s es : text s es -> length (segments s) = length es.
Proof.
  induction 1 as [|l N0 H|l s es H Hc T IH|l s es H T IH].
  - reflexivity.
  - now rewrite seg_last.
  - rewrite seg_lf by assumption. cbn. now rewrite IH.
  - rewrite crlf_as_lf, seg_lf by now apply not_in_app_cr. cbn. now rewrite IH.
Qed.
Lemma text_chomp s es : text s es -> map chomp (segments s) = es.
Proof.
  induction 1 as [|l N0 H|l s es H Hc T IH|l s es H T IH].
  - reflexivity.
  - rewrite seg_last by assumption. cbn. now rewrite chomp_last.
  - rewrite seg_lf by assumption. cbn [map]. now rewrite IH, chomp_lf.
  - rewrite crlf_as_lf, seg_lf by now apply not_in_app_cr. cbn [map]. rewrite IH, <- app_assoc. cbn [app]. now rewrite chomp_crlf.
Qed.
Lemma split_lf (s : list byte) : ~ In LF s \/ exists l r, s = l ++ LF :: r /\ ~ In LF l.
Proof.
  induction s as [|c s IH]; [left; auto|]. destruct (N.eq_dec c LF) as [->|Nc]; [right; exists [], s; split; [reflexivity|auto]|].
  destruct IH as [H|(l & r & -> & H)]; [left; intros [Q|Q]; [congruence|contradiction]|right; exists (c :: l), r]. split; [reflexivity|]. intros [Q|Q]; [congruence|contradiction].
Qed.
Lemma split_cr (l : list byte) : ~ ends_cr l \/ exists p, l = p ++ [CR].
Proof.
  destruct (rev l) as [|x r] eqn:E.
  - left. intros (p & ->). rewrite rev_app_distr in E. discriminate.
  - destruct (N.eq_dec x CR) as [->|Nx]; [right; apply ends_cr_rev; eauto|left]. rewrite ends_cr_rev. intros (p & Q). rewrite E in Q. injection Q as Q _. congruence.
Qed.
Lemma text_total n : forall s, (length s <= n)%nat -> exists es, text s es.
Proof.
  induction n as [|n IH]; intros s Hn. { destruct s; [exists []; constructor|cbn in Hn; lia]. }
  destruct (split_lf s) as [H|(l & r & -> & H)].
  - destruct s as [|c s]; [exists []; constructor|exists [c :: s]; constructor; [discriminate|exact H]].
  - rewrite app_length in Hn. cbn [length] in Hn. destruct (IH r ltac:(lia)) as (es & T). destruct (split_cr l) as [Hc|(p & ->)].
    + exists (l :: es). now constructor.
    + exists (p :: es). rewrite <- app_assoc. cbn [app]. constructor; [|exact T]. intro Q. apply H, in_or_app. now left.
Qed.
Lemma segments_concat s : concat (segments s) = s.
Proof.
  induction s as [|c s IH]; [reflexivity|]. cbn [segments]. destruct (N.eqb_spec c LF) as [->|Nc]; cbn [concat app]; [now rewrite IH|].
  destruct (segments s) as [|x xs]; cbn [concat app] in *; [now rewrite <- IH|now rewrite <- IH].
Qed.
(** An invalid line is there exactly when the content is not valid UTF-8. *)
Lemma lines_invalid s : In None (lines s) <-> ~ utf8 s.
Proof.
  split.
  - intros H U. destruct (text_total _ s (le_n _)) as (es & T). rewrite (text_lines _ _ T U) in H. apply in_map_iff in H as (x & E & _). discriminate.
  - intro U. rewrite lines_map. destruct (forallb utf8_valid (segments s)) eqn:A.
    + exfalso. apply U. rewrite <- (segments_concat s). rewrite forallb_forall in A. induction (segments s) as [|x xs IH]; [exact utf8_nil|]. cbn [concat].
      apply utf8_app; [apply utf8_valid_iff, A; now left|]. apply IH. intros y Hy. apply A. now right.
    + assert (E : exists x, In x (segments s) /\ utf8_valid x = false).
      { clear U. induction (segments s) as [|x xs IH]; [discriminate|]. cbn in A. destruct (utf8_valid x) eqn:V; [|exists x; split; [now left|exact V]].
        destruct (IH A) as (y & Hy & Q). exists y. split; [now right|exact Q]. }
      destruct E as (x & Hx & V). apply in_map_iff. exists x. split; [unfold line_of; now rewrite V|exact Hx].
Qed.
(** Terminating entries with LF, or separating them with LF, and splitting again. *)
Definition clean (e : list byte) : Prop := ~ In LF e /\ ~ ends_cr e.
Lemma text_unlines es : Forall clean es -> text (concat (map (fun e => e ++ [LF]) es)) es.
Proof. induction 1 as [|e es [A B] H IH]; [constructor|]. cbn [map concat]. rewrite <- app_assoc. cbn [app]. now constructor. Qed.
Fixpoint join_lf (es : list (list byte)) : list byte :=
  match es with [] => [] | [e] => e | e :: r => e ++ LF :: join_lf r end.
Lemma text_join es : Forall clean es -> last es [LF] <> [] -> text (join_lf es) es.
Proof.
  induction 1 as [|e es [A B] H IH]; intro N0; [constructor|]. destruct es as [|e' es]; [cbn in N0; cbn; now constructor|].
  change (join_lf (e :: e' :: es)) with (e ++ LF :: join_lf (e' :: es)). apply text_lf; auto.
Qed.
(** Entries of a byte content are bytes, and valid UTF-8 when the content is. *)
Lemma text_In s es e c : text s es -> In e es -> In c e -> In c s.
Proof.
  induction 1 as [|l N0 H|l s es H Hc T IH|l s es H T IH]; intros He Hx.
  - contradiction.
  - destruct He as [<-|[]]. exact Hx.
  - apply in_or_app. destruct He as [<-|He]; [now left|right; right; auto].
  - apply in_or_app. destruct He as [<-|He]; [now left|right; right; right; auto].
Qed.
Lemma lines_In s e c : In (Some e) (lines s) -> In c e -> In c s.
Proof.
  intros H Hc. destruct (text_total _ s (le_n _)) as (es & T). apply (text_In s es e c T); [|exact Hc]. rewrite <- (text_chomp _ _ T). rewrite lines_map in H. apply in_map_iff in H as (x & E & Hx).
  unfold line_of in E. destruct (utf8_valid x); [|discriminate]. injection E as <-. apply in_map_iff. eauto.
Qed.
