(** The check command. *)
From Coq Require Import Lia Permutation.
From Verif Require Import M_Cli Spec_Bits Spec_Hash Spec_V2 Spec_V1 Spec_Bloom Spec_Lines Spec_Cli P_Base P_V1 P_V2Props P_Codec P_Bloom P_Lines P_Batch P_Par.
Open Scope N_scope.

Lemma bf_contains_total wy f d : bf_wf f -> bf_usable f -> bytes_ok d -> bf_contains_bytes wy f d = Ok (contained wy f d).
Proof.
  intros W U B. unfold contained. assert (H : bf_contains_bytes wy f d = Ok true \/ bf_contains_bytes wy f d = Ok false).
  { destruct f as [f|f]; cbn in *; [exact (v1_contains_bool f d W U)|exact (contains_total wy f (KSlice d) W U B)]. }
  now destruct H as [-> | ->].
Qed.
Lemma answer_app wy f a x y : answer wy f a (x ++ y) = answer wy f a x ++ answer wy f a y.
Proof. unfold answer. destruct (ka_verify a), (ka_silent a); rewrite ?filter_app, ?map_app; reflexivity. Qed.
Lemma answer_concat wy f a lss : answer wy f a (concat lss) = concat (map (answer wy f a) lss).
Proof. induction lss as [|l lss IH]; [unfold answer; now destruct (ka_verify a), (ka_silent a)|]. cbn [concat map]. now rewrite answer_app, IH. Qed.
Lemma check_line_answer wy f a d : bf_wf f -> bf_usable f -> bytes_ok d -> check_line wy f a d = Ok (answer wy f a [d]).
Proof.
  intros W U B. unfold check_line, answer. rewrite (bf_contains_total wy f d W U B). cbn [obind filter]. destruct (contained wy f d), (ka_verify a), (ka_silent a); reflexivity.
Qed.
Lemma check_lines_answer wy f a bad es : bf_wf f -> bf_usable f -> Forall bytes_ok es -> check_lines wy f a bad (map Some es) = (answer wy f a es, Ok tt).
Proof.
  intros W U. induction 1 as [|d es Hd B IH]; cbn [map check_lines].
  - unfold answer. now destruct (ka_verify a), (ka_silent a).
  - rewrite (check_line_answer wy f a d W U Hd), IH. now rewrite <- (answer_app wy f a [d] es).
Qed.
Lemma check_worker_answer wy w f a batch ls : bf_wf f -> bf_usable f -> fs_bytes w -> file_lines w batch ls -> check_worker wy w f a batch = (answer wy f a ls, Ok tt).
Proof.
  intros W U B. induction 1 as [|p c es r ls E V T H IH]; cbn [check_worker].
  - unfold answer. now destruct (ka_verify a), (ka_silent a).
  - unfold fs_open. rewrite E, (text_lines _ _ T V). assert (Be : Forall bytes_ok es).
    { pose proof (file_lines_bytes w [p] (es ++ []) B (fl_cons w p c es [] [] E V T (fl_nil w))) as Q. now rewrite app_nil_r in Q. }
    rewrite (check_lines_answer wy f a _ es W U Be), IH. now rewrite answer_app.
Qed.
Lemma check_worker_bad wy w f a batch p : In p batch -> bad_file w p -> snd (check_worker wy w f a batch) <> Ok tt.
Proof.
  induction batch as [|q batch IH]; intros Hp Q; [contradiction|]. cbn [check_worker]. unfold fs_open. destruct (w q) as [c|] eqn:E; [|discriminate].
  destruct (check_lines wy f a (Err IoError) (lines c)) as [out r] eqn:C. destruct r as [[]|e|]; [|discriminate..]. destruct (check_worker wy w f a batch) as [out' r'] eqn:R. cbn [snd] in *.
  destruct Hp as [->|Hp]; [|now apply IH]. exfalso. destruct Q as [Q|(c' & E' & Q)]; [congruence|]. rewrite E in E'. injection E' as <-. apply lines_invalid in Q.
  clear -C Q. revert out C Q. induction (lines c) as [|[d|] l IH]; intros out C Q; [contradiction| |cbn in C; congruence]. cbn [check_lines] in C. destruct Q as [Q|Q]; [discriminate|].
  destruct (check_line wy f a d) as [o|e|]; [|congruence..]. destruct (check_lines wy f a (Err IoError) l) as [o' r']. injection C as _ ->. exact (IH _ eq_refl Q).
Qed.
Lemma check_line_right wy f a d out x : check_line wy f a d = Ok out -> In x out -> right wy f a [d] x.
Proof.
  unfold check_line. destruct (bf_contains_bytes wy f d) as [[|]|e|] eqn:C; cbn [obind]; [| |discriminate..]; destruct (ka_verify a) eqn:V, (ka_silent a) eqn:S; cbn; intro E; injection E as <-; intros [];
    try contradiction; subst; cbn; auto.
Qed.
Lemma right_weaken wy f a ls ls' x : right wy f a ls x -> (forall d, In d ls -> In d ls') -> right wy f a ls' x.
Proof. destruct x; cbn; intros (A & B) H; split; auto. Qed.
Lemma check_lines_right wy f a bad l : forall x, In x (fst (check_lines wy f a bad l)) -> exists d, In (Some d) l /\ right wy f a [d] x.
Proof.
  induction l as [|[d|] l IH]; intros x H; cbn [check_lines] in H; [contradiction| |contradiction]. destruct (check_line wy f a d) as [o|e|] eqn:C; [|contradiction..].
  destruct (check_lines wy f a bad l) as [o' r]. cbn [fst] in *. apply in_app_or in H as [H|H].
  - exists d. split; [now left|]. exact (check_line_right _ _ _ _ _ _ C H).
  - destruct (IH x H) as (d' & Hd & R). exists d'. split; [now right|exact R].
Qed.
Lemma check_worker_right wy w f a batch : forall x, In x (fst (check_worker wy w f a batch)) -> exists p c d, In p batch /\ w p = Some c /\ In (Some d) (lines c) /\ right wy f a [d] x.
Proof.
  induction batch as [|p batch IH]; intros x H; cbn [check_worker] in H; [contradiction|]. unfold fs_open in H. destruct (w p) as [c|] eqn:E; [|contradiction].
  destruct (check_lines wy f a (Err IoError) (lines c)) as [out r] eqn:C. assert (A : In x out -> exists p0 c0 d, In p0 (p :: batch) /\ w p0 = Some c0 /\ In (Some d) (lines c0) /\ right wy f a [d] x).
  { intro Q. destruct (check_lines_right wy f a (Err IoError) (lines c) x) as (d & Hd & R); [now rewrite C|]. exists p, c, d. split; [now left|]. auto. }
  destruct r as [[]|e|]; [|exact (A H)..]. destruct (check_worker wy w f a batch) as [out' r']. cbn [fst] in *. apply in_app_or in H as [H|H]; [exact (A H)|].
  destruct (IH x H) as (p' & c' & d & Hp & R). exists p', c', d. split; [now right|exact R].
Qed.

(** ** Interleavings *)
Lemma interleave_perm {A} (ls : list (list A)) out : interleave ls out -> Permutation (concat ls) out.
Proof.
  induction 1 as [ls H|a x l b out H IH].
  - induction H as [|l ls -> H IH]; [constructor|exact IH].
  - rewrite concat_app in *. cbn [concat app] in *. apply Permutation_sym, Permutation_cons_app, Permutation_sym. exact IH.
Qed.
Lemma interleave_concat {A} (ls : list (list A)) : interleave ls (concat ls).
Proof.
  assert (G : forall n (pre ls : list (list A)), (length (concat ls) + length ls <= n)%nat -> Forall (fun l => l = []) pre -> interleave (pre ++ ls) (concat ls)).
  { induction n as [|n IH]; intros pre l Hn F.
    - destruct l as [|x l]; [|cbn in Hn; lia]. constructor. now rewrite app_nil_r.
    - destruct l as [|[|x h] l]; [constructor; now rewrite app_nil_r| |].
      + cbn [concat app]. change (pre ++ [] :: l) with (pre ++ [[]] ++ l). rewrite app_assoc. apply IH; [cbn in Hn; lia|]. apply Forall_app. split; [exact F|]. now constructor.
      + cbn [concat app]. apply il_pick. apply (IH pre (h :: l)); [cbn in *; lia|exact F]. }
  exact (G _ [] ls (le_n _) (Forall_nil _)).
Qed.
Lemma interleave_In {A} (ls : list (list A)) out x : interleave ls out -> In x out -> exists l, In l ls /\ In x l.
Proof. intros H Hx. apply (Permutation_in _ (Permutation_sym (interleave_perm _ _ H))) in Hx. apply in_concat in Hx as (l & Hl & Hx). eauto. Qed.
Lemma interleave_subseq {A} (ls : list (list A)) out : interleave ls out -> forall l, In l ls -> subseq l out.
Proof.
  induction 1 as [ls H|a x l b out H IH]; intros k Hk.
  - rewrite Forall_forall in H. rewrite (H k Hk). constructor.
  - apply in_app_or in Hk as [Hk|[<-|Hk]].
    + apply sub_skip, IH, in_or_app. now left.
    + apply sub_take, IH, in_or_app. right. now left.
    + apply sub_skip, IH, in_or_app. right. now right.
Qed.

(** ** check on files *)
Lemma join_units_ok l : join_units l = Ok tt <-> forall r, In r l -> r = Ok tt.
Proof.
  induction l as [|r l IH]; cbn; [split; [intros _ r []|reflexivity]|]. fold (join_units l). destruct r as [[]|e|].
  - rewrite IH. split; [intros H r [<-|Hr]; auto|auto].
  - split; [discriminate|]. intro H. exact (H _ (or_introl eq_refl)).
  - split; [discriminate|]. intro H. exact (H _ (or_introl eq_refl)).
Qed.
Lemma check_files_run wy w f a jobs ls out r : bf_wf f -> bf_usable f -> fs_bytes w -> file_lines w (ka_inputs a) ls -> jobs <> 0 -> check_files wy w f a jobs out r ->
  r = Ok tt /\ exists lss, Forall2 (file_lines w) (batches (ka_inputs a) jobs) lss /\ ls = concat lss /\ interleave (map (answer wy f a) lss) out.
Proof.
  intros W U B F J H. assert (X : exists lss, ls = concat lss /\ Forall2 (file_lines w) (batches (ka_inputs a) jobs) lss) by (apply batches_file_lines; now rewrite batches_concat).
  destruct X as (lss & -> & F2). assert (M : map (check_worker wy w f a) (batches (ka_inputs a) jobs) = map (fun l => (answer wy f a l, Ok tt)) lss).
  { clear -W U B F2. induction F2 as [|b l bs lss Fb F2 IH]; [reflexivity|]. cbn [map]. now rewrite IH, (check_worker_answer wy w f a b l W U B Fb). }
  destruct H as [E|E E'|outs out Ne Nz ws res C I].
  - split; [reflexivity|]. exists lss. split; [exact F2|]. split; [reflexivity|]. rewrite E in F2. inversion F2. constructor. constructor.
  - contradiction.
  - unfold res, ws in *. rewrite M in *. rewrite !map_map in *. cbn [fst snd] in *. assert (R : join_units (map (fun _ : list (list N) => Ok tt) lss) = Ok tt).
    { apply join_units_ok. intros r Hr. apply in_map_iff in Hr as (? & <- & _). reflexivity. }
    rewrite R in *. split; [reflexivity|]. exists lss. split; [exact F2|]. split; [reflexivity|]. rewrite C in I. exact I.
Qed.
Lemma check_files_exists wy w f a jobs : exists out r, check_files wy w f a jobs out r.
Proof.
  destruct (ka_inputs a) as [|p r] eqn:E; [exists [], (Ok tt); now constructor|]. destruct (N.eq_dec jobs 0) as [J|J]; [exists [], Panic; constructor 2; [now rewrite E|exact J]|].
  assert (Ne : ka_inputs a <> []) by (rewrite E; discriminate). set (ws := map (check_worker wy w f a) (batches (ka_inputs a) jobs)). exists (concat (map fst ws)), (join_units (map snd ws)).
  apply (cf_run wy w f a jobs (map fst ws) (concat (map fst ws)) Ne J); [|apply interleave_concat]. fold ws. destruct (join_units (map snd ws)); [reflexivity| |]; clear; induction ws as [|x ws IH]; constructor; auto; exists []; now rewrite app_nil_r.
Qed.
Lemma check_files_bad wy w f a jobs out r p : check_files wy w f a jobs out r -> In p (ka_inputs a) -> bad_file w p -> r <> Ok tt.
Proof.
  intros H Hp Q. destruct H as [E|E E'|outs out Ne Nz ws res C I]; [rewrite E in Hp; contradiction|discriminate|]. destruct (batches_cover _ jobs _ Hp) as (b & Hb & Hpb). unfold res. intro R.
  rewrite join_units_ok in R. apply (check_worker_bad wy w f a b p Hpb Q). apply R. apply in_map, in_map. exact Hb.
Qed.
Lemma check_files_right wy w f a jobs out r x : check_files wy w f a jobs out r -> In x out -> exists p c d, In p (ka_inputs a) /\ w p = Some c /\ In (Some d) (lines c) /\ right wy f a [d] x.
Proof.
  intros H Hx. destruct H as [E|E E'|outs out Ne Nz ws res C I]; [contradiction|contradiction|]. destruct (interleave_In _ _ _ I Hx) as (o & Ho & Hxo).
  assert (G : exists o', In o' (map fst ws) /\ In x o').
  { destruct res; [subst outs; eauto| |]; (clear -C Ho Hxo; induction C as [|o1 o2 os1 os2 (rest & E) C IH]; [contradiction|]; destruct Ho as [->|Ho];
      [exists o2; split; [now left|]; rewrite E; apply in_or_app; now left|destruct (IH Ho) as (o' & A & B); exists o'; split; [now right|exact B]]). }
  destruct G as (o' & Ho' & Hx'). unfold ws in Ho'. rewrite map_map in Ho'. apply in_map_iff in Ho' as (b & <- & Hb). destruct (check_worker_right wy w f a b x Hx') as (p & c & d & Hp & R).
  exists p, c, d. split; [exact (batches_In _ _ _ _ Hb Hp)|exact R].
Qed.
