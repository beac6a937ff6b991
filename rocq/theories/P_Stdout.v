(** Standard output that can fail (M_Stdout). *)
From Coq Require Import Lia.
From Verif Require Import M_Stdout P_Base P_Check.
Open Scope N_scope.

(** The bytes of a printed line. *)
Definition shown_bytes (x : printed) : list byte := match x with Plain l => l ++ [10] | Nok l => l ++ [58; 32; 78; 79; 75; 10] end.
Definition output (out : list printed) : list byte := concat (map shown_bytes out).
(** The descriptor is open for writing. *)
Definition writable (s : script) : Prop := forall t, s t <> Closed.
(** From the call [t] on every write fails. *)
Definition dead_from (s : script) (t : nat) : Prop := forall t', (t <= t')%nat -> s t' = Takes 0.

(** [b] was handed over: if that went well all bytes so far have arrived or are buffered, else those that have are the first ones. *)
Record puts (s : script) (o : stdout) (b : list byte) (o' : stdout) (ok : bool) : Prop := {
  pu_more : exists x, so_got o' = so_got o ++ x;
  pu_calls : (so_calls o <= so_calls o')%nat;
  pu_all : if ok then so_got o' ++ so_buf o' = so_got o ++ so_buf o ++ b else exists r, so_got o ++ so_buf o ++ b = so_got o' ++ so_buf o' ++ r;
  pu_dead : dead_from s (so_calls o) -> so_got o' = so_got o;
  pu_fail : ok = false -> exists t, (t < so_calls o')%nat /\ s t = Takes 0
}.
Lemma raw_loop_spec s : writable s -> forall fuel o b, (length b <= fuel)%nat -> forall o' rest ok, raw_loop fuel s o b = (o', rest, ok) ->
  so_buf o' = so_buf o /\ (exists x, b = x ++ rest /\ so_got o' = so_got o ++ x) /\ (so_calls o <= so_calls o')%nat /\ (ok = true -> rest = []) /\
  (dead_from s (so_calls o) -> so_got o' = so_got o) /\ (ok = false -> exists t, (t < so_calls o')%nat /\ s t = Takes 0).
Proof.
  intro W. induction fuel as [|fuel IH]; intros o b Hb o' rest ok H.
  - destruct b as [|c b]; [|cbn in Hb; lia]. cbn in H. injection H as <- <- <-. repeat split; auto; try discriminate. exists []. split; [reflexivity|now rewrite app_nil_r].
  - destruct b as [|c b]; [cbn in H; injection H as <- <- <-; repeat split; auto; try discriminate; exists []; split; [reflexivity|now rewrite app_nil_r]|]. cbn [raw_loop] in H.
    destruct (s (so_calls o)) as [n|] eqn:E; [|now apply W in E]. destruct (N.eqb_spec n 0) as [->|Hn].
    + injection H as <- <- <-. cbn. repeat split; auto; try discriminate. { exists []. split; [reflexivity|now rewrite app_nil_r]. } intros _. exists (so_calls o). auto.
    + apply IH in H as (H1 & (x & Hx & Hg) & H3 & H4 & H5 & H6); [|rewrite skipn_length; cbn [length] in *; lia]. cbn [so_buf so_got so_calls] in *. split; [exact H1|]. split.
      { exists (firstn (N.to_nat n) (c :: b) ++ x). rewrite <- app_assoc, <- Hx, firstn_skipn. split; [reflexivity|]. now rewrite Hg, app_assoc. }
      split; [lia|]. split; [exact H4|]. split; [|exact H6]. intro D. rewrite (D (so_calls o) (le_n _)) in E. injection E as <-. contradiction.
Qed.
Lemma raw_spec s o b o' rest ok : writable s -> raw_write_all s o b = (o', rest, ok) ->
  so_buf o' = so_buf o /\ (exists x, b = x ++ rest /\ so_got o' = so_got o ++ x) /\ (so_calls o <= so_calls o')%nat /\ (ok = true -> rest = []) /\
  (dead_from s (so_calls o) -> so_got o' = so_got o) /\ (ok = false -> exists t, (t < so_calls o')%nat /\ s t = Takes 0).
Proof. intros W H. exact (raw_loop_spec s W _ _ _ (le_n _) _ _ _ H). Qed.
Lemma puts_raw s o b o' rest ok : writable s -> so_buf o = [] -> raw_write_all s o b = (o', rest, ok) -> puts s o b o' ok /\ so_buf o' = [].
Proof.
  intros W B H. apply raw_spec in H as (H1 & (x & Hx & Hg) & H3 & H4 & H5 & H6); [|exact W]. split; [|congruence]. constructor; auto; [eauto|]. rewrite H1, B, Hg. cbn [app].
  destruct ok; [rewrite (H4 eq_refl), app_nil_r in Hx; subst; now rewrite app_nil_r|]. exists rest. now rewrite Hx, app_assoc.
Qed.
Lemma puts_flush s o o' ok : writable s -> so_flush s o = (o', ok) -> puts s o [] o' ok /\ (ok = true -> so_buf o' = []).
Proof.
  intros W H. unfold so_flush in H. destruct (raw_write_all s o (so_buf o)) as [[o1 rest] ok1] eqn:E. injection H as <- <-. apply raw_spec in E as (H1 & (x & Hx & Hg) & H3 & H4 & H5 & H6); [|exact W].
  split; [|exact H4]. constructor; cbn [so_got so_calls so_buf so_with_buf]; auto; [eauto|]. rewrite app_nil_r, Hg, Hx. destruct ok1; [now rewrite <- app_assoc|]. exists []. now rewrite app_nil_r, <- app_assoc.
Qed.
Lemma puts_trans s o a o1 b o2 ok : puts s o a o1 true -> puts s o1 b o2 ok -> puts s o (a ++ b) o2 ok.
Proof.
  intros [(x & M1) C1 A1 D1 F1] [(y & M2) C2 A2 D2 F2]. constructor; auto.
  - exists (x ++ y). now rewrite M2, M1, app_assoc.
  - lia.
  - replace (so_got o ++ so_buf o ++ a ++ b) with (so_got o1 ++ so_buf o1 ++ b) by (rewrite app_assoc, A1, <- !app_assoc; reflexivity). exact A2.
  - intro D. rewrite D2; [exact (D1 D)|]. intros t Ht. apply D. lia.
Qed.
Lemma puts_stop s o a o1 b : puts s o a o1 false -> puts s o (a ++ b) o1 false.
Proof. intros [M C (r & A) D F]. constructor; auto. exists (r ++ b). transitivity ((so_got o ++ so_buf o ++ a) ++ b); [now rewrite <- !app_assoc|]. rewrite A. now rewrite <- !app_assoc. Qed.
Lemma puts_nil s o : puts s o [] o true.
Proof. constructor; auto; [exists []; now rewrite app_nil_r|now rewrite app_nil_r|discriminate]. Qed.
Lemma puts_append s o b : puts s o b (so_with_buf o (so_buf o ++ b)) true.
Proof. constructor; cbn; auto; [exists []; now rewrite app_nil_r|discriminate]. Qed.
Lemma puts_buffer s o b o' ok : writable s -> so_buffer s o b = (o', ok) -> puts s o b o' ok.
Proof.
  intros W H. unfold so_buffer in H. change LINE_CAP with 1024 in H. destruct (N.ltb_spec (len b) (1024 - len (so_buf o))) as [H1|H1]; [injection H as <- <-; apply puts_append|].
  destruct (N.ltb_spec (1024 - len (so_buf o)) (len b)) as [H2|H2].
  - destruct (so_flush s o) as [o1 ok1] eqn:E. apply puts_flush in E as [P B]; [|exact W]. destruct ok1; cbn [negb] in H; [|injection H as <- <-; exact (puts_stop _ _ _ _ b P)]. specialize (B eq_refl).
    destruct (N.leb_spec 1024 (len b)) as [H3|H3].
    + destruct (raw_write_all s o1 b) as [[o2 rest] ok2] eqn:E2. injection H as <- <-. apply puts_raw in E2 as [P2 _]; auto. exact (puts_trans _ _ _ _ _ _ _ P P2).
    + injection H as <- <-. exact (puts_trans _ _ _ _ _ _ _ P (puts_append s o1 b)).
  - cbn [negb] in H. destruct (N.leb_spec 1024 (len b)) as [H3|H3]; [|injection H as <- <-; apply puts_append].
    assert (B : so_buf o = []) by (destruct (so_buf o); [reflexivity|rewrite len_cons in *; lia]). destruct (raw_write_all s o b) as [[o2 rest] ok2] eqn:E2. injection H as <- <-. now apply puts_raw in E2 as [P2 _].
Qed.
Lemma split_line_app b l t : split_line b = Some (l, t) -> b = l ++ t.
Proof.
  revert l t. induction b as [|x b IH]; intros l t H; [discriminate|]. cbn in H. destruct (split_line b) as [[l' t']|]; [injection H as <- <-; cbn; f_equal; now apply IH|]. destruct (x =? 10); [injection H as <- <-; reflexivity|discriminate].
Qed.
Lemma puts_write s o b o' ok : writable s -> so_write_all s o b = (o', ok) -> puts s o b o' ok /\ (forall l, split_line b = Some (l, []) -> ok = true -> so_buf o' = []).
Proof.
  intros W H. unfold so_write_all in H. destruct (split_line b) as [[l t]|] eqn:S.
  - rewrite (split_line_app _ _ _ S).
    assert (G : exists o1 ok1, (match so_buf o with [] => let '(o, _, ok) := raw_write_all s o l in (o, ok) | _ => let '(o, ok) := so_buffer s o l in if ok then so_flush s o else (o, false) end) = (o1, ok1) /\ puts s o l o1 ok1 /\ (ok1 = true -> so_buf o1 = [])).
    { destruct (so_buf o) as [|c r] eqn:B.
      - destruct (raw_write_all s o l) as [[o1 rest] ok1] eqn:E. exists o1, ok1. apply puts_raw in E as [P Q]; auto.
      - destruct (so_buffer s o l) as [o1 ok1] eqn:E. apply puts_buffer in E; [|exact W]. destruct ok1; [|exists o1, false; split; [reflexivity|]; split; [exact E|discriminate]].
        destruct (so_flush s o1) as [o2 ok2] eqn:E2. apply puts_flush in E2 as [P Q]; [|exact W]. exists o2, ok2. split; [reflexivity|]. split; [|exact Q]. rewrite <- (app_nil_r l). exact (puts_trans _ _ _ _ _ _ _ E P). }
    destruct G as (o1 & ok1 & G & P & Q). rewrite G in H. destruct ok1.
    + specialize (Q eq_refl). split; [apply puts_buffer in H; [exact (puts_trans _ _ _ _ _ _ _ P H)|exact W]|]. intros l' E ok'. injection E as _ ->. unfold so_buffer in H. rewrite Q in H. cbn in H. now injection H as <- _.
    + injection H as <- <-. split; [exact (puts_stop _ _ _ _ t P)|]. discriminate.
  - split; [|discriminate]. unfold so_completed in H. destruct (last (so_buf o) 0 =? 10).
    + destruct (so_flush s o) as [o1 ok1] eqn:E. apply puts_flush in E as [P _]; [|exact W]. destruct ok1; [apply puts_buffer in H; [exact (puts_trans _ _ _ _ _ _ _ P H)|exact W]|]. injection H as <- <-. exact (puts_stop _ _ _ _ b P).
    + now apply puts_buffer.
Qed.
Lemma puts_println s o x o' ok : writable s -> so_println s o x = (o', ok) -> puts s o (shown_bytes x) o' ok /\ (ok = true -> so_buf o' = []).
Proof.
  intros W H. unfold so_println in H.
  assert (G : exists a b l, pieces x = (a, b) /\ split_line b = Some (l, []) /\ shown_bytes x = a ++ b) by (destruct x as [l|l]; eexists _, _, _; split; [reflexivity|split; reflexivity|reflexivity|split; reflexivity]).
  destruct G as (a & b & l & E & S & ->). rewrite E in H. destruct (so_write_all s o a) as [o1 ok1] eqn:E1. apply puts_write in E1 as [P1 _]; [|exact W]. destruct ok1.
  - apply puts_write in H as [P2 Q]; [|exact W]. split; [exact (puts_trans _ _ _ _ _ _ _ P1 P2)|exact (Q _ S)].
  - injection H as <- <-. split; [exact (puts_stop _ _ _ _ b P1)|discriminate].
Qed.

(** ** Threads *)
Lemma output_cons x l : output (x :: l) = shown_bytes x ++ output l. Proof. reflexivity. Qed.
Lemma output_app a b : output (a ++ b) = output a ++ output b. Proof. unfold output. now rewrite map_app, concat_app. Qed.
Lemma prefix_refl {A} (l : list A) : prefix l l. Proof. exists []. now rewrite app_nil_r. Qed.
Lemma prefix_nils {A} (ls : list (list A)) : Forall2 prefix (map (fun _ => []) ls) ls.
Proof. induction ls as [|l ls IH]; constructor; [now exists l|exact IH]. Qed.
Lemma nils_all {A B} (ls : list (list B)) : Forall (fun l : list A => l = []) (map (fun _ => []) ls).
Proof. induction ls; constructor; auto. Qed.
Lemma prefix_same {A} (ls : list (list A)) : Forall2 prefix ls ls.
Proof. induction ls as [|l ls IH]; constructor; [apply prefix_refl|exact IH]. Qed.
Lemma prefix_put {A} (outs a b : list (list A)) x l : Forall2 prefix outs (a ++ l :: b) -> exists oa ol ob, outs = oa ++ ol :: ob /\ Forall2 prefix (oa ++ (x :: ol) :: ob) (a ++ (x :: l) :: b) /\ (outs = a ++ l :: b -> oa = a /\ ol = l /\ ob = b).
Proof.
  revert outs. induction a as [|y a IH]; intros outs H; cbn in H.
  - inversion H as [|ol ? ob ? Hr Hb]. subst. destruct Hr as (r & Hr). exists [], ol, ob. split; [reflexivity|]. split; [constructor; [exists r; cbn; now rewrite Hr|exact Hb]|]. intro E. injection E. auto.
  - inversion H as [|oy ? os ? Hy Hb]; subst. destruct (IH os Hb) as (oa & ol & ob & -> & F & Q). exists (oy :: oa), ol, ob. split; [reflexivity|]. split; [now constructor|]. intro E. injection E as -> E. destruct (Q E) as (-> & -> & ->). auto.
Qed.
Lemma printing_failed s ls o o' ok : printing s true ls o o' ok -> ok = false.
Proof. intro H. remember true as fl eqn:E. induction H; subst; auto. Qed.
(** When no println! fails: whole lines, in an order the threads allow. *)
Lemma printing_good s failed ls o o' ok : writable s -> so_buf o = [] -> printing s failed ls o o' ok -> (ok = true \/ forall t, s t <> Takes 0) ->
  so_buf o' = [] /\ ok = negb failed /\ exists outs out, Forall2 prefix outs ls /\ (failed = false -> outs = ls) /\ interleave outs out /\ so_got o' = so_got o ++ output out.
Proof.
  intros W B H. revert B. induction H as [failed ls o F|ls o|failed a x l b o o1 o2 ok Hx H IH|failed a x l b o o1 o2 ok Hx H IH]; intros B K.
  - split; [exact B|]. split; [reflexivity|]. exists ls, []. split; [apply prefix_same|]. split; [reflexivity|]. split; [now constructor|]. now rewrite app_nil_r.
  - split; [exact B|]. split; [reflexivity|]. exists (map (fun _ => []) ls), []. split; [apply prefix_nils|]. split; [discriminate|]. split; [constructor; apply nils_all|now rewrite app_nil_r].
  - apply puts_println in Hx as [P Q]; [|exact W]. destruct (IH (Q eq_refl) K) as (B2 & E & outs & out & F & S & I & G). split; [exact B2|]. split; [exact E|].
    destruct (prefix_put outs a b x l F) as (oa & ol & ob & -> & F' & S'). exists (oa ++ (x :: ol) :: ob), (x :: out). split; [exact F'|]. split; [intro Hf; destruct (S' (S Hf)) as (-> & -> & ->); reflexivity|]. split; [now constructor|].
    rewrite G, output_cons, app_assoc. f_equal. destruct P as [_ _ P _ _]. rewrite (Q eq_refl), B, app_nil_r in P. exact P.
  - exfalso. apply puts_println in Hx as [[_ _ _ _ P] _]; [|exact W]. destruct (P eq_refl) as (t & _ & Ht). destruct K as [->|K]; [|now apply (K t)].
    apply printing_failed in H. discriminate.
Qed.
(** A dead output takes nothing. *)
Lemma printing_dead s failed ls o o' ok : writable s -> dead_from s (so_calls o) -> printing s failed ls o o' ok -> so_got o' = so_got o /\ (so_calls o <= so_calls o')%nat.
Proof.
  intros W D H. revert D. induction H as [failed ls o F|ls o|failed a x l b o o1 o2 ok Hx H IH|failed a x l b o o1 o2 ok Hx H IH]; intro D; auto; (apply puts_println in Hx as [[_ C _ G _] _]; [|exact W]; destruct IH as [G2 C2]; [intros t Ht; apply D; lia|]; split; [rewrite G2; exact (G D)|lia]).
Qed.
Lemma printing_prefix s failed ls o o' ok : writable s -> (forall t, s t = Takes 0 -> dead_from s t) -> so_buf o = [] -> printing s failed ls o o' ok ->
  (so_buf o' = [] \/ dead_from s (so_calls o')) /\ exists out, interleave ls out /\ prefix (so_got o') (so_got o ++ output out).
Proof.
  intros W K B H. revert B. induction H as [failed ls o F|ls o|failed a x l b o o1 o2 ok Hx H IH|failed a x l b o o1 o2 ok Hx H IH]; intro B.
  - split; [now left|]. exists []. split; [now constructor|]. now exists [].
  - split; [now left|]. exists (concat ls). split; [apply interleave_concat|]. now exists (output (concat ls)).
  - apply puts_println in Hx as [[_ _ P _ _] Q]; [|exact W]. destruct (IH (Q eq_refl)) as (B2 & out & I & r & G). split; [exact B2|]. exists (x :: out). split; [now constructor|].
    exists r. rewrite <- G, output_cons, app_assoc. f_equal. rewrite (Q eq_refl), B, app_nil_r in P. now rewrite P.
  - apply puts_println in Hx as [[_ _ (r & P) _ Fl] Q]; [|exact W]. destruct (Fl eq_refl) as (t & Ht & St). assert (D : dead_from s (so_calls o1)) by (intros t' Ht'; apply (K t St); lia).
    destruct (printing_dead _ _ _ _ _ _ W D H) as [G C]. split; [right; intros t' Ht'; apply D; lia|]. exists (x :: concat (a ++ l :: b)). split; [constructor; apply interleave_concat|]. rewrite G, output_cons, B in *. cbn [app] in P.
    exists ((so_buf o1 ++ r) ++ output (concat (a ++ l :: b))). rewrite app_assoc, P. now rewrite <- !app_assoc.
Qed.
(** One thread: nothing else comes after a failure. *)
Lemma printing_nils s failed ls o o' ok : Forall (fun l => l = []) ls -> printing s failed ls o o' ok -> o' = o.
Proof.
  intros F H. destruct H as [| |failed a x l b o o1 o2 ok Hx H|failed a x l b o o1 o2 ok Hx H]; auto; apply Forall_app in F as [_ F]; inversion F; discriminate.
Qed.
Lemma printing_one s failed l o o' ok : writable s -> so_buf o = [] -> printing s failed [l] o o' ok -> exists r, so_got o ++ output l = so_got o' ++ so_buf o' ++ r.
Proof.
  intros W B H. remember [l] as ls eqn:E. revert l E B. induction H as [failed ls o F|ls o|failed a x l b o o1 o2 ok Hx H IH|failed a x l b o o1 o2 ok Hx H IH]; intros k E B.
  - subst. inversion F; subst. exists []. now rewrite B.
  - exists (output k). now rewrite B.
  - destruct a as [|? [|]]; [|discriminate..]. injection E as <- ->. apply puts_println in Hx as [[_ _ P _ _] Q]; [|exact W]. destruct (IH _ eq_refl (Q eq_refl)) as (r & G). exists r. rewrite <- G, output_cons, app_assoc. f_equal.
    rewrite (Q eq_refl), B, app_nil_r in P. now rewrite P.
  - destruct a as [|? [|]]; [|discriminate..]. injection E as <- ->. apply puts_println in Hx as [[_ _ (r & P) _ _] Q]; [|exact W]. apply printing_nils in H; [|now repeat constructor]. subst o2. rewrite B in P. cbn [app] in P. exists (r ++ output l).
    rewrite output_cons, app_assoc, P. now rewrite <- !app_assoc.
Qed.
Lemma flush_empty s o : so_buf o = [] -> fst (so_flush s o) = o.
Proof. intro B. unfold so_flush. rewrite B. destruct o; cbn in *. now subst. Qed.

(** ** Answers are never an error *)
Lemma v1_loop_no_err bits l e : ~ In (Err e) l -> v1_contains_loop bits l <> Err e.
Proof.
  induction l as [|[i|e'|] l IH]; cbn [v1_contains_loop In]; intro H; try discriminate.
  - unfold v1_get_nth_bit. destruct (getN bits (i / 64)) as [w|]; cbn; [|discriminate]. match goal with |- (if ?c then _ else _) <> _ => destruct c end; [|discriminate]. apply IH. tauto.
  - intro E. injection E as ->. tauto.
Qed.
Lemma fp_no_err n e : forall f, ~ In (Err e) (fp_collect n f).
Proof. induction n as [|n IH]; intros f; cbn [fp_collect]; [intros []|]. unfold fp_next. destruct (fp_i f <? fp_count f); [|intros []]. destruct (fp_m f =? 0); intros [H|H]; try discriminate; [destruct H|exact (IH _ H)]. Qed.
Lemma contains_no_err wy f d e : bf_contains_bytes wy f d <> Err e.
Proof.
  destruct f as [b|b]; cbn [bf_contains_bytes]; [|unfold v2_contains_bytes, v2_contains; destruct (v2_contains_iter wy b _); discriminate].
  unfold v1_contains_bytes. destruct (v1_bitset b); [discriminate|]. apply v1_loop_no_err, fp_no_err.
Qed.
Lemma check_lines_stdin wy f a l out r : check_lines wy f a Panic l = (out, r) -> r = Ok tt \/ r = Panic.
Proof.
  revert out r. induction l as [|[d|] l IH]; intros out r H; cbn [check_lines] in H; [injection H as <- <-; auto| |injection H as <- <-; auto].
  unfold check_line in H. pose proof (contains_no_err wy f d) as N. destruct (bf_contains_bytes wy f d) as [b|e|]; [|now contradiction (N e)|cbn in H; injection H as <- <-; auto].
  cbn [obind] in H. destruct (ka_verify a); destruct (check_lines wy f a Panic l) as [o' r'] eqn:E; injection H as _ <-; exact (IH _ _ eq_refl).
Qed.

(** ** Short lines: also after a failure only whole lines are buffered *)
Definition short_line (x : printed) : Prop := len (shown_bytes x) < 1024 /\ match x with Plain l => ~ In 10 l | Nok l => ~ In 10 l /\ l <> [] end.
Definition whole (o : stdout) : Prop := so_buf o = [] \/ exists p, so_buf o = p ++ [10].
Lemma whole_rest (p x rest : list byte) : p ++ [10] = x ++ rest -> rest = [] \/ exists q, rest = q ++ [10].
Proof. intro H. destruct rest as [|c r] using rev_ind; [now left|]. right. rewrite app_assoc in H. apply app_inj_tail in H as [_ <-]. now exists r. Qed.
Lemma flush_whole s o o' ok : writable s -> whole o -> so_flush s o = (o', ok) -> whole o' /\ (ok = true -> so_buf o' = []) /\ so_got o' ++ so_buf o' = so_got o ++ so_buf o.
Proof.
  intros W H E. unfold so_flush in E. destruct (raw_write_all s o (so_buf o)) as [[o1 rest] ok1] eqn:R. injection E as <- <-. apply raw_spec in R as (H1 & (x & Hx & Hg) & H3 & H4 & _ & _); [|exact W].
  unfold whole. cbn [so_buf so_got so_with_buf]. split; [|split; [exact H4|now rewrite Hg, <- app_assoc, Hx at 1]]. destruct H as [B|(p & B)].
  - rewrite B in Hx. left. now destruct x; [|discriminate].
  - rewrite B in Hx. exact (whole_rest _ _ _ Hx).
Qed.
Lemma split_none l : ~ In 10 l -> split_line l = None.
Proof. induction l as [|x l IH]; intro H; [reflexivity|]. cbn. rewrite IH by (intro; apply H; now right). destruct (N.eqb_spec x 10) as [->|]; [contradiction H; now left|reflexivity]. Qed.
Lemma buffer_small s o b : so_buf o = [] -> len b < 1024 -> so_buffer s o b = (so_with_buf o b, true).
Proof. intros B H. unfold so_buffer. rewrite B. change (len []) with 0. change LINE_CAP with 1024. rewrite N.sub_0_r. apply N.ltb_lt in H. now rewrite H. Qed.
Lemma println_whole s o x o' ok : writable s -> whole o -> short_line x -> so_println s o x = (o', ok) ->
  whole o' /\ (so_got o' ++ so_buf o' = so_got o ++ so_buf o ++ shown_bytes x \/ ok = false /\ so_got o' ++ so_buf o' = so_got o ++ so_buf o).
Proof.
  intros W Wh Sh H. unfold so_println in H.
  assert (G : exists l b, pieces x = (l, b) /\ shown_bytes x = l ++ b /\ ~ In 10 l /\ split_line b = Some (b, []) /\ (l = [] -> b = [10])).
  { destruct x as [l|l]; exists l; eexists; (split; [reflexivity|]); (split; [reflexivity|]); destruct Sh as [_ Sh]; [split; [exact Sh|split; [reflexivity|reflexivity]]|]. destruct Sh as [Sn Se]. split; [exact Sn|]. split; [reflexivity|]. intro. contradiction. }
  destruct G as (l & b & E & ES & Nl & Sb & Eb). rewrite E in H. destruct Sh as [Sh _]. rewrite ES, len_app in Sh. rewrite ES. unfold so_write_all at 1 in H. rewrite (split_none _ Nl) in H.
  assert (C : exists o1 ok1, so_completed s o = (o1, ok1) /\ whole o1 /\ (ok1 = true -> so_buf o1 = []) /\ so_got o1 ++ so_buf o1 = so_got o ++ so_buf o).
  { unfold so_completed. destruct Wh as [B|(p & B)].
    - rewrite B. cbn. exists o, true. split; [reflexivity|]. split; [now left|]. split; [auto|now rewrite B].
    - rewrite B, last_last. change (10 =? 10) with true. cbn iota. destruct (so_flush s o) as [o1 ok1] eqn:F. exists o1, ok1. split; [reflexivity|]. rewrite <- B. apply (flush_whole s o o1 ok1 W); [right; eauto|exact F]. }
  destruct C as (o1 & ok1 & C & W1 & B1 & G1). rewrite C in H. destruct ok1; [|injection H as <- <-; auto]. specialize (B1 eq_refl). rewrite (buffer_small s o1 l B1) in H by lia. rewrite B1, app_nil_r in G1.
  unfold so_write_all in H. rewrite Sb in H. destruct l as [|c l]; cbn [so_buf so_with_buf] in H.
  - rewrite (Eb eq_refl) in *. destruct (raw_write_all s (so_with_buf o1 []) [10]) as [[o2 rest] ok2] eqn:R. apply raw_spec in R as (R1 & (y & Hy & Hg) & _ & R4 & _ & _); [|exact W]. cbn [so_got so_buf so_with_buf] in *. destruct ok2.
    + rewrite (R4 eq_refl), app_nil_r in Hy. subst y. rewrite (buffer_small s o2 [] R1) in H by reflexivity. injection H as <- <-. cbn [so_buf so_got so_with_buf app]. split; [now left|]. left. rewrite app_nil_r, Hg, G1, <- app_assoc. reflexivity.
    + injection H as <- <-. split; [now left|]. destruct y as [|z y].
      * right. split; [reflexivity|]. rewrite R1, Hg, !app_nil_r. exact G1.
      * left. cbn [app]. assert (z = 10 /\ y = []) as [-> ->] by (injection Hy as <- Hy; symmetry in Hy; apply app_eq_nil in Hy as [-> _]; auto). rewrite R1, Hg, app_nil_r, G1, <- app_assoc. reflexivity.
  - assert (Q : so_buffer s (so_with_buf o1 (c :: l)) b = (so_with_buf o1 ((c :: l) ++ b), true)).
    { unfold so_buffer. cbn [so_buf so_with_buf]. change LINE_CAP with 1024. assert (L : len b < 1024 - len (c :: l)) by lia. apply N.ltb_lt in L. rewrite L. reflexivity. }
    rewrite Q in H. assert (Wx : whole (so_with_buf o1 ((c :: l) ++ b))).
    { right. apply split_line_app in Sb. assert (Z : exists p, b = p ++ [10]) by (destruct x as [l0|l0]; injection E as _ <-; [exists []|exists [58; 32; 78; 79; 75]]; reflexivity). destruct Z as (p & ->). exists ((c :: l) ++ p). cbn [so_buf so_with_buf]. now rewrite app_assoc. }
    destruct (so_flush s (so_with_buf o1 ((c :: l) ++ b))) as [o2 ok2] eqn:F. destruct (flush_whole _ _ _ _ W Wx F) as (W2 & B2 & G2). cbn [so_got so_buf so_with_buf] in G2. assert (GG : so_got o2 ++ so_buf o2 = so_got o ++ so_buf o ++ (c :: l) ++ b) by (rewrite G2, G1, <- app_assoc; reflexivity).
    destruct ok2; [|injection H as <- <-; auto]. rewrite (buffer_small s o2 [] (B2 eq_refl)) in H by reflexivity. injection H as <- <-. split; [now left|]. left. rewrite (B2 eq_refl) in GG. exact GG.
Qed.
Lemma interleave_extend {A} (outs : list (list A)) out : interleave outs out -> forall ls, Forall2 prefix outs ls -> exists r, interleave ls (out ++ r).
Proof.
  induction 1 as [outs H|a x l b out H IH]; intros ls F; [exists (concat ls); apply interleave_concat|].
  apply Forall2_app_inv_l in F as (a' & t & Fa & Ft & ->). inversion Ft as [|? l' ? b' (q & Hq) Fb]; subst. destruct (IH (a' ++ (l ++ q) :: b')) as (r & Hr); [apply Forall2_app; [exact Fa|constructor; [now exists q|exact Fb]]|].
  exists r. cbn. now constructor.
Qed.
Lemma printing_short s failed ls o o' ok : writable s -> Forall (Forall short_line) ls -> whole o -> printing s failed ls o o' ok ->
  whole o' /\ exists outs out, Forall2 prefix outs ls /\ interleave outs out /\ so_got o' ++ so_buf o' = so_got o ++ so_buf o ++ output out.
Proof.
  intros W F B H. revert B F. induction H as [failed ls o F|ls o|failed a x l b o o1 o2 ok Hx H IH|failed a x l b o o1 o2 ok Hx H IH]; intros B F'.
  - split; [exact B|]. exists ls, []. split; [apply prefix_same|]. split; [now constructor|]. now rewrite app_nil_r.
  - split; [exact B|]. exists (map (fun _ => []) ls), []. split; [apply prefix_nils|]. split; [constructor; apply nils_all|]. now rewrite app_nil_r.
  - apply Forall_app in F' as [Fa Fb]. apply Forall_cons_iff in Fb as [Fl Fb]. apply Forall_cons_iff in Fl as [Fx Fl]. destruct (println_whole _ _ _ _ _ W B Fx Hx) as (B1 & [G|[G _]]); [|discriminate].
    destruct IH as (B2 & outs & out & P & I & G2); [exact B1|apply Forall_app; split; [exact Fa|now constructor]|]. split; [exact B2|]. destruct (prefix_put outs a b x l P) as (oa & ol & ob & -> & P' & _). exists (oa ++ (x :: ol) :: ob), (x :: out). split; [exact P'|]. split; [now constructor|].
    rewrite G2, output_cons, app_assoc, G. now rewrite <- !app_assoc.
  - apply Forall_app in F' as [Fa Fb]. apply Forall_cons_iff in Fb as [Fl Fb]. apply Forall_cons_iff in Fl as [Fx Fl]. destruct (println_whole _ _ _ _ _ W B Fx Hx) as (B1 & G).
    destruct IH as (B2 & outs & out & P & I & G2); [exact B1|apply Forall_app; split; [exact Fa|now constructor]|]. split; [exact B2|].
    apply Forall2_app_inv_r in P as (oa & t & Pa & Pt & ->). inversion Pt as [|ol ? ob ? (q & Hq) Pb]; subst. symmetry in Hq. apply app_eq_nil in Hq as [-> ->]. destruct G as [G|[_ G]].
    + exists (oa ++ [x] :: ob), (x :: out). split; [apply Forall2_app; [exact Pa|constructor; [now exists l|exact Pb]]|]. split; [now constructor|]. rewrite G2, output_cons, app_assoc, G. now rewrite <- !app_assoc.
    + exists (oa ++ [] :: ob), out. split; [apply Forall2_app; [exact Pa|constructor; [now exists (x :: l)|exact Pb]]|]. split; [exact I|]. rewrite G2, !app_assoc. now rewrite G.
Qed.
