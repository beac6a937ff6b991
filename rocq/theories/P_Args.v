(** Command lines: a declarative description of the accepted ones, and the scanner agrees with it. *)
From Coq Require Import Lia String Permutation.
From Verif Require Import M_Args P_Base.
Open Scope N_scope.

Lemma list_eqb_eq (a b : list N) : list_eqb a b = true <-> a = b.
Proof.
  revert b. induction a as [|x a IH]; intros [|y b]; cbn [list_eqb]; try (split; [discriminate|discriminate]); [tauto|].
  rewrite andb_true_iff, N.eqb_eq, IH. split; [intros [-> ->]; reflexivity|intro E; injection E as -> ->; auto].
Qed.
(** An option with its value as one token or two, a switch as one token. *)
Inductive form (ds : list decl) : list (list N) -> nat -> list N -> Prop :=
| f_long_equals : forall i d v, nth_error ds i = Some d -> d_takes d = true -> form ds [[45; 45] ++ d_long d ++ [61] ++ v] i v
| f_long_next : forall i d v, nth_error ds i = Some d -> d_takes d = true -> dashed v = false -> form ds [[45; 45] ++ d_long d; v] i v
| f_short_equals : forall i d c v, nth_error ds i = Some d -> d_takes d = true -> d_short d = Some c -> form ds [[45; c; 61] ++ v] i v
| f_short_glued : forall i d c x v, nth_error ds i = Some d -> d_takes d = true -> d_short d = Some c -> x <> 61 -> form ds [[45; c; x] ++ v] i (x :: v)
| f_short_next : forall i d c v, nth_error ds i = Some d -> d_takes d = true -> d_short d = Some c -> dashed v = false -> form ds [[45; c]; v] i v
| f_switch_long : forall i d, nth_error ds i = Some d -> d_takes d = false -> form ds [[45; 45] ++ d_long d] i []
| f_switch_short : forall i d c, nth_error ds i = Some d -> d_takes d = false -> d_short d = Some c -> form ds [[45; c]] i [].
(** A command line: options and operands in any order; several letters behind one dash, of which only the last may take a value;
    everything after two dashes is an operand. A command with subcommands stops at the first operand. *)
Inductive laid (ds : list decl) : bool -> list (list N) -> list item -> list (list N) -> Prop :=
| l_nil : forall sub, laid ds sub [] [] []
| l_form : forall sub ts i v args its rest, form ds ts i v -> laid ds sub args its rest -> laid ds sub (ts ++ args) (Given i v :: its) rest
| l_cluster : forall sub i d c x body args its rest, nth_error ds i = Some d -> d_takes d = false -> d_short d = Some c -> x <> 45 ->
    laid ds sub ((45 :: x :: body) :: args) its rest -> laid ds sub ((45 :: c :: x :: body) :: args) (Given i [] :: its) rest
| l_operand : forall v args its rest, dashed v = false -> laid ds false args its rest -> laid ds false (v :: args) (Operand v :: its) rest
| l_end : forall ops, laid ds false ([45; 45] :: ops) (map Operand ops) []
| l_stop : forall v args, dashed v = false -> laid ds true (v :: args) [] (v :: args).

(** Names are not empty, contain no equals sign, and differ; letters are no dash, and differ. *)
Fixpoint distinct_by {A} (f : A -> A -> bool) (l : list A) : bool :=
  match l with [] => true | x :: r => forallb (fun y => negb (f x y)) r && distinct_by f r end.
Definition same_short (a b : decl) : bool := match d_short b with Some c => short_is c a | None => false end.
Definition well_declared (ds : list decl) : bool :=
  forallb (fun d => match d_long d with [] => false | _ => forallb (fun c => negb (c =? 61)) (d_long d) end && match d_short d with Some c => negb (c =? 45) | None => true end) ds &&
  distinct_by (fun a b => list_eqb (d_long a) (d_long b)) ds && distinct_by same_short ds.
Lemma all_declared : forallb well_declared [main_decls; create_decls; insert_decls; check_decls; bench_decls; []] = true.
Proof. vm_compute. reflexivity. Qed.

Lemma find_decl_sound f k ds i t : find_decl f k ds = Some (i, t) -> exists d, nth_error ds (i - k) = Some d /\ f d = true /\ d_takes d = t /\ (k <= i)%nat.
Proof.
  revert k. induction ds as [|d ds IH]; intro k; cbn [find_decl]; [discriminate|]. destruct (f d) eqn:F.
  - intro E. injection E as <- <-. exists d. rewrite Nat.sub_diag. auto.
  - intro E. destruct (IH _ E) as (x & A & B & C & D). exists x. split; [|repeat split; auto; lia]. replace (i - k)%nat with (S (i - S k)) by lia. exact A.
Qed.
Lemma find_decl_first f k ds i d : nth_error ds i = Some d -> f d = true -> (forall j x, (j < i)%nat -> nth_error ds j = Some x -> f x = false) -> find_decl f k ds = Some ((k + i)%nat, d_takes d).
Proof.
  revert k i. induction ds as [|y ds IH]; intros k i N0 F B; [destruct i; discriminate|]. cbn [find_decl]. destruct i as [|i].
  - injection N0 as ->. rewrite F, Nat.add_0_r. reflexivity.
  - rewrite (B O y ltac:(lia) eq_refl). rewrite (IH (S k) i N0 F). { f_equal. f_equal. lia. } intros j x J E. apply (B (S j) x); [lia|exact E].
Qed.
Lemma distinct_nth {A} (f : A -> A -> bool) l i j x y : distinct_by f l = true -> (i < j)%nat -> nth_error l i = Some x -> nth_error l j = Some y -> f x y = false.
Proof.
  revert i j. induction l as [|z l IH]; intros i j D L I J; [destruct i; discriminate|]. cbn [distinct_by] in D. apply andb_true_iff in D as [D1 D2].
  destruct i as [|i], j as [|j]; try lia; cbn [nth_error] in *; [|now apply (IH i j); [|lia| |]]. injection I as ->. rewrite forallb_forall in D1. apply nth_error_In in J. specialize (D1 y J). now destruct (f x y).
Qed.
Lemma decl_ok ds i d : well_declared ds = true -> nth_error ds i = Some d ->
  d_long d <> [] /\ forallb (fun c => negb (c =? 61)) (d_long d) = true /\ (forall c, d_short d = Some c -> c <> 45).
Proof.
  intros W N0. unfold well_declared in W. rewrite !andb_true_iff in W. destruct W as [[W _] _]. rewrite forallb_forall in W. apply nth_error_In in N0. specialize (W d N0). apply andb_true_iff in W as [A B].
  destruct (d_long d) as [|c l]; [discriminate|]. split; [discriminate|]. split; [exact A|]. intros x E. rewrite E in B. destruct (N.eqb_spec x 45); [discriminate|assumption].
Qed.
Lemma find_long ds i d : well_declared ds = true -> nth_error ds i = Some d -> find_decl (long_is (d_long d)) 0 ds = Some (i, d_takes d).
Proof.
  intros W N0. apply (find_decl_first _ 0 ds i d N0); [now apply list_eqb_eq|]. intros j x J E. unfold well_declared in W. rewrite !andb_true_iff in W. destruct W as [[_ W] _].
  pose proof (distinct_nth _ _ _ _ _ _ W J E N0) as D. cbn beta in D. unfold long_is. destruct (list_eqb (d_long d) (d_long x)) eqn:Q; [|reflexivity]. apply list_eqb_eq in Q. rewrite Q in D. rewrite (proj2 (list_eqb_eq _ _) eq_refl) in D. discriminate.
Qed.
Lemma find_short ds i d c : well_declared ds = true -> nth_error ds i = Some d -> d_short d = Some c -> find_decl (short_is c) 0 ds = Some (i, d_takes d).
Proof.
  intros W N0 S. apply (find_decl_first _ 0 ds i d N0); [unfold short_is; now rewrite S, N.eqb_refl|]. intros j x J E. unfold well_declared in W. rewrite !andb_true_iff in W. destruct W as [_ W].
  pose proof (distinct_nth _ _ _ _ _ _ W J E N0) as D. unfold same_short in D. now rewrite S in D.
Qed.
Lemma split_equals_name n v : forallb (fun c => negb (c =? 61)) n = true -> split_equals (n ++ [61] ++ v) = (n, Some v) /\ split_equals n = (n, None).
Proof.
  induction n as [|c n IH]; intro F; [split; reflexivity|]. cbn [forallb] in F. apply andb_true_iff in F as [A B]. destruct (IH B) as [I1 I2]. cbn [app] in *. cbn [split_equals]. destruct (c =? 61); [discriminate|]. now rewrite I1, I2.
Qed.
Lemma split_equals_inv l n v : split_equals l = (n, v) -> forallb (fun c => negb (c =? 61)) n = true /\ l = match v with Some v => n ++ [61] ++ v | None => n end.
Proof.
  revert n v. induction l as [|c l IH]; intros n v E; cbn [split_equals] in E; [injection E as <- <-; auto|]. destruct (N.eqb_spec c 61) as [-> |Nc]; [injection E as <- <-; auto|].
  destruct (split_equals l) as [n' v']. injection E as <- <-. destruct (IH _ _ eq_refl) as [A ->]. split; [cbn [forallb]; apply N.eqb_neq in Nc; now rewrite Nc|]. destruct v'; reflexivity.
Qed.

(** The scanner accepts what is laid out. *)
Lemma scan_long_shape ds sub c body rest : scan ds sub ((45 :: 45 :: c :: body) :: rest) =
  let '(name, value) := split_equals (c :: body) in
  match find_decl (long_is name) 0 ds, value with
  | None, _ => None
  | Some (i, true), Some v => prepend [Given i v] (scan ds sub rest)
  | Some (i, true), None => match rest with v :: rest' => if dashed v then None else prepend [Given i v] (scan ds sub rest') | [] => None end
  | Some (i, false), Some _ => None
  | Some (i, false), None => prepend [Given i []] (scan ds sub rest)
  end.
Proof. cbn [scan dashed]. destruct (split_equals (c :: body)) as [n v]. destruct (find_decl _ _ _) as [[i []]|]; destruct v; reflexivity. Qed.
Lemma scan_short_shape ds sub c body rest : c <> 45 -> scan ds sub ((45 :: c :: body) :: rest) =
  match cluster ds (c :: body) with
  | None => None
  | Some (its, None) => prepend its (scan ds sub rest)
  | Some (its, Some i) => match rest with v :: rest' => if dashed v then None else prepend (its ++ [Given i v]) (scan ds sub rest') | [] => None end
  end.
Proof.
  intro Nc. cbn [scan dashed]. assert (P : forall {A} (x y : A), (match c with 45 => x | _ => y end) = y).
  { intros A x y. destruct c as [|p]; [reflexivity|]. do 6 (try destruct p as [p|p|]; try reflexivity). now destruct Nc. }
  rewrite P. reflexivity.
Qed.
Lemma prepend_app a b o : prepend a (prepend b o) = prepend (a ++ b) o.
Proof. destruct o as [[l r]|]; [|reflexivity]. cbn. now rewrite app_assoc. Qed.
Lemma scan_long_takes ds sub i d : well_declared ds = true -> nth_error ds i = Some d -> d_takes d = true ->
  (forall v rest, scan ds sub (([45; 45] ++ d_long d ++ [61] ++ v) :: rest) = prepend [Given i v] (scan ds sub rest)) /\
  (forall v rest, dashed v = false -> scan ds sub (([45; 45] ++ d_long d) :: v :: rest) = prepend [Given i v] (scan ds sub rest)).
Proof.
  intros W N0 T. destruct (decl_ok _ _ _ W N0) as (Ne & Eq & _). pose proof (find_long _ _ _ W N0) as F. rewrite T in F.
  split; [intros v rest|intros v rest D]; destruct (split_equals_name (d_long d) v Eq) as [E1 E2]; destruct (d_long d) as [|c n]; try contradiction; cbn [app] in *; rewrite scan_long_shape.
  - rewrite E1, F. reflexivity.
  - rewrite E2, F, D. reflexivity.
Qed.
Lemma scan_long_switch ds sub i d rest : well_declared ds = true -> nth_error ds i = Some d -> d_takes d = false -> scan ds sub (([45; 45] ++ d_long d) :: rest) = prepend [Given i []] (scan ds sub rest).
Proof.
  intros W N0 T. destruct (decl_ok _ _ _ W N0) as (Ne & Eq & _). pose proof (find_long _ _ _ W N0) as F. rewrite T in F.
  destruct (split_equals_name (d_long d) [] Eq) as [_ E2]; destruct (d_long d) as [|c n]; try contradiction; cbn [app] in *. rewrite scan_long_shape, E2, F. reflexivity.
Qed.
Lemma match61 {A} x (r : list N) (f : list N -> A) (g : A) : x <> 61 -> match x :: r with [] => g | 61 :: v => f v | _ => g end = g.
Proof. intro H. destruct x as [|p]; [reflexivity|]. do 6 (try destruct p as [p|p|]; try reflexivity). now destruct H. Qed.
Lemma cluster_takes ds c i r : find_decl (short_is c) 0 ds = Some (i, true) -> cluster ds (c :: r) =
  match r with [] => Some ([], Some i) | x :: v => if x =? 61 then Some ([Given i v], None) else Some ([Given i (x :: v)], None) end.
Proof.
  intro F. cbn [cluster]. rewrite F. destruct r as [|x v]; [reflexivity|]. destruct (N.eqb_spec x 61) as [-> |Nx]; [reflexivity|].
  destruct x as [|p]; [reflexivity|]. do 6 (try destruct p as [p|p|]; try reflexivity). now destruct Nx.
Qed.
Lemma scan_form ds sub ts i v rest : well_declared ds = true -> form ds ts i v -> scan ds sub (ts ++ rest) = prepend [Given i v] (scan ds sub rest).
Proof.
  intros W F. destruct F as [i d v N0 T|i d v N0 T D|i d c v N0 T S|i d c x v N0 T S Nx|i d c v N0 T S D|i d N0 T|i d c N0 T S]; cbn [app].
  - apply (scan_long_takes ds sub i d W N0 T).
  - now apply (scan_long_takes ds sub i d W N0 T).
  - destruct (decl_ok _ _ _ W N0) as (_ & _ & Nc). pose proof (find_short _ _ _ _ W N0 S) as F. rewrite T in F. rewrite scan_short_shape by now apply Nc. now rewrite (cluster_takes _ _ _ _ F).
  - destruct (decl_ok _ _ _ W N0) as (_ & _ & Nc). pose proof (find_short _ _ _ _ W N0 S) as F. rewrite T in F. rewrite scan_short_shape by now apply Nc. rewrite (cluster_takes _ _ _ _ F). apply N.eqb_neq in Nx. now rewrite Nx.
  - destruct (decl_ok _ _ _ W N0) as (_ & _ & Nc). pose proof (find_short _ _ _ _ W N0 S) as F. rewrite T in F. rewrite scan_short_shape by now apply Nc. rewrite (cluster_takes _ _ _ _ F), D. reflexivity.
  - now apply (scan_long_switch ds sub i d).
  - destruct (decl_ok _ _ _ W N0) as (_ & _ & Nc). pose proof (find_short _ _ _ _ W N0 S) as F. rewrite T in F. rewrite scan_short_shape by now apply Nc. cbn [cluster]. rewrite F. reflexivity.
Qed.
Lemma scan_cluster ds sub i d c x body rest : well_declared ds = true -> nth_error ds i = Some d -> d_takes d = false -> d_short d = Some c -> x <> 45 ->
  scan ds sub ((45 :: c :: x :: body) :: rest) = prepend [Given i []] (scan ds sub ((45 :: x :: body) :: rest)).
Proof.
  intros W N0 T S Nx. destruct (decl_ok _ _ _ W N0) as (_ & _ & Nc). pose proof (find_short _ _ _ _ W N0 S) as F. rewrite T in F. rewrite !scan_short_shape by auto.
  set (l := x :: body). cbn [cluster]. rewrite F. destruct (cluster ds l) as [[its [p|]]|]; cbn [option_map]; try reflexivity.
  - destruct rest as [|v rest]; [reflexivity|]. destruct (dashed v); [reflexivity|]. now rewrite prepend_app.
  - now rewrite prepend_app.
Qed.
Lemma scan_laid ds sub args its rest : well_declared ds = true -> laid ds sub args its rest -> scan ds sub args = Some (its, rest).
Proof.
  intros W H. induction H as [sub|sub ts i v args its rest F H IH|sub i d c x body args its rest N0 T S Nx H IH|v args its rest D H IH|ops|v args D].
  - reflexivity.
  - rewrite (scan_form _ _ _ _ _ _ W F), IH. reflexivity.
  - rewrite (scan_cluster _ _ _ _ _ _ _ _ W N0 T S Nx), IH. reflexivity.
  - cbn [scan]. rewrite D, IH. reflexivity.
  - reflexivity.
  - cbn [scan]. rewrite D. reflexivity.
Qed.
(** And nothing else. *)
Lemma prepend_inv a o its rest : prepend a o = Some (its, rest) -> exists l, o = Some (l, rest) /\ its = a ++ l.
Proof. destruct o as [[l r]|]; cbn; [|discriminate]. intro E. injection E as <- <-. eauto. Qed.
Lemma short_decl ds c i t : find_decl (short_is c) 0 ds = Some (i, t) -> exists d, nth_error ds i = Some d /\ d_short d = Some c /\ d_takes d = t.
Proof.
  intro F. destruct (find_decl_sound _ _ _ _ _ F) as (d & N0 & B & T & _). rewrite Nat.sub_0_r in N0. exists d. unfold short_is in B. destruct (d_short d) as [x|]; [|discriminate]. apply N.eqb_eq in B as ->. auto.
Qed.
Lemma cluster_laid ds sub c body args its p : well_declared ds = true -> c <> 45 -> cluster ds (c :: body) = Some (its, p) ->
  match p with
  | None => forall l rest, laid ds sub args l rest -> laid ds sub ((45 :: c :: body) :: args) (its ++ l) rest
  | Some i => forall v l rest, dashed v = false -> laid ds sub args l rest -> laid ds sub ((45 :: c :: body) :: v :: args) (its ++ Given i v :: l) rest
  end.
Proof.
  intro W. revert c its. induction body as [|x body IH]; intros c its Nc E.
  - cbn [cluster] in E. destruct (find_decl (short_is c) 0 ds) as [[i []]|] eqn:F; [| |discriminate]; destruct (short_decl _ _ _ _ F) as (d & N0 & S & T); injection E as <- <-; cbn [app].
    + intros v l rest D H. exact (l_form ds sub [[45; c]; v] i v args l rest (f_short_next ds i d c v N0 T S D) H).
    + intros l rest H. exact (l_form ds sub [[45; c]] i [] args l rest (f_switch_short ds i d c N0 T S) H).
  - destruct (find_decl (short_is c) 0 ds) as [[i []]|] eqn:F; [| |cbn [cluster] in E; rewrite F in E; discriminate]; destruct (short_decl _ _ _ _ F) as (d & N0 & S & T).
    + rewrite (cluster_takes _ _ _ _ F) in E. destruct (N.eqb_spec x 61) as [-> |Nx]; injection E as <- <-; intros l rest H; cbn [app].
      * exact (l_form ds sub [[45; c; 61] ++ body] i body args l rest (f_short_equals ds i d c body N0 T S) H).
      * exact (l_form ds sub [[45; c; x] ++ body] i (x :: body) args l rest (f_short_glued ds i d c x body N0 T S Nx) H).
    + set (b := x :: body) in *. cbn [cluster] in E. rewrite F in E. destruct (cluster ds b) as [[its' p']|] eqn:C; [|discriminate]. injection E as <- <-. subst b.
      assert (Nx : x <> 45). { intros ->. cbn [cluster] in C. destruct (find_decl (short_is 45) 0 ds) as [[j t]|] eqn:Q; [|discriminate]. destruct (short_decl _ _ _ _ Q) as (d' & N1 & S1 & _). destruct (decl_ok _ _ _ W N1) as (_ & _ & Z). now destruct (Z 45 S1). }
      specialize (IH x its' Nx C). destruct p' as [k|].
      * intros v l rest D H. cbn [app]. exact (l_cluster ds sub i d c x body _ _ rest N0 T S Nx (IH v l rest D H)).
      * intros l rest H. cbn [app]. exact (l_cluster ds sub i d c x body _ _ rest N0 T S Nx (IH l rest H)).
Qed.
Lemma laid_scan ds sub args its rest : well_declared ds = true -> scan ds sub args = Some (its, rest) -> laid ds sub args its rest.
Proof.
  intro W. enough (G : forall n args its rest, (length args <= n)%nat -> scan ds sub args = Some (its, rest) -> laid ds sub args its rest) by (intro E; exact (G _ _ _ _ (le_n _) E)).
  clear args its rest. induction n as [|n IH]; intros args its rest L E; [destruct args; [|cbn in L; lia]; injection E as <- <-; constructor|].
  destruct args as [|t args]; [injection E as <- <-; constructor|]. cbn [length] in L. destruct (dashed t) eqn:D.
  - destruct t as [|c0 [|c body]]; try discriminate D; [destruct c0 as [|p]; [discriminate D|do 6 (try destruct p as [p|p|]; try discriminate D)]|].
    assert (c0 = 45) as ->. { destruct c0 as [|p]; [discriminate D|]. do 6 (try destruct p as [p|p|]; try discriminate D). reflexivity. } destruct (N.eq_dec c 45) as [-> |Nc].
    + destruct body as [|x body].
      * cbn [scan dashed] in E. destruct sub; [discriminate|]. injection E as <- <-. constructor.
      * rewrite scan_long_shape in E. destruct (split_equals (x :: body)) as [nm va] eqn:S. apply split_equals_inv in S as [_ S]. destruct (find_decl (long_is nm) 0 ds) as [[i t]|] eqn:F; [|discriminate].
        destruct (find_decl_sound _ _ _ _ _ F) as (d & N0 & B & T & _). rewrite Nat.sub_0_r in N0. apply list_eqb_eq in B. subst nm. destruct t, va as [v|]; [| | discriminate|].
        -- apply prepend_inv in E as (l & E & ->). rewrite S. apply (l_form ds sub [[45; 45] ++ d_long d ++ [61] ++ v] i v args l rest); [now apply f_long_equals|]. apply IH; [lia|exact E].
        -- destruct args as [|v args]; [discriminate|]. destruct (dashed v) eqn:Dv; [discriminate|]. apply prepend_inv in E as (l & E & ->). rewrite S. cbn [length] in L. apply (l_form ds sub [[45; 45] ++ d_long d; v] i v args l rest); [now apply f_long_next|]. apply IH; [lia|exact E].
        -- apply prepend_inv in E as (l & E & ->). rewrite S. apply (l_form ds sub [[45; 45] ++ d_long d] i [] args l rest); [now apply f_switch_long|]. apply IH; [lia|exact E].
    + rewrite scan_short_shape in E by exact Nc. destruct (cluster ds (c :: body)) as [[its' [i|]]|] eqn:C; [| |discriminate].
      * destruct args as [|v args]; [discriminate|]. destruct (dashed v) eqn:Dv; [discriminate|]. apply prepend_inv in E as (l & E & ->). rewrite <- app_assoc. cbn [app length] in *. apply (cluster_laid ds sub c body args its' (Some i) W Nc C v l rest Dv). apply IH; [lia|exact E].
      * apply prepend_inv in E as (l & E & ->). apply (cluster_laid ds sub c body args its' None W Nc C l rest). apply IH; [lia|exact E].
  - cbn [scan] in E. rewrite D in E. destruct sub; [injection E as <- <-; now constructor|]. apply prepend_inv in E as (l & E & ->). cbn [app]. constructor; [exact D|]. apply IH; [lia|exact E].
Qed.
