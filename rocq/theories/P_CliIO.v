(** The commands over unreliable files. *)
From Coq Require Import Lia.
From Verif Require Import M_CliIO P_Base P_BufRead Prop_BufRead P_BufLines Prop_BufLines P_Batch.
Open Scope N_scope.

Definition fs_short (w : fs) : Prop := forall p c, w p = Some c -> len c < two64.

Lemma seen_cases c l : len c < two64 -> seen c l -> l = lines c \/ exists ls l', l = map Some ls ++ [None] /\ lines c = map Some ls ++ l'.
Proof.
  intros Hc [m n fuel ls ok [<- Hp] E]. pose proof (each_sim _ _ _ fuel _ _ _ fuel (md_sim (md_all m) (md_broken m) fuel) n _ 0 (medium_at m Hc Hp)) as H. unfold buf_each in E. rewrite E in H. change (rest (md_all m) 0) with (md_all m) in H. fold (lines (md_all m)) in H. destruct ok.
  - left. rewrite app_nil_r. symmetry. exact (proj1 H).
  - right. destruct H as (l' & H & _). exists ls, l'. split; [reflexivity|exact H].
Qed.
(** A loop that stops at the first error sees no more than this of a list. *)
Fixpoint cut (l : list (option (list byte))) : list (option (list byte)) :=
  match l with [] => [] | None :: _ => [None] | x :: r => x :: cut r end.
Lemma cut_app ls l : cut (map Some ls ++ l) = map Some ls ++ cut l.
Proof. induction ls as [|a ls IH]; [reflexivity|]. cbn. now rewrite IH. Qed.
Lemma seen_reliable c : len c < two64 -> exists l, seen c l /\ cut l = cut (lines c).
Proof.
  intro Hc. set (m := {| md_all := c; md_pos := 0; md_plan := []; md_broken := false |}). destruct (C85_each (S (length c)) (S (length c)) m Hc eq_refl) as (ls & H); [cbn; lia|cbn; lia|]. change (md_all m) with c in H. destruct H as [(E & _ & H)|(E & l & H & F)].
  - eexists. split; [exact (seen_run c m _ _ _ _ (conj eq_refl eq_refl) E)|]. cbv iota. now rewrite app_nil_r, H.
  - eexists. split; [exact (seen_run c m _ _ _ _ (conj eq_refl eq_refl) E)|]. cbv iota. destruct F as [[]|[F|(l' & ->)]]; [discriminate|]. now rewrite H, !cut_app.
Qed.
Lemma insert_cut pr wy l : forall f, insert_lines pr wy f (cut l) = insert_lines pr wy f l.
Proof. induction l as [|[a|] l IH]; intro f; [reflexivity| |reflexivity]. cbn. destruct (bf_insert_bytes pr wy f a) as [f' [x|e|]]; auto. Qed.
Lemma check_cut wy f a bad l : check_lines wy f a bad (cut l) = check_lines wy f a bad l.
Proof. induction l as [|[x|] l IH]; [reflexivity| |reflexivity]. cbn. destruct (check_line wy f a x); [now rewrite IH|reflexivity..]. Qed.
Lemma insert_stop pr wy ls l : forall f f' r, insert_lines pr wy f (map Some ls ++ [None]) = (f', r) -> r = Err IoError \/ r <> Ok tt /\ insert_lines pr wy f (map Some ls ++ l) = (f', r).
Proof.
  induction ls as [|a ls IH]; intros f f' r; cbn [map app insert_lines].
  - intro E. injection E as <- <-. now left.
  - destruct (bf_insert_bytes pr wy f a) as [g [x|e|]]; [exact (IH g f' r)| |]; intro E; injection E as <- <-; right; (split; [discriminate|reflexivity]).
Qed.
Lemma check_stop wy f a bad ls l : bad <> Ok tt -> exists out r, check_lines wy f a bad (map Some ls ++ [None]) = (out, r) /\ r <> Ok tt /\ prefix out (fst (check_lines wy f a bad (map Some ls ++ l))) /\ (r = bad \/ r = Err IoError \/ r = Panic \/ check_lines wy f a bad (map Some ls ++ l) = (out, r)).
Proof.
  intro B. induction ls as [|x ls (out & r & E & N & (t & P) & H)]; cbn [map app check_lines].
  - exists [], bad. split; [reflexivity|]. split; [exact B|]. split; [eexists; reflexivity|now left].
  - destruct (check_line wy f a x) as [o|e|].
    + rewrite E. exists (o ++ out), r. destruct (check_lines wy f a bad (map Some ls ++ l)) as [out' r']. cbn [fst] in *. split; [reflexivity|]. split; [exact N|]. split; [exists t; now rewrite P, app_assoc|]. destruct H as [H|[H|[H|H]]]; auto. injection H as <- <-. auto.
    + exists [], (Err e). split; [reflexivity|]. split; [discriminate|]. split; [now exists []|auto].
    + exists [], Panic. split; [reflexivity|]. split; [discriminate|]. split; [now exists []|auto].
Qed.

(** ** Loading *)
Definition open_load (pr : profile) (w : fs) (p : path) : outcome bloom := let? c := fs_open w p in bf_from_reader pr c.
Lemma load_any fuel pr m r : len (md_all m) < two64 -> md_pos m = 0 -> buf_load fuel pr m false = Some r -> r = bf_from_reader pr (md_all m) \/ r = Err IoError.
Proof.
  intros Hl Hp E. pose proof (load_core fuel pr m false Hl Hp) as H. rewrite E in H. unfold bf_from_reader. destruct r as [f|e|]; cbn [agree] in H.
  - destruct H as (f' & H & -> & _). left. congruence.
  - destruct e; auto; left; congruence.
  - left. congruence.
Qed.
Lemma file_load_cases pr w p r : fs_short w -> file_load pr w p r -> r = open_load pr w p \/ r = Err IoError.
Proof.
  intros Hw [|c m fuel r' E [<- Hp] H]; [now right|]. unfold open_load, fs_open. rewrite E. cbn [obind]. exact (load_any fuel pr m r' (Hw _ _ E) Hp H).
Qed.
Lemma load_reliable pr c : len c < two64 -> exists m fuel, fresh c m /\ buf_load fuel pr m false = Some (bf_from_reader pr c).
Proof.
  intro Hc. exists {| md_all := c; md_pos := 0; md_plan := []; md_broken := false |}, (S (length c)). split; [split; reflexivity|]. apply (C83_load (S (length c)) pr {| md_all := c; md_pos := 0; md_plan := []; md_broken := false |} false Hc eq_refl eq_refl); [easy|cbn; lia].
Qed.
Lemma file_load_reliable pr w p : fs_short w -> file_load pr w p (open_load pr w p).
Proof.
  intro Hw. unfold open_load, fs_open. destruct (w p) as [c|] eqn:E; [|constructor]. cbn [obind]. destruct (load_reliable pr c (Hw _ _ E)) as (m & fuel & F & H). exact (fload_ok pr w p c m fuel _ E F H).
Qed.

(** ** Insertion *)
Lemma process_cases pr wy w f p f' r : fs_short w -> process_io pr wy w f p (f', r) -> r = Err IoError \/ (f', r) = process_file pr wy w f p.
Proof.
  intros Hw H. inversion H as [e S Q|l S Q].
  - subst. inversion S. now left.
  - inversion S as [|c l' E S' Q']. subst l'. unfold process_file, fs_open. rewrite E. destruct (seen_cases c l (Hw _ _ E) S') as [->|(ls & l' & -> & ->)].
    + now right.
    + destruct (insert_stop pr wy ls l' f f' r Q) as [->|[_ ->]]; auto.
Qed.
Lemma process_done pr wy w f p f' : fs_short w -> process_io pr wy w f p (f', Ok tt) -> process_file pr wy w f p = (f', Ok tt).
Proof. intros Hw H. destruct (process_cases pr wy w f p f' (Ok tt) Hw H) as [Q|Q]; [discriminate|now symmetry]. Qed.
Lemma worker_cases pr wy w f b o : fs_short w -> worker_io pr wy w f b o -> o = worker pr wy w f b \/ o = Err IoError.
Proof.
  intros Hw H. induction H as [f|f p r f' o P H IH|f p r f' e P|f p r f' P]; cbn [worker].
  - now left.
  - now rewrite (process_done _ _ _ _ _ _ Hw P).
  - destruct (process_cases _ _ _ _ _ _ _ Hw P) as [Q|<-]; [right; congruence|now left].
  - destruct (process_cases _ _ _ _ _ _ _ Hw P) as [Q|<-]; [discriminate|now left].
Qed.
Lemma process_reliable pr wy w f p : fs_short w -> process_io pr wy w f p (process_file pr wy w f p).
Proof.
  intro Hw. unfold process_file, fs_open. destruct (w p) as [c|] eqn:E; [|apply process_err; constructor]. destruct (seen_reliable c (Hw _ _ E)) as (l & S & C). rewrite <- insert_cut, <- C, insert_cut. apply process_ok. now apply (fseen_ok w p c l).
Qed.
Lemma worker_reliable pr wy w b : fs_short w -> forall f, worker_io pr wy w f b (worker pr wy w f b).
Proof.
  intro Hw. induction b as [|p r IH]; intro f; cbn [worker]; [constructor|]. pose proof (process_reliable pr wy w f p Hw) as P. destruct (process_file pr wy w f p) as [f' [[]|e|]].
  - now apply (worker_next pr wy w f p r f').
  - now apply (worker_err pr wy w f p r f').
  - now apply (worker_panic pr wy w f p r f').
Qed.
Lemma join_bad {A} (l : list (outcome A)) e : In (Err e) l -> join_all l = Panic.
Proof. induction l as [|x l IH]; [easy|]. intros [->|H]; [reflexivity|]. cbn. destruct x; [now rewrite IH|reflexivity..]. Qed.
Lemma parallel_cases pr L wy par w f files jobs r : fs_short w -> parallel_io pr L wy par w f files jobs r -> r = parallel_insert pr L wy par w f files jobs \/ r = Panic.
Proof.
  intros Hw [->|rs N F]; [now left|]. destruct files as [|p0 files0]; [contradiction|]. unfold parallel_insert. set (files := p0 :: files0) in *. clearbody files. assert (C : rs = map (worker pr wy w f) (batches files (optimal_jobs par jobs)) \/ In (Err IoError) rs).
  { clear N. induction F as [|b o bs rs H F IH]; [now left|]. destruct (worker_cases _ _ _ _ _ _ Hw H) as [->|Q]; [|right; left; exact Q]. destruct IH as [->|IH]; [now left|right; now right]. }
  destruct C as [->|C]; [now left|right]. now rewrite (join_bad _ _ C).
Qed.
Lemma parallel_reliable pr L wy par w f files jobs : fs_short w -> parallel_io pr L wy par w f files jobs (parallel_insert pr L wy par w f files jobs).
Proof.
  intro Hw. destruct files as [|p0 files0]; [now constructor|]. unfold parallel_insert. apply par_run; [discriminate|]. generalize (batches (p0 :: files0) (optimal_jobs par jobs)). intro bs. induction bs as [|b bs IH]; constructor; [now apply worker_reliable|exact IH].
Qed.
Lemma stdin_cases pr wy stdin a f r : len stdin < two64 -> insert_stdin_io pr wy stdin a f r ->
  r = Err IoError \/ r = if ia_stdin a || is_nil (ia_inputs a) then let '(bf', r) := insert_lines pr wy f (lines stdin) in let? _ := r in Ok bf' else Ok f.
Proof.
  intros Hs [C|l f' r' C S E]; rewrite C; [now right|]. destruct (seen_cases stdin l Hs S) as [->|(ls & l' & -> & ->)].
  - right. now rewrite E.
  - destruct (insert_stop pr wy ls l' f f' r' E) as [->|[_ ->]]; auto.
Qed.
Lemma stdin_reliable pr wy stdin a f : len stdin < two64 -> insert_stdin_io pr wy stdin a f (if ia_stdin a || is_nil (ia_inputs a) then let '(bf', r) := insert_lines pr wy f (lines stdin) in let? _ := r in Ok bf' else Ok f).
Proof.
  intro Hs. destruct (ia_stdin a || is_nil (ia_inputs a)) eqn:C; [|now constructor]. destruct (seen_reliable stdin Hs) as (l & S & Q). rewrite <- insert_cut, <- Q, insert_cut. destruct (insert_lines pr wy f l) as [f' r] eqn:E. now apply (is_run pr wy stdin a f l f' r).
Qed.
Lemma insert_filter_cases pr L wy par w stdin jobs a r : fs_short w -> len stdin < two64 -> insert_filter_io pr L wy par w stdin jobs a r ->
  r = insert_filter pr L wy par w stdin jobs a \/ r = Err IoError \/ r = Panic.
Proof.
  intros Hw Hs H. assert (EQ : insert_filter pr L wy par w stdin jobs a = let? bf := open_load pr w (ia_file a) in let? bf := if ia_stdin a || is_nil (ia_inputs a) then let '(bf', r) := insert_lines pr wy bf (lines stdin) in let? _ := r in Ok bf' else Ok bf in parallel_insert pr L wy par w bf (ia_inputs a) jobs).
  { unfold insert_filter, open_load. destruct (fs_open w (ia_file a)); reflexivity. }
  rewrite EQ. clear EQ. destruct H as [r F N|f r F S N|f f' r F S P].
  - destruct (file_load_cases _ _ _ _ Hw F) as [<-|Q]; [|now right; left]. left. destruct r as [f|e|]; [now destruct (N f)|reflexivity..].
  - destruct (file_load_cases _ _ _ _ Hw F) as [<-|Q]; [|discriminate]. cbn [obind]. destruct (stdin_cases _ _ _ _ _ _ Hs S) as [Q|<-]; [now right; left|]. left. destruct r as [g|e|]; [now destruct (N g)|reflexivity..].
  - destruct (file_load_cases _ _ _ _ Hw F) as [<-|Q]; [|discriminate]. cbn [obind]. destruct (stdin_cases _ _ _ _ _ _ Hs S) as [Q|<-]; [discriminate|]. cbn [obind]. destruct (parallel_cases _ _ _ _ _ _ _ _ _ Hw P); auto.
Qed.
Lemma insert_filter_reliable pr L wy par w stdin jobs a : fs_short w -> len stdin < two64 -> insert_filter_io pr L wy par w stdin jobs a (insert_filter pr L wy par w stdin jobs a).
Proof.
  intros Hw Hs. assert (EQ : insert_filter pr L wy par w stdin jobs a = let? bf := open_load pr w (ia_file a) in let? bf := if ia_stdin a || is_nil (ia_inputs a) then let '(bf', r) := insert_lines pr wy bf (lines stdin) in let? _ := r in Ok bf' else Ok bf in parallel_insert pr L wy par w bf (ia_inputs a) jobs).
  { unfold insert_filter, open_load. destruct (fs_open w (ia_file a)); reflexivity. }
  rewrite EQ. clear EQ. pose proof (file_load_reliable pr w (ia_file a) Hw) as F. destruct (open_load pr w (ia_file a)) as [f|e|]; cbn [obind]; [|now apply if_load..].
  pose proof (stdin_reliable pr wy stdin a f Hs) as S. match type of S with insert_stdin_io _ _ _ _ _ ?x => destruct x as [f'|e|] end; cbn [obind]; [|eapply if_stdin; [exact F|exact S|discriminate]..].
  eapply if_run; [exact F|exact S|]. now apply parallel_reliable.
Qed.

(** ** Counting and creating *)
(** At least the lines of the file were counted. *)
Definition enough (w : fs) (p : path) (k : N) : Prop := exists c, w p = Some c /\ len (lines c) <= k.
Lemma count_enough w p k : fs_short w -> count_io w p (Ok k) -> enough w p k /\ k < two64.
Proof. intros Hw H. inversion H as [|c m n fuel k' E [<- Hp] B K]. split; [|exact K]. exists (md_all m). split; [exact E|]. exact (C85_count_least n fuel m k (Hw _ _ E) Hp B). Qed.
Lemma add_wrap pr a b x : checked_add pr a b = Ok x -> x = w64 (a + b).
Proof. unfold checked_add. destruct pr; destruct (a + b <? two64) eqn:E; intro Q; try discriminate Q; injection Q as <-; try reflexivity; symmetry; apply N.mod_small; now apply N.ltb_lt. Qed.
Lemma w64_add a b : w64 (w64 a + b) = w64 (a + b).
Proof. unfold w64. now rewrite N.add_mod_idemp_l. Qed.
Lemma batch_enough pr w b : fs_short w -> forall acc n, count_batch_io pr w acc b (Ok n) -> exists ks, Forall2 (enough w) b ks /\ w64 n = w64 (acc + sumN ks) /\ (acc < two64 -> n < two64).
Proof.
  intro Hw. induction b as [|p b IH]; intros acc n H; inversion H as [a|a p' r e C|a p' r k C Q|a p' r k acc' o C Q R]; subst.
  - exists []. split; [constructor|]. cbn [sumN fold_right]. now rewrite N.add_0_r.
  - destruct (count_enough w p k Hw C) as [G K]. apply add_wrap in Q. subst acc'. destruct (IH _ _ R) as (ks & F & E & S). exists (k :: ks). split; [now constructor|]. split.
    + rewrite E, w64_add. f_equal. change (sumN (k :: ks)) with (k + sumN ks). lia.
    + intros _. apply S. now apply N.mod_lt.
Qed.
Lemma sumN_app a b : sumN (a ++ b) = sumN a + sumN b.
Proof. unfold sumN. induction a as [|x a IH]; [reflexivity|]. cbn [app fold_right]. rewrite IH. lia. Qed.
Lemma joined_enough pr w bs rs : fs_short w -> Forall2 (count_batch_io pr w 0) bs rs -> forall acc n, sum_joined pr acc rs = Ok n -> exists ks, Forall2 (enough w) (concat bs) ks /\ w64 n = w64 (acc + sumN ks) /\ (acc < two64 -> n < two64).
Proof.
  intros Hw F. induction F as [|b o bs rs H F IH]; intros acc n E; cbn [sum_joined] in E.
  - injection E as <-. exists []. split; [constructor|]. cbn [sumN fold_right]. now rewrite N.add_0_r.
  - destruct o as [k|e|]; [|discriminate..]. cbn [obind] in E. destruct (checked_add pr acc k) as [acc'|e|] eqn:Q; [|discriminate..]. cbn [obind] in E. apply add_wrap in Q. subst acc'. destruct (IH _ _ E) as (ks & Fk & Ek & S). destruct (batch_enough pr w b Hw 0 k H) as (ks' & Fk' & Ek' & _). exists (ks' ++ ks). split; [cbn [concat]; now apply Forall2_app|]. split.
    + rewrite Ek, w64_add, sumN_app. rewrite N.add_0_l in Ek'. unfold w64 in *. rewrite <- (N.add_mod_idemp_l (acc + k)), <- (N.add_mod_idemp_r acc k), Ek', N.add_mod_idemp_r, N.add_mod_idemp_l by discriminate. f_equal. lia.
    + intros _. apply S. now apply N.mod_lt.
Qed.

Lemma counted_enough pr par w files jobs n : fs_short w -> count_lines_io pr par w files jobs (Ok n) -> exists ks, Forall2 (enough w) files ks /\ n = w64 (sumN ks).
Proof.
  intros Hw H. inversion H as [rs F E]. destruct (joined_enough pr w _ rs Hw F 0 n E) as (ks & Fk & Ek & S). rewrite batches_concat in Fk. exists ks. split; [exact Fk|]. rewrite N.add_0_l in Ek. rewrite <- Ek. symmetry. apply N.mod_small. now apply S.
Qed.
Lemma batch_err pr w b : forall acc e, count_batch_io pr w acc b (Err e) -> e = IoError.
Proof. induction b as [|p b IH]; intros acc e H; inversion H as [a|a p' r e' C|a p' r k C Q|a p' r k acc' o C Q R]; subst; [now inversion C|eauto]. Qed.
Lemma counted_err pr par w files jobs e : count_lines_io pr par w files jobs (Err e) -> e = IoError.
Proof.
  intro H. inversion H as [rs F E]. revert E. generalize 0 at 1. induction F as [|b o bs rs' HB F IH]; intros acc E; cbn [sum_joined] in E; [discriminate|]. destruct o as [k|e'|]; cbn [obind] in E; [|injection E as ->; exact (batch_err _ _ _ _ _ HB)|discriminate].
  destruct (checked_add pr acc k) as [x|e'|] eqn:Q; cbn [obind] in E; [eauto| |discriminate]. unfold checked_add in Q. destruct (acc + k <? two64); [discriminate|]. destruct pr; discriminate.
Qed.
(** create with this capacity, its output having been checked. *)
Definition create_with pr L wy par (w : fs) (room : N) (jobs : usize) (a : create_args) (capacity : usize) : fs * outcome unit :=
  match (let? o := opt_of_u8 (ca_optimize a) in
         let? b := bf_of_params pr L (params_opt (params_version (params_new capacity (ca_probability a)) (ca_version a)) o) in
         parallel_insert pr L wy par w b (ca_dataset a) jobs) with
  | Ok bf => save w (ca_file a) bf room
  | Err e => (w, Err e)
  | Panic => (w, Panic)
  end.
Lemma fill_cases pr L wy par w jobs a cap r : fs_short w -> fill_io pr L wy par w jobs a cap r ->
  r = (let? o := opt_of_u8 (ca_optimize a) in
       let? b := bf_of_params pr L (params_opt (params_version (params_new cap (ca_probability a)) (ca_version a)) o) in
       parallel_insert pr L wy par w b (ca_dataset a) jobs) \/ r = Panic.
Proof.
  intros Hw [e E|o r' E1 E2 N|o b r' E1 E2 P].
  - left. now rewrite E.
  - left. rewrite E1. cbn [obind]. rewrite E2. destruct r' as [b|e|]; [now destruct (N b)|reflexivity..].
  - rewrite E1. cbn [obind]. rewrite E2. cbn [obind]. exact (parallel_cases _ _ _ _ _ _ _ _ _ Hw P).
Qed.
Lemma output_cases pr w p r : fs_short w -> check_output_io pr w p r -> r = check_output pr w p \/ r = Err IoError \/ r = Err NotPoppy.
Proof.
  intros Hw [E|E|c m fuel r' E [<- Hp] H]; unfold check_output.
  - rewrite E. now left.
  - auto.
  - rewrite E. destruct (load_any fuel pr m r' (Hw _ _ E) Hp H) as [<-| ->]; auto.
Qed.
Lemma output_ok pr w p : fs_short w -> check_output_io pr w p (Ok tt) -> check_output pr w p = Ok tt.
Proof. intros Hw H. destruct (output_cases pr w p (Ok tt) Hw H) as [<-|[Q|Q]]; [reflexivity|discriminate..]. Qed.
Lemma output_err pr w p r : fs_short w -> check_output_io pr w p r -> r = Ok tt \/ r = Err IoError \/ r = Err NotPoppy \/ r = Panic.
Proof. intros _ [E|E|c m fuel r' E F H]; auto. destruct r'; auto. Qed.

Lemma segments_bound s : (length (segments s) <= length s)%nat.
Proof. induction s as [|c s IH]; [cbn; lia|]. cbn. destruct (c =? LF); [cbn; lia|]. destruct (segments s); cbn in *; lia. Qed.
Lemma count_reliable w p : fs_short w -> count_io w p (let? c := fs_open w p in Ok (len (lines c))).
Proof.
  intro Hw. unfold fs_open. destruct (w p) as [c|] eqn:E; [|constructor]. cbn [obind]. set (m := {| md_all := c; md_pos := 0; md_plan := []; md_broken := false |}). pose proof (Hw _ _ E) as Hc.
  destruct (C85_lines (S (length c)) (S (length c)) m Hc eq_refl eq_refl) as [_ B]; [easy|cbn; lia|cbn; lia|]. apply (count_ok w p c m _ _ _ E (conj eq_refl eq_refl) B). change (md_all m) with c. unfold lines, len in *. rewrite map_length. pose proof (segments_bound c). lia.
Qed.
Lemma batch_reliable pr w b : fs_short w -> forall acc, count_batch_io pr w acc b (count_lines_batch pr w acc b).
Proof.
  intro Hw. induction b as [|p b IH]; intro acc; cbn [count_lines_batch]; [constructor|]. pose proof (count_reliable w p Hw) as C. destruct (fs_open w p) as [c|e|]; cbn [obind] in *; [|now apply cb_err|inversion C]. destruct (checked_add pr acc (len (lines c))) as [x|e|] eqn:Q; cbn [obind].
  - now apply (cb_next pr w acc p b (len (lines c)) x).
  - unfold checked_add in Q. destruct (acc + len (lines c) <? two64); [discriminate|]. destruct pr; discriminate.
  - now apply (cb_over pr w acc p b (len (lines c))).
Qed.
Lemma counted_reliable pr par w files jobs : fs_short w -> count_lines_io pr par w files jobs (count_lines_parallel pr par w files jobs).
Proof.
  intro Hw. apply cl_run. generalize (batches files (optimal_jobs par jobs)). intro bs. induction bs as [|b bs IH]; constructor; [now apply batch_reliable|exact IH].
Qed.
Lemma opt_no_panic v : opt_of_u8 v <> Panic.
Proof. unfold opt_of_u8. repeat (destruct (_ =? _); [discriminate|]). discriminate. Qed.
Lemma fill_reliable pr L wy par w jobs a cap : fs_short w -> fill_io pr L wy par w jobs a cap (let? o := opt_of_u8 (ca_optimize a) in
       let? b := bf_of_params pr L (params_opt (params_version (params_new cap (ca_probability a)) (ca_version a)) o) in
       parallel_insert pr L wy par w b (ca_dataset a) jobs).
Proof.
  intro Hw. destruct (opt_of_u8 (ca_optimize a)) as [o|e|] eqn:E; cbn [obind]; [|now apply fill_opt|now destruct (opt_no_panic _ E)]. destruct (bf_of_params pr L _) as [b|e|] eqn:M; cbn [obind].
  - apply (fill_run pr L wy par w jobs a cap o b); auto. now apply parallel_reliable.
  - now apply (fill_make pr L wy par w jobs a cap o (Err e)).
  - now apply (fill_make pr L wy par w jobs a cap o Panic).
Qed.
Lemma output_reliable pr w p : fs_short w -> check_output_io pr w p (check_output pr w p).
Proof.
  intro Hw. unfold check_output. destruct (w p) as [c|] eqn:E; [|now constructor]. destruct (load_reliable pr c (Hw _ _ E)) as (m & fuel & F & H). pose proof (co_load pr w p c m fuel _ E F H) as G. destruct (bf_from_reader pr c); exact G.
Qed.
Lemma create_filter_reliable pr L wy par w jobs a : fs_short w -> create_filter_io pr L wy par w jobs a (create_filter pr L wy par w jobs a).
Proof.
  intro Hw. unfold create_filter. pose proof (output_reliable pr w (ca_file a) Hw) as O. destruct (check_output pr w (ca_file a)) as [[]|e|]; cbn [obind]; [|now constructor..]. destruct (ca_dataset a) as [|p0 ps] eqn:D.
  - cbn [obind]. rewrite <- D. apply cr_given; [exact O|exact D|]. now apply fill_reliable.
  - rewrite <- D. assert (N : ca_dataset a <> []) by (rewrite D; discriminate). clear D. pose proof (counted_reliable pr par w (ca_dataset a) jobs Hw) as C. destruct (count_lines_parallel pr par w (ca_dataset a) jobs) as [k|e|]; cbn [obind].
    + apply (cr_counted pr L wy par w jobs a k); auto. now apply fill_reliable.
    + now apply cr_count_err.
    + now apply cr_count_panic.
Qed.

(** ** Checking *)
Lemma check_seen wy f a c l bad : len c < two64 -> bad <> Ok tt -> seen c l -> exists out r, check_lines wy f a bad l = (out, r) /\ prefix out (fst (check_lines wy f a bad (lines c))) /\ (r = Ok tt -> check_lines wy f a bad (lines c) = (out, r)).
Proof.
  intros Hc B S. destruct (seen_cases c l Hc S) as [->|(ls & l' & -> & ->)].
  - destruct (check_lines wy f a bad (lines c)) as [out r]. exists out, r. split; [reflexivity|]. split; [exists []; now rewrite app_nil_r|auto].
  - destruct (check_stop wy f a bad ls l' B) as (out & r & E & N & P & _). exists out, r. split; [exact E|]. split; [exact P|contradiction].
Qed.
Lemma check_worker_cases wy w f a b x : fs_short w -> check_worker_io wy w f a b x -> prefix (fst x) (fst (check_worker wy w f a b)) /\ (snd x = Ok tt -> x = check_worker wy w f a b).
Proof.
  intros Hw H. induction H as [|p r e S|p r l out e S E N|p r l out out' e S E H IH]; cbn [fst snd check_worker].
  - split; [now exists []|auto].
  - split; [eexists; reflexivity|discriminate].
  - split; [|contradiction]. inversion S as [|c l' Q S']. subst l'. unfold fs_open. rewrite Q. destruct (check_seen wy f a c l (Err IoError) (Hw _ _ Q)) as (out0 & r0 & E0 & P & _); [discriminate|exact S'|]. assert (out0 = out) by congruence. subst out0. destruct P as (t & P). destruct (check_lines wy f a (Err IoError) (lines c)) as [o [[]|e'|]]; cbn [fst] in *; [|exists t; exact P..]. destruct (check_worker wy w f a r) as [o' r']. cbn [fst]. exists (t ++ o'). now rewrite P, app_assoc.
  - inversion S as [|c l' Q S']. subst l'. unfold fs_open. rewrite Q. destruct (check_seen wy f a c l (Err IoError) (Hw _ _ Q)) as (out0 & r0 & E0 & _ & P); [discriminate|exact S'|]. assert (out0 = out /\ r0 = Ok tt) as [-> ->] by (rewrite E0 in E; injection E; auto). rewrite (P eq_refl). destruct (check_worker wy w f a r) as [o' r']. cbn [fst snd] in *. destruct IH as [(t & IH1) IH2]. split; [exists t; now rewrite IH1, app_assoc|].
    intros ->. now injection (IH2 eq_refl) as -> <-.
Qed.
Lemma check_worker_reliable wy w f a b : fs_short w -> check_worker_io wy w f a b (check_worker wy w f a b).
Proof.
  intro Hw. induction b as [|p r IH]; cbn [check_worker]; [constructor|]. unfold fs_open. destruct (w p) as [c|] eqn:Q; [|apply cw_open; constructor]. destruct (seen_reliable c (Hw _ _ Q)) as (l & S & C). rewrite <- check_cut, <- C, check_cut. pose proof (fseen_ok w p c l Q S) as FS. destruct (check_lines wy f a (Err IoError) l) as [out [[]|e|]] eqn:E.
  - destruct (check_worker wy w f a r) as [out' res]. now apply (cw_next wy w f a p r l).
  - now apply (cw_stop wy w f a p r l).
  - now apply (cw_stop wy w f a p r l).
Qed.
Lemma join_ok l : join_units l = Ok tt -> Forall (fun r => r = Ok tt) l.
Proof. induction l as [|[[]|e|] l IH]; cbn; intro E; [constructor|constructor; auto|discriminate..]. Qed.
Lemma prefix_trans {A} (a b c : list A) : prefix a b -> prefix b c -> prefix a c.
Proof. intros (x & ->) (y & ->). exists (x ++ y). now rewrite app_assoc. Qed.
Lemma check_files_cases wy w f a jobs out r : fs_short w -> check_files_io wy w f a jobs out r ->
  (r = Ok tt -> check_files wy w f a jobs out r) /\ exists outs, interleave outs out /\ (outs = [] \/ Forall2 prefix outs (map (fun b => fst (check_worker wy w f a b)) (batches (ka_inputs a) jobs))).
Proof.
  intros Hw [E|N J|ws outs out' N J F C I].
  - split; [intros _; now constructor|]. exists []. split; [constructor; constructor|now left].
  - split; [discriminate|]. exists []. split; [constructor; constructor|now left].
  - assert (P : Forall2 prefix (map fst ws) (map (fun b => fst (check_worker wy w f a b)) (batches (ka_inputs a) jobs))).
    { clear - F Hw. induction F as [|b x bs ws H F IH]; cbn [map]; constructor; [exact (proj1 (check_worker_cases _ _ _ _ _ _ Hw H))|exact IH]. }
    split.
    + intro E. rewrite E in C |- *. apply join_ok in E. assert (W : ws = map (check_worker wy w f a) (batches (ka_inputs a) jobs)).
      { clear - F E Hw. induction F as [|b x bs ws H F IH]; [reflexivity|]. cbn [map] in *. inversion E as [|y z E1 E2]; subst. rewrite (proj2 (check_worker_cases _ _ _ _ _ _ Hw H) E1) at 1. f_equal. now apply IH. }
      assert (J' : join_units (map snd (map (check_worker wy w f a) (batches (ka_inputs a) jobs))) = Ok tt) by (rewrite <- W; clear - E; induction E as [|x l -> _ IH]; [reflexivity|exact IH]).
      rewrite <- J'. apply (cf_run wy w f a jobs outs out' N J); [rewrite J', <- W; exact C|exact I].
    + exists outs. split; [exact I|]. right. destruct (match join_units (map snd ws) with Ok _ => true | _ => false end); [now subst outs|]. clear - C P. revert P. generalize (map (fun b => fst (check_worker wy w f a b)) (batches (ka_inputs a) jobs)). induction C as [|x y l l' H C IH]; intros m P; inversion P as [|y' z l2 m' H' P']; subst; constructor; [exact (prefix_trans _ _ _ H H')|now apply IH].
Qed.
