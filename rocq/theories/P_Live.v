(** Two processes and one filter file: what each can have seen, and what the file can hold. *)
From Coq Require Import Lia.
From Verif Require Import M_Live Spec_Bits Spec_Hash Spec_V2 Spec_V2File Spec_V1 Spec_Bloom Spec_Cli P_Base P_BitSet P_IO P_Codec P_V1Codec P_V2Codec P_Bloom P_Par P_Lines P_Create P_Mix Prop_Create Prop_Build.
Open Scope N_scope.

(** What the theorems need to know of insert. *)
Definition grows_filter (f0 : bloom) (X : spot -> Prop) (go : bloom -> outcome bloom) : Prop :=
  forall h g, bf_wf h -> bf_same_frame f0 h -> go h = Ok g -> bf_wf g /\ bf_same_frame h g /\ bf_data g = bf_data h /\ forall p, bf_spot g p = true <-> bf_spot h p = true \/ X p.
Lemma only_read_grows f0 X : grows_filter f0 X only_read.
Proof. intros h g _ _ E. discriminate. Qed.
(** [a] is the beginning of [b]. *)
Definition prefix (a b : list byte) : Prop := exists r, b = a ++ r.
Lemma prefix_refl a : prefix a a.
Proof. exists []. now rewrite app_nil_r. Qed.
Lemma prefix_len a b : prefix a b -> len a <= len b.
Proof. intros (r & ->). rewrite len_app. lia. Qed.
Lemma prefix_byte a b i x : prefix a b -> getN a i = Some x -> getN b i = Some x.
Proof. intros (r & ->) E. rewrite getN_prefix; [exact E|exact (getN_lt _ _ _ E)]. Qed.
Lemma prefix_bytes a b : (forall i x, getN a i = Some x -> getN b i = Some x) -> prefix a b.
Proof.
  intro H. exists (skipn (length a) b). assert (E : a = firstn (length a) b); [|rewrite E at 1; now rewrite firstn_skipn]. assert (L : len a <= len b).
  { destruct (N.eq_dec (len a) 0) as [Z|Z]; [lia|]. destruct (proj1 (getN_Some a (len a - 1)) ltac:(lia)) as (x & Ex). apply H, getN_lt in Ex. lia. }
  apply (same_bytes _ _ (len a)); [reflexivity|rewrite len_firstn; unfold len in *; lia|]. intros i Hi. rewrite getN_firstn by (unfold len in *; lia). destruct (proj1 (getN_Some a i) Hi) as (x & Ex). rewrite Ex. symmetry. now apply H.
Qed.

Lemma getN_write_at c off d i : getN (write_at c off d) i =
  if i <? off then (if i <? len c then getN c i else Some 0) else if i <? off + len d then getN d (i - off) else getN c i.
Proof.
  unfold write_at. set (z := c ++ repeat 0 (N.to_nat (off - len c))). assert (Lz : off <= len z) by (unfold z; rewrite len_app; unfold len at 2; rewrite repeat_length; lia).
  assert (Lf : len (firstn (N.to_nat off) z) = off) by (rewrite len_firstn; lia). rewrite getN_app, Lf. destruct (N.ltb_spec i off) as [H|H].
  - rewrite getN_firstn by lia. unfold z. rewrite getN_app. destruct (i <? len c) eqn:E; [reflexivity|]. apply N.ltb_ge in E. apply getN_repeat. lia.
  - rewrite getN_app. destruct (N.ltb_spec (i - off) (len d)) as [G|G]; destruct (N.ltb_spec i (off + len d)); try lia; [reflexivity|]. rewrite getN_skipn. f_equal. lia.
Qed.
Lemma len_write_at c off d : len (write_at c off d) = N.max (len c) (off + len d).
Proof.
  unfold write_at. rewrite 2!len_app, len_firstn, len_app, len_skipn. assert (R : len (repeat 0 (N.to_nat (off - len c))) = off - len c) by (unfold len; rewrite repeat_length; lia). rewrite R. lia.
Qed.
Lemma bytes_write_at c off d : bytes_ok c -> bytes_ok d -> bytes_ok (write_at c off d).
Proof.
  intros B D. apply Forall_forall. intros x Hx. apply In_nth_error in Hx as (n & E). assert (G : getN (write_at c off d) (N.of_nat n) = Some x) by (unfold getN; now rewrite Nat2N.id). rewrite getN_write_at in G.
  destruct (_ <? off); [destruct (_ <? len c); [exact (Forall_getN _ _ _ _ B G)|injection G as <-; reflexivity]|]. destruct (_ <? _); [exact (Forall_getN _ _ _ _ D G)|exact (Forall_getN _ _ _ _ B G)].
Qed.
(** Appending. *)
Lemma write_at_end c d : write_at c (len c) d = c ++ d.
Proof.
  unfold write_at. rewrite N.sub_diag. cbn [N.to_nat repeat]. rewrite app_nil_r. rewrite firstn_all2 by (unfold len; lia). rewrite skipn_all2 by (unfold len; lia). now rewrite app_nil_r.
Qed.
Lemma firstn_more {A} n (l d r : list A) : skipn n l = d ++ r -> firstn (n + length d) l = firstn n l ++ d.
Proof.
  revert l. induction n as [|n IH]; intros l E.
  - cbn in *. subst l. rewrite firstn_app, firstn_all, Nat.sub_diag. cbn. apply app_nil_r.
  - destruct l as [|x l]; [cbn in E; symmetry in E; apply app_eq_nil in E as [-> ->]; reflexivity|]. cbn in *. f_equal. now apply IH.
Qed.

(** [f0] is the filter in the file at the start. *)
Definition loaded (f0 : bloom) (G : bloom -> Prop) (h : bloom) : Prop :=
  bf_wf h /\ bf_same_frame f0 h /\ prefix (bf_data h) (bf_data f0) /\ forall p, exists f, G f /\ bf_spot h p = bf_spot f p.
Definition seen_from (f0 : bloom) (G : bloom -> Prop) (s : list byte) : Prop :=
  len s <= len (bf_write f0) /\ forall i x, getN s i = Some x -> exists f, G f /\ getN (bf_write f) i = Some x.
Definition result (go : bloom -> outcome bloom) (f0 : bloom) (G : bloom -> Prop) (g : bloom) : Prop := exists h, loaded f0 G h /\ go h = Ok g.
(** A process that has not truncated the file and can have seen the filters of [G]. *)
Definition calm (go : bloom -> outcome bloom) (f0 : bloom) (G : bloom -> Prop) (p : proc) : Prop :=
  match p with Reading s => seen_from f0 G s | Loaded h => loaded f0 G h | Ready g => result go f0 G g | Failed => True | Saving _ _ | Done => False end.
(** A process while nobody has truncated the file. *)
Definition first (go : bloom -> outcome bloom) (f0 : bloom) (p : proc) : Prop :=
  match p with Reading s => prefix s (bf_write f0) | Loaded h => h = f0 | Ready g => go f0 = Ok g | Failed => True | Saving _ _ | Done => False end.
(** A process that truncated the file to save [g], and has written [n] bytes if it has not failed. *)
Definition saved (g : bloom) (n : N) (p : proc) : Prop :=
  match p with Saving g' off => g' = g /\ off = n /\ n <= len (bf_write g) | Done => n = len (bf_write g) | Failed => n <= len (bf_write g) | _ => False end.
(** The bytes of the filter below [n] come from [g1] or [g2]. *)
Definition covered (f0 g1 g2 : bloom) (n : N) (c : list byte) : Prop :=
  forall i, i < n -> i < bf_core f0 -> exists x f, getN c i = Some x /\ (f = g1 \/ f = g2) /\ getN (bf_write f) i = Some x.
Inductive inv (go1 go2 : bloom -> outcome bloom) (f0 : bloom) (c : list byte) (p q : proc) : Prop :=
| inv_none : c = bf_write f0 -> first go1 f0 p -> first go2 f0 q -> inv go1 go2 f0 c p q
| inv_left : forall g n, go1 f0 = Ok g -> saved g n p -> c = firstn (N.to_nat n) (bf_write g) -> calm go2 f0 (fun f => f = f0 \/ f = g) q -> inv go1 go2 f0 c p q
| inv_right : forall g n, go2 f0 = Ok g -> saved g n q -> c = firstn (N.to_nat n) (bf_write g) -> calm go1 f0 (fun f => f = f0 \/ f = g) p -> inv go1 go2 f0 c p q
| inv_both : forall g1 g2 n1 n2,
    (go1 f0 = Ok g1 /\ result go2 f0 (fun f => f = f0 \/ f = g1) g2 \/ go2 f0 = Ok g2 /\ result go1 f0 (fun f => f = f0 \/ f = g2) g1) ->
    saved g1 n1 p -> saved g2 n2 q -> bytes_ok c -> len c <= len (bf_write f0) ->
    (covered f0 g1 g2 n1 c \/ covered f0 g1 g2 n2 c) -> inv go1 go2 f0 c p q.

Lemma inv_swap go1 go2 f0 c p q : inv go1 go2 f0 c p q -> inv go2 go1 f0 c q p.
Proof.
  intros [E A B|g n R S E C|g n R S E C|g1 g2 n1 n2 R S1 S2 B L C].
  - now apply inv_none.
  - now apply (inv_right _ _ _ _ _ _ g n).
  - now apply (inv_left _ _ _ _ _ _ g n).
  - apply (inv_both _ _ _ _ _ _ g2 g1 n2 n1); auto; [tauto|]. assert (SW : forall n, covered f0 g1 g2 n c -> covered f0 g2 g1 n c) by (intros n H i Hi Hc; destruct (H i Hi Hc) as (x & f & X & Y & Z); exists x, f; tauto). destruct C as [C|C]; [right|left]; now apply SW.
Qed.
Lemma loaded_weaken f0 (G H : bloom -> Prop) h : (forall f, G f -> H f) -> loaded f0 G h -> loaded f0 H h.
Proof. intros W (A & B & C & D). split; [exact A|]. split; [exact B|]. split; [exact C|]. intro p. destruct (D p) as (f & Gf & E). eauto. Qed.
Lemma result_weaken go f0 (G H : bloom -> Prop) g : (forall f, G f -> H f) -> result go f0 G g -> result go f0 H g.
Proof. intros W (h & A & B). exists h. split; [exact (loaded_weaken _ _ _ _ W A)|exact B]. Qed.
Lemma calm_weaken go f0 (G H : bloom -> Prop) p : (forall f, G f -> H f) -> calm go f0 G p -> calm go f0 H p.
Proof.
  intros W. destruct p; cbn; auto.
  - intros (A & B). split; [exact A|]. intros i x E. destruct (B i x E) as (f & Gf & Ef). eauto.
  - now apply loaded_weaken.
  - now apply result_weaken.
Qed.
(** Facts about the results of a process. *)
Record good (f0 : bloom) (X : spot -> Prop) (g : bloom) : Prop := { gd_wf : bf_wf g; gd_frame : bf_same_frame f0 g; gd_data : prefix (bf_data g) (bf_data f0);
  gd_keeps : forall p, bf_spot f0 p = true -> bf_spot g p = true; gd_only : forall p, bf_spot g p = true -> bf_spot f0 p = true \/ X p }.
Lemma loaded_good f0 X (G : bloom -> Prop) h : (forall f, G f -> good f0 X f) -> loaded f0 G h -> good f0 X h.
Proof.
  intros HG (A & B & C & D). constructor; auto; intros p S; destruct (D p) as (f & Gf & E); [rewrite E; now apply (gd_keeps _ _ _ (HG f Gf))|rewrite E in S; now apply (gd_only _ _ _ (HG f Gf))].
Qed.
Lemma result_good go f0 (X Y : spot -> Prop) (G : bloom -> Prop) g : grows_filter f0 X go -> (forall p, X p -> Y p) -> (forall f, G f -> good f0 Y f) -> result go f0 G g -> good f0 Y g.
Proof.
  intros Hg XY HG (h & L & E). pose proof (loaded_good _ _ _ _ HG L) as Gh. destruct L as (A & B & C & _). destruct (Hg h g A B E) as (W & F & Dt & M). constructor; [exact W|exact (bf_frame_trans _ _ _ B F)|now rewrite Dt| |]; intros p S.
  - apply M. left. now apply (gd_keeps _ _ _ Gh).
  - apply M in S as [S|S]; [now apply (gd_only _ _ _ Gh)|right; auto].
Qed.
Lemma first_result go f0 g : bf_wf f0 -> go f0 = Ok g -> result go f0 (eq f0) g.
Proof. intros W E. exists f0. split; [|exact E]. split; [exact W|]. split; [apply bf_frame_refl|]. split; [apply prefix_refl|]. intro p. eauto. Qed.
Lemma first_calm go f0 p : bf_wf f0 -> first go f0 p -> calm go f0 (eq f0) p.
Proof.
  intros W. destruct p as [s|h|g| | |]; cbn; auto.
  - intro P. split; [exact (prefix_len _ _ P)|]. intros i x E. exists f0. split; [reflexivity|]. exact (prefix_byte _ _ _ _ P E).
  - intros ->. split; [exact W|]. split; [apply bf_frame_refl|]. split; [apply prefix_refl|]. intro p. eauto.
  - now apply first_result.
Qed.
Lemma good_refl f0 X : bf_wf f0 -> good f0 X f0.
Proof. intro W. constructor; auto using bf_frame_refl, prefix_refl. Qed.
Lemma good_len f0 X g : bf_wf f0 -> good f0 X g -> len (bf_write g) <= len (bf_write f0).
Proof. intros W [Wg F D _]. apply prefix_len in D. rewrite !bf_write_len, (bf_frame_core _ _ F) by assumption. lia. Qed.
Lemma seen_bytes f0 X (G : bloom -> Prop) s : (forall f, G f -> good f0 X f) -> seen_from f0 G s -> bytes_ok s.
Proof.
  intros HG (_ & M). apply Forall_forall. intros x Hx. apply In_nth_error in Hx as (n & E). destruct (M (N.of_nat n) x) as (f & Gf & Ef); [unfold getN; now rewrite Nat2N.id|]. exact (Forall_getN _ _ _ _ (bf_write_bytes f (gd_wf _ _ _ (HG f Gf))) Ef).
Qed.
Lemma seen_load pr f0 X (G : bloom -> Prop) s h : bf_wf f0 -> bf_canon f0 = f0 -> file_size_ok (bf_write f0) -> (forall f, G f -> good f0 X f) -> seen_from f0 G s -> bf_from_reader pr s = Ok h -> loaded f0 G h.
Proof.
  intros W K Z HG S LD. pose proof (seen_bytes _ _ _ _ HG S) as B. destruct S as (L & M). assert (Zs : file_size_ok s) by (unfold file_size_ok in *; lia).
  destruct (mix_load pr G f0 s h W) as [F D]; [intros f Gf; destruct (HG f Gf); auto|exact B|intros i x _ E; exact (M i x E)|exact LD|]. rewrite K in F. split; [exact (bf_load_wf _ _ _ B Zs LD)|]. split; [exact F|]. split; [|exact D].
  apply prefix_bytes. intros i x E. rewrite (bf_load_data _ _ _ B LD), getN_skipn, (bf_frame_core _ _ F) in E. apply M in E as (f & Gf & E). destruct (HG f Gf) as [Wf Ff Df _ _]. rewrite N2Nat.id, <- (bf_frame_core _ _ Ff), bf_write_data in E by exact Wf. exact (prefix_byte _ _ _ _ Df E).
Qed.
(** A step of a process that has not truncated the file, when the file is a piece of a filter of [G]. *)
Lemma calm_step pr go f0 U (G : bloom -> Prop) c p c' p' g n : bf_wf f0 -> bf_canon f0 = f0 -> file_size_ok (bf_write f0) -> (forall f, G f -> good f0 U f) -> G g -> c = firstn n (bf_write g) -> calm go f0 G p -> step pr go c p c' p' ->
  c' = c /\ calm go f0 G p' \/ c' = [] /\ exists g', result go f0 G g' /\ p' = Saving g' 0.
Proof.
  intros W K Z HG Gg E C S. destruct S as [c s d r D X|c s f X LD|c f g' X|c g'|c g' off d r D X|c g' off X|c p X].
  - left. split; [reflexivity|]. destruct C as (L & M). split.
    + assert (Q : len (s ++ d) <= len c).
      { assert (Y : len (skipn (length s) c) = len (d ++ r)) by now rewrite X. rewrite len_skipn in Y. rewrite len_app in *. assert (0 < len d) by (destruct d; [contradiction|unfold len; cbn; lia]). unfold len in *. lia. }
      pose proof (good_len _ _ _ W (HG g Gg)). subst c. rewrite len_firstn in Q. lia.
    + intros i x Ex. rewrite getN_app in Ex. destruct (N.ltb_spec i (len s)) as [H|H]; [exact (M i x Ex)|]. exists g. split; [exact Gg|].
      assert (Y : getN c i = Some x). { replace i with (N.of_nat (length s) + (i - len s)) by (unfold len in *; lia). rewrite <- getN_skipn, X, getN_prefix; [exact Ex|now apply getN_lt in Ex]. }
      assert (Hi : i < N.of_nat n) by (apply getN_lt in Y; subst c; rewrite len_firstn in Y; lia). rewrite E, getN_firstn in Y by exact Hi. exact Y.
  - left. split; [reflexivity|]. now apply (seen_load pr f0 U G s f).
  - left. split; [reflexivity|]. exists f. auto.
  - right. split; [reflexivity|]. exists g'. auto.
  - destruct C.
  - destruct C.
  - left. split; [reflexivity|exact I].
Qed.
Lemma first_step pr go f0 p c' p' : bf_wf f0 -> bf_canon f0 = f0 -> first go f0 p -> step pr go (bf_write f0) p c' p' ->
  c' = bf_write f0 /\ first go f0 p' \/ c' = [] /\ exists g', go f0 = Ok g' /\ p' = Saving g' 0.
Proof.
  intros W K C S. inversion S as [c s d r D X|c s f X LD|c f g' X|c g'|c g' off d r D X|c g' off X|c q X]; subst; cbn in C.
  - left. split; [reflexivity|]. destruct C as (t & E). rewrite E in X. rewrite skipn_app, skipn_all, Nat.sub_diag in X. cbn in X. subst t. exists r. now rewrite <- app_assoc.
  - left. split; [reflexivity|]. destruct C as (t & E). cbn. assert (Z : t = []). { assert (Q : len (bf_write f0) = len (s ++ t)) by now rewrite E. rewrite len_app in Q. destruct t; [reflexivity|]. unfold len in *. cbn in *. lia. }
    subst t. rewrite app_nil_r in E. rewrite <- E, bf_roundtrip, K in LD by exact W. now injection LD as <-.
  - left. split; [reflexivity|]. subst f. exact X.
  - right. split; [reflexivity|]. exists g'. auto.
  - destruct C.
  - destruct C.
  - left. split; [reflexivity|exact I].
Qed.
Lemma saved_le g n p : saved g n p -> n <= len (bf_write g).
Proof. destruct p; cbn; try easy; lia. Qed.
(** A step of a process that is saving. *)
Lemma saved_step pr go g n c p c' p' : saved g n p -> step pr go c p c' p' ->
  (c' = c /\ saved g n p') \/ (exists d r, d <> [] /\ skipn (N.to_nat n) (bf_write g) = d ++ r /\ c' = write_at c n d /\ saved g (n + len d) p').
Proof.
  intros V S. destruct S as [c s d r D X|c s f X LD|c f g' X|c g'|c g' off d r D X|c g' off X|c p X]; try (destruct V; fail).
  - destruct V as (-> & -> & L). right. exists d, r. split; [exact D|]. split; [exact X|]. split; [reflexivity|]. split; [reflexivity|]. split; [reflexivity|]. assert (Q : len (skipn (N.to_nat n) (bf_write g)) = len (d ++ r)) by now rewrite X. rewrite len_skipn, len_app in Q. lia.
  - destruct V as (-> & -> & L). left. split; [reflexivity|]. cbn. lia.
  - left. split; [reflexivity|]. cbn. exact (saved_le _ _ _ V).
Qed.
Lemma piece f g d r n i : skipn (N.to_nat n) (bf_write g) = d ++ r -> f = g -> n <= i -> i < n + len d -> getN (bf_write f) i = getN d (i - n).
Proof. intros X -> A B. replace i with (N.of_nat (N.to_nat n) + (i - n)) at 1 by lia. rewrite <- getN_skipn, X. apply getN_prefix. lia. Qed.
Lemma pair_good go1 go2 f0 X1 X2 g1 g2 : bf_wf f0 -> grows_filter f0 X1 go1 -> grows_filter f0 X2 go2 ->
  go1 f0 = Ok g1 /\ result go2 f0 (fun f => f = f0 \/ f = g1) g2 \/ go2 f0 = Ok g2 /\ result go1 f0 (fun f => f = f0 \/ f = g2) g1 ->
  good f0 (fun p => X1 p \/ X2 p) g1 /\ good f0 (fun p => X1 p \/ X2 p) g2.
Proof.
  intros W H1 H2. set (Y := fun p => X1 p \/ X2 p). assert (Y1 : forall p, X1 p -> Y p) by (unfold Y; auto). assert (Y2 : forall p, X2 p -> Y p) by (unfold Y; auto). pose proof (good_refl _ Y W) as G0. assert (GE : forall f, f0 = f -> good f0 Y f) by (intros f <-; exact G0).
  intros [[R1 R2]|[R2 R1]]; [apply (first_result _ _ _ W) in R1|apply (first_result _ _ _ W) in R2].
  - pose proof (result_good go1 f0 X1 Y (eq f0) g1 H1 Y1 GE R1) as A. split; [exact A|]. apply (result_good go2 f0 X2 Y (fun f => f = f0 \/ f = g1)); auto. intros f [->| ->]; auto.
  - pose proof (result_good go2 f0 X2 Y (eq f0) g2 H2 Y2 GE R2) as A. split; [|exact A]. apply (result_good go1 f0 X1 Y (fun f => f = f0 \/ f = g2)); auto. intros f [->| ->]; auto.
Qed.
Lemma step_left pr go1 go2 f0 X1 X2 c p q c' p' : bf_wf f0 -> bf_canon f0 = f0 -> file_size_ok (bf_write f0) -> grows_filter f0 X1 go1 -> grows_filter f0 X2 go2 -> inv go1 go2 f0 c p q -> step pr go1 c p c' p' -> inv go1 go2 f0 c' p' q.
Proof.
  intros W K Z H1 H2 I S. set (Y := fun p => X1 p \/ X2 p). assert (Y1 : forall p, X1 p -> Y p) by (unfold Y; auto). assert (Y2 : forall p, X2 p -> Y p) by (unfold Y; auto). pose proof (good_refl _ Y W) as G0.
  destruct I as [E A B|g n R V E C|g n R V E C|g1 g2 n1 n2 R V1 V2 B L C].
  - subst c. destruct (first_step pr go1 f0 p c' p' W K A S) as [[-> A']|(-> & g & R & ->)]; [now apply inv_none|].
    apply (inv_left _ _ _ _ _ _ g 0 R); [cbn; split; [reflexivity|split; [reflexivity|lia]]|reflexivity|]. apply (calm_weaken _ _ (eq f0)); [intros f <-; now left|now apply first_calm].
  - destruct (saved_step pr go1 g n c p c' p' V S) as [[-> V']|(d & r & D & X & -> & V')]; [now apply (inv_left _ _ _ _ _ _ g n)|]. apply (inv_left _ _ _ _ _ _ g (n + len d)); auto. pose proof (saved_le _ _ _ V).
    replace (N.to_nat (n + len d)) with (N.to_nat n + length d)%nat by (unfold len; lia). rewrite (firstn_more _ _ _ _ X), <- E. replace n with (len c) at 1; [apply write_at_end|]. rewrite E, len_firstn. lia.
  - assert (Hg : good f0 Y g) by (apply (result_good go2 f0 X2 Y (eq f0)); auto; [intros f <-; exact G0|now apply first_result]). assert (HG : forall f, f = f0 \/ f = g -> good f0 Y f) by (intros f [->| ->]; auto).
    destruct (calm_step pr go1 f0 Y (fun f => f = f0 \/ f = g) c p c' p' g _ W K Z HG (or_intror eq_refl) E C S) as [[-> A']|(-> & g' & R' & ->)]; [now apply (inv_right _ _ _ _ _ _ g n)|].
    apply (inv_both _ _ _ _ _ _ g' g 0 n); [right; auto|cbn; split; [reflexivity|split; [reflexivity|lia]]|exact V|constructor|unfold len at 1; cbn; lia|]. left. intros i Hi. lia.
  - destruct (saved_step pr go1 g1 n1 c p c' p' V1 S) as [[-> V']|(d & r & D & X & -> & V')]; [now apply (inv_both _ _ _ _ _ _ g1 g2 n1 n2)|].
    assert (Gd : good f0 Y g1) by (exact (proj1 (pair_good go1 go2 f0 X1 X2 g1 g2 W H1 H2 R))).
    pose proof (saved_le _ _ _ V') as L'. pose proof (good_len _ _ _ W Gd) as Lg. apply (inv_both _ _ _ _ _ _ g1 g2 (n1 + len d) n2); auto.
    + apply bytes_write_at; [exact B|]. pose proof (bf_write_bytes g1 (gd_wf _ _ _ Gd)) as Bg. rewrite <- (firstn_skipn (N.to_nat n1) (bf_write g1)) in Bg. apply Forall_app in Bg as [_ Bg]. rewrite X in Bg. now apply Forall_app in Bg as [Bg _].
    + rewrite len_write_at. lia.
    + assert (ST : forall n, covered f0 g1 g2 n c -> covered f0 g1 g2 n (write_at c n1 d)).
      { intros n Hc i Hi Hk. destruct (Hc i Hi Hk) as (x & f & Ex & Ef & Yx). pose proof (getN_lt _ _ _ Ex) as Lx. rewrite getN_write_at. destruct (N.ltb_spec i n1).
        - apply N.ltb_lt in Lx. rewrite Lx. eauto.
        - destruct (N.ltb_spec i (n1 + len d)); [|eauto]. destruct (proj1 (getN_Some d (i - n1)) ltac:(lia)) as (y & Ey). exists y, g1. split; [exact Ey|]. split; [now left|]. rewrite (piece g1 g1 d r n1 i X eq_refl) by lia. exact Ey. }
      destruct C as [C|C]; [left|right; now apply ST]. intros i Hi Hk. destruct (N.lt_ge_cases i n1) as [H|H]; [now apply (ST n1 C)|]. rewrite getN_write_at. destruct (N.ltb_spec i n1); [lia|]. destruct (N.ltb_spec i (n1 + len d)); [|lia].
      destruct (proj1 (getN_Some d (i - n1)) ltac:(lia)) as (y & Ey). exists y, g1. split; [exact Ey|]. split; [now left|]. rewrite (piece g1 g1 d r n1 i X eq_refl) by lia. exact Ey.
Qed.
Theorem run_inv pr go1 go2 f0 X1 X2 c p q : bf_wf f0 -> bf_canon f0 = f0 -> file_size_ok (bf_write f0) -> grows_filter f0 X1 go1 -> grows_filter f0 X2 go2 -> run2 pr go1 go2 (bf_write f0) c p q -> inv go1 go2 f0 c p q.
Proof.
  intros W K Z H1 H2. induction 1 as [|c p q c' p' R IH S|c p q c' q' R IH S].
  - apply inv_none; [reflexivity| |]; (exists (bf_write f0); reflexivity).
  - now apply (step_left pr go1 go2 f0 X1 X2 c p q c' p').
  - apply inv_swap. apply (step_left pr go2 go1 f0 X2 X1 c q p c' q'); auto. now apply inv_swap.
Qed.
(** The spots insert sets. *)
Definition new_spots (wy : hasher) (f0 : bloom) (w : fs) (stdin : list byte) (a : insert_args) (p : spot) : Prop :=
  exists sls ls d, stdin_lines a stdin sls /\ file_lines w (ia_inputs a) ls /\ In d (sls ++ ls) /\ bf_spots wy f0 d p.
Lemma insert_after_inv pr L wy par w stdin jobs a f g : insert_after pr L wy par w stdin jobs a f = Ok g -> exists sls f1, stdin_lines a stdin sls /\ inserts pr wy f sls f1 /\ parallel_insert pr L wy par w f1 (ia_inputs a) jobs = Ok g.
Proof.
  unfold insert_after. destruct (ia_stdin a || is_nil (ia_inputs a)) eqn:S; intro G.
  - destruct (insert_lines pr wy f (lines stdin)) as [f1 r1] eqn:E3. destruct r1 as [[]|e|]; [|discriminate..]. cbn [obind] in G. destruct (text_total (length stdin) stdin (Nat.le_refl _)) as (es & T).
    apply (insert_content pr wy f stdin f1 es T) in E3 as [U I]. exists es, f1. split; [left; split; [now apply reads_stdin_b|auto]|]. auto.
  - cbn [obind] in G. exists [], f. split; [right; split; [rewrite reads_stdin_b; congruence|reflexivity]|]. split; [constructor|exact G].
Qed.
Lemma insert_grows pr L wy par w stdin jobs a f0 : fs_bytes w -> bytes_ok stdin -> grows_filter f0 (new_spots wy f0 w stdin a) (insert_after pr L wy par w stdin jobs a).
Proof.
  intros Bw Bs h g W F0 E. apply insert_after_inv in E as (sls & f1 & S & I & P). pose proof (stdin_lines_bytes _ _ _ Bs S) as Bl. destruct (inserts_sem _ _ _ _ _ W Bl I) as (F1 & W1 & D1 & S1).
  destruct (parallel_sem _ _ _ _ _ _ _ _ _ W1 Bw P) as (ls & Fl & Wg & F2 & D2 & S2). split; [exact Wg|]. split; [exact (bf_frame_trans _ _ _ F1 F2)|]. split; [congruence|]. intro p. rewrite S2, S1. split.
  - intros [[H|(d & Hd & H)]|(d & Hd & H)]; [now left|right; exists sls, ls, d..].
    + split; [exact S|]. split; [exact Fl|]. rewrite in_app_iff. split; [auto|]. exact (proj1 (bf_frame_spots wy f0 h d p F0) H).
    + split; [exact S|]. split; [exact Fl|]. rewrite in_app_iff. split; [auto|]. exact (proj1 (bf_frame_spots wy f0 f1 d p (bf_frame_trans _ _ _ F0 F1)) H).
  - intros [H|(sls' & ls' & d & S' & Fl' & Hd & H)]; [auto|]. rewrite (stdin_lines_det _ _ _ _ S S') in Hd. rewrite (file_lines_det _ _ _ Fl _ Fl') in Hd. apply in_app_or in Hd as [Hd|Hd].
    + left. right. exists d. split; [exact Hd|]. exact (proj2 (bf_frame_spots wy f0 h d p F0) H).
    + right. exists d. split; [exact Hd|]. exact (proj2 (bf_frame_spots wy f0 f1 d p (bf_frame_trans _ _ _ F0 F1)) H).
Qed.
