(** Lines read through BufReader. *)
From Coq Require Import Lia.
From Verif Require Import M_BufRead P_Base P_BufRead.
Open Scope N_scope.

Lemma upto_lf_some s x : upto_lf s = Some x -> exists y t, x = y ++ [LF] /\ ~ In LF y /\ s = x ++ t.
Proof.
  revert x. induction s as [|c s IH]; intros x; [discriminate|]. cbn. destruct (N.eqb_spec c LF) as [->|E].
  - intro Q. injection Q as <-. exists [], s. auto.
  - destruct (upto_lf s) as [x'|]; [|discriminate]. intro Q. injection Q as <-. destruct (IH x' eq_refl) as (y & t & -> & N & ->). exists (c :: y), t. split; [reflexivity|]. split; [|reflexivity]. intros [Q|Q]; [now apply E|contradiction].
Qed.
Lemma upto_lf_none s : upto_lf s = None -> ~ In LF s.
Proof. induction s as [|c s IH]; [easy|]. cbn. destruct (N.eqb_spec c LF) as [->|E]; [discriminate|]. destruct (upto_lf s); [discriminate|]. intros _ [Q|Q]; [now apply E|now apply IH]. Qed.
Lemma segments_line y t : ~ In LF y -> segments (y ++ [LF] ++ t) = (y ++ [LF]) :: segments t.
Proof.
  induction y as [|c y IH]; intro H; [reflexivity|]. cbn. destruct (N.eqb_spec c LF) as [->|E]; [exfalso; apply H; now left|]. cbn in IH. rewrite IH by (intro Q; apply H; now right). reflexivity.
Qed.
Lemma segments_last y : ~ In LF y -> y <> [] -> segments y = [y].
Proof.
  induction y as [|c y IH]; intros H N; [congruence|]. cbn. destruct (N.eqb_spec c LF) as [->|E]; [exfalso; apply H; now left|]. destruct y as [|d y]; [reflexivity|]. rewrite IH; [reflexivity|intro Q; apply H; now right|discriminate].
Qed.
(** A line of the rest: up to LF, or everything if the content ends without a failure. *)
Definition line_of (br : bool) (s x : list byte) : Prop := exists t, s = x ++ t /\ ((exists y, x = y ++ [LF] /\ ~ In LF y) \/ (~ In LF x /\ t = [] /\ br = false)).
Lemma fill_sim {R} (o : rops R) c br f0 at_ mu calm b p r b' : sim o c br f0 at_ mu calm -> br_at c at_ b p -> br_fill o b = (r, b') ->
  (br_calm calm b -> br_calm calm b') /\ (br_mu mu b' <= br_mu mu b)%nat /\ br_at c at_ b' p /\
  match r with
  | RBytes s => s = br_left b' /\ (exists t, rest c p = s ++ t) /\ (s = [] -> rest c p = [] /\ br = false)
  | RInt => (br_mu mu b' < br_mu mu b)%nat
  | RFail => ~ br_calm calm b \/ br = true
  end.
Proof.
  intros S A. unfold br_fill. destruct (N.eqb_spec (br_pos b) (len (br_buf b))) as [E|E].
  - assert (Ap : at_ (br_in b) p) by (destruct A as (_ & q & H0 & _ & _ & H3 & _); replace p with q by lia; exact H0). destruct (o_read o BUF_CAP (br_in b)) as [x s] eqn:Q. destruct (s_read S _ _ _ _ _ Ap (eq_refl : 0 < BUF_CAP) Q) as (C & M & H). destruct x as [x| |]; intro Z; injection Z as <- <-.
    + destruct H as (H0 & H1 & (t & H2) & H3). split; [exact C|]. split; [exact M|]. split; [|split; [reflexivity|split; [now exists t|exact H3]]].
      split; [exact H1|]. exists (p + len x). cbn. split; [exact H0|]. split; [lia|]. split; [lia|]. split; [lia|]. now rewrite N.sub_0_r, (rest_after _ _ _ _ H2).
    + destruct H as (H & H'). split; [exact C|]. split; [exact M|]. split; [now apply br_at_new|exact H'].
    + destruct H as (H & H'). split; [exact C|]. split; [exact M|]. split; [now apply br_at_new|exact H'].
  - intro Z. injection Z as <- <-. split; [easy|]. split; [lia|]. split; [exact A|]. split; [reflexivity|]. destruct A as (_ & q & H0 & H1 & H2 & H3 & H4). destruct (br_left_eq c at_ b p q H0 H1 H2 H3 H4) as (ER & EL). split; [exists (rest c q); exact ER|].
    intro Q. exfalso. apply E. assert (L : len (br_left b) = len (br_buf b) - br_pos b) by (unfold br_left, len; rewrite skipn_length; lia). rewrite Q in L. change (len []) with 0 in L. lia.
Qed.
Lemma until_sim {R} (o : rops R) c br f0 at_ mu calm : sim o c br f0 at_ mu calm -> forall fuel acc b p, br_at c at_ b p ->
  match br_until fuel o acc b with
  | Some (Some d, b') => exists x, d = acc ++ x /\ line_of br (rest c p) x /\ br_at c at_ b' (p + len x) /\ (br_mu mu b' <= br_mu mu b)%nat /\ (br_calm calm b -> br_calm calm b')
  | Some (None, b') => (exists x t, rest c p = x ++ t /\ ~ In LF x /\ br_at c at_ b' (p + len x)) /\ (~ br_calm calm b \/ br = true)
  | None => (fuel <= br_mu mu b + length (rest c p))%nat
  end.
Proof.
  intro S. induction fuel as [|fuel IH]; intros acc b p A; cbn [br_until]; [lia|]. destruct (br_fill o b) as [r b'] eqn:E. destruct (fill_sim o c br f0 at_ mu calm b p r b' S A E) as (C & M & A' & H). destruct r as [s| |].
  - destruct H as (Es & (t & Ht) & Hn). destruct (upto_lf s) as [x|] eqn:U.
    + destruct (upto_lf_some _ _ U) as (y & t' & Ex & Ny & Et). exists x. split; [reflexivity|]. split; [exists (t' ++ t); split; [now rewrite Ht, Et, app_assoc|left; now exists y]|]. split; [|split; [exact M|exact C]].
      apply br_at_take; [exact A'|]. rewrite <- Es, Et. unfold len. rewrite app_length. lia.
    + pose proof (upto_lf_none _ U) as Nl. destruct s as [|h s]; [exists []; rewrite app_nil_r; destruct (Hn eq_refl) as [Hr Hb]; split; [reflexivity|]; split; [exists []; rewrite Hr; split; [reflexivity|right; auto]|]; change (len []) with 0; rewrite N.add_0_r; auto|].
      clear Hn. set (w := h :: s) in *. assert (W : (1 <= length w)%nat) by (cbn; lia). clearbody w. assert (A2 : br_at c at_ (Build_bufr (br_in b') (br_buf b') (br_pos b' + len w)) (p + len w)) by (apply br_at_take; [exact A'|rewrite Es; lia]).
      specialize (IH (acc ++ w) _ _ A2). rewrite (rest_after _ _ _ _ Ht) in IH. rewrite Ht. destruct (br_until fuel o (acc ++ w) _) as [[[d|] b2]|].
      * destruct IH as (x & -> & (t' & Et & Hx) & A3 & M3 & C3). exists (w ++ x). split; [now rewrite app_assoc|]. split; [exists t'; split; [now rewrite Et, app_assoc|]|].
        -- destruct Hx as [(y & -> & Ny)|(Nx & Z & B)]; [left; exists (w ++ y); split; [now rewrite app_assoc|]; intro Q; apply in_app_or in Q; tauto|right]. split; [intro Q; apply in_app_or in Q; tauto|auto].
        -- split; [replace (p + len (w ++ x)) with (p + len w + len x) by (unfold len; rewrite app_length; lia); exact A3|]. unfold br_mu, br_calm in *. cbn [br_in] in *. split; [lia|auto].
      * destruct IH as ((x & t' & Et & Nx & A3) & IH). split; [exists (w ++ x), t'; split; [now rewrite Et, app_assoc|split; [intro Q; apply in_app_or in Q; tauto|]]|].
        -- replace (p + len (w ++ x)) with (p + len w + len x) by (unfold len; rewrite app_length; lia). exact A3.
        -- unfold br_calm in *. cbn [br_in] in *. destruct IH; [left; auto|now right].
      * unfold br_mu in *. cbn [br_in] in IH. rewrite app_length. lia.
  - specialize (IH acc b' p A'). destruct (br_until fuel o acc b') as [[[d|] b2]|].
    + destruct IH as (x & H1 & H2 & H3 & H4 & H5). exists x. split; [exact H1|]. split; [exact H2|]. split; [exact H3|]. split; [lia|auto].
    + destruct IH as (Q & IH). split; [exact Q|]. destruct IH; [left; auto|now right].
    + lia.
  - split; [|exact H]. exists [], (rest c p). split; [reflexivity|]. split; [easy|]. change (len []) with 0. now rewrite N.add_0_r.
Qed.
Definition item (seg : list byte) : option (list byte) := if utf8_valid seg then Some (chomp seg) else None.
Lemma line_segments br s x : line_of br s x -> x <> [] -> exists t, s = x ++ t /\ segments s = x :: segments t.
Proof.
  intros (t & -> & [(y & -> & Ny)|(Nx & -> & _)]) Nx'; exists t || exists []; (split; [reflexivity|]).
  - rewrite <- app_assoc. now apply segments_line.
  - rewrite app_nil_r. now apply segments_last.
Qed.
Lemma line_end br s : line_of br s [] -> s = [] /\ br = false.
Proof. intros (t & -> & [(y & Q & _)|(_ & -> & B)]); [destruct y; discriminate|auto]. Qed.

(** Calm: all lines of the rest. *)
Lemma lines_sim {R} (o : rops R) c f0 at_ mu calm fuel : sim o c false f0 at_ mu calm -> forall n b p, br_at c at_ b p -> br_calm calm b -> (br_mu mu b + length c < fuel)%nat -> (length (rest c p) < n)%nat ->
  br_lines n fuel o b = Some (map item (segments (rest c p))).
Proof.
  intro S. induction n as [|n IH]; intros b p A K F Hn; [lia|]. cbn [br_lines]. pose proof (until_sim o c false f0 at_ mu calm S fuel [] b p A) as H. assert (RL : (length (rest c p) <= length c)%nat) by (unfold rest; rewrite skipn_length; lia).
  destruct (br_until fuel o [] b) as [[[d|] b']|].
  - destruct H as (x & E & Hx & A' & M & C). cbn [app] in E. subst d. destruct x as [|h x]; [apply line_end in Hx as [-> _]; reflexivity|]. set (w := h :: x) in *. assert (W : w <> []) by discriminate. assert (W1 : (1 <= length w)%nat) by (cbn; lia). clearbody w.
    destruct (line_segments _ _ _ Hx W) as (t & Et & ->). rewrite (IH b' _ A'); [|auto|lia|]; rewrite (rest_after _ _ _ _ Et); [reflexivity|]. rewrite Et, app_length in Hn. lia.
  - destruct H as (_ & [H|H]); [contradiction|discriminate].
  - lia.
Qed.
(** Broken: no end. *)
Lemma lines_broken {R} (o : rops R) c f0 at_ mu calm fuel : sim o c true f0 at_ mu calm -> forall n b p, br_at c at_ b p -> br_lines n fuel o b = None.
Proof.
  intro S. induction n as [|n IH]; intros b p A; [reflexivity|]. cbn [br_lines]. pose proof (until_sim o c true f0 at_ mu calm S fuel [] b p A) as H. destruct (br_until fuel o [] b) as [[[d|] b']|]; [| |reflexivity].
  - destruct H as (x & E & Hx & A' & _). cbn [app] in E. subst d. destruct x as [|h x]; [apply line_end in Hx as [_ Q]; discriminate|]. now rewrite (IH b' _ A').
  - destruct H as ((x & t & _ & _ & A') & _). now rewrite (IH b' _ A').
Qed.
(** Up to the first error: lines of the rest. *)
Lemma each_sim {R} (o : rops R) c br f0 at_ mu calm fuel : sim o c br f0 at_ mu calm -> forall n b p, br_at c at_ b p ->
  match br_each n fuel o b with
  | Some (ls, true) => map item (segments (rest c p)) = map Some ls /\ br = false
  | Some (ls, false) => exists l, map item (segments (rest c p)) = map Some ls ++ l /\ (~ br_calm calm b \/ br = true \/ exists l', l = None :: l')
  | None => (n <= length (rest c p))%nat \/ (fuel <= br_mu mu b + length c)%nat
  end.
Proof.
  intro S. induction n as [|n IH]; intros b p A; cbn [br_each]; [left; lia|]. pose proof (until_sim o c br f0 at_ mu calm S fuel [] b p A) as H. assert (RL : (length (rest c p) <= length c)%nat) by (unfold rest; rewrite skipn_length; lia).
  destruct (br_until fuel o [] b) as [[[d|] b']|].
  - destruct H as (x & E & Hx & A' & M & C). cbn [app] in E. subst d. destruct x as [|h x]; [apply line_end in Hx as [-> Q]; auto|]. set (w := h :: x) in *. assert (W : w <> []) by discriminate. assert (W1 : (1 <= length w)%nat) by (cbn; lia). clearbody w.
    destruct (line_segments _ _ _ Hx W) as (t & Et & ->). cbn [map]. unfold item at 1 3. destruct (utf8_valid w) eqn:U.
    + specialize (IH b' _ A'). rewrite (rest_after _ _ _ _ Et) in IH. destruct (br_each n fuel o b') as [[ls [|]]|]; cbn [option_map fst snd map].
      * destruct IH as [-> Q]. auto.
      * destruct IH as (l & -> & Q). exists l. split; [reflexivity|]. destruct Q as [Q|Q]; [left; auto|now right].
      * rewrite Et, app_length. lia.
    + exists (None :: map item (segments t)). split; [reflexivity|]. right. right. now eexists.
  - destruct H as (_ & H). eexists. split; [reflexivity|]. destruct H; [now left|right; now left].
  - right. lia.
Qed.

(** Whatever fails on the way, at least as many items as there are lines. *)
Lemma segments_drop x t : ~ In LF x -> (length (segments (x ++ t)) <= 1 + length (segments t))%nat.
Proof.
  induction x as [|c x IH]; intro H; [cbn; lia|]. cbn. destruct (N.eqb_spec c LF) as [->|E]; [exfalso; apply H; now left|]. specialize (IH (fun Q => H (or_intror Q))). destruct (segments (x ++ t)); cbn in *; lia.
Qed.
Lemma lines_least {R} (o : rops R) c br f0 at_ mu calm fuel : sim o c br f0 at_ mu calm -> forall n b p l, br_at c at_ b p -> br_lines n fuel o b = Some l -> (length (segments (rest c p)) <= length l)%nat.
Proof.
  intro S. induction n as [|n IH]; intros b p l A; [discriminate|]. cbn [br_lines]. pose proof (until_sim o c br f0 at_ mu calm S fuel [] b p A) as H. destruct (br_until fuel o [] b) as [[[d|] b']|]; [| |discriminate].
  - destruct H as (x & E & Hx & A' & _). cbn [app] in E. subst d. destruct x as [|h x]; [apply line_end in Hx as [-> _]; intro Q; injection Q as <-; cbn; lia|]. set (w := h :: x) in *. assert (W : w <> []) by discriminate. clearbody w.
    destruct (line_segments _ _ _ Hx W) as (t & Et & ->). destruct (br_lines n fuel o b') as [l'|] eqn:E; [|destruct w; discriminate]. specialize (IH b' _ _ A' E). rewrite (rest_after _ _ _ _ Et) in IH. destruct w; [congruence|]. cbn [option_map]. intro Q. injection Q as <-. cbn [length]. lia.
  - destruct H as ((x & t & Et & Nx & A') & _). destruct (br_lines n fuel o b') as [l'|] eqn:E; [|discriminate]. specialize (IH b' _ _ A' E). rewrite (rest_after _ _ _ _ Et) in IH. cbn [option_map]. intro Q. injection Q as <-. rewrite Et. pose proof (segments_drop x t Nx). cbn [length]. lia.
Qed.
