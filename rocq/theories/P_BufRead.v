(** Layers of BufReader do not change what is read. *)
From Coq Require Import Lia ZArith.
From Verif Require Import M_BufRead P_Base.
Open Scope N_scope.

Definition rest (c : list byte) (p : N) : list byte := skipn (N.to_nat p) c.
Lemma r_rest_eq c p : r_rest {| r_all := c; r_pos := p |} = rest c p.
Proof. unfold r_rest, rest. cbn [r_all r_pos]. destruct (N.leb_spec (len c) p) as [H|H]; [|reflexivity]. symmetry. apply skipn_all2. unfold len in H. lia. Qed.
Lemma skip_skip {A} a : forall b (l : list A), skipn a (skipn b l) = skipn (b + a) l.
Proof. intros b l. revert b. induction l as [|x l IH]; intro b; [now rewrite !skipn_nil|]. destruct b; [reflexivity|apply IH]. Qed.
Lemma rest_split c p n : rest c p = firstn n (rest c p) ++ rest c (p + N.of_nat n).
Proof. unfold rest. rewrite <- (firstn_skipn n) at 1. f_equal. rewrite skip_skip. f_equal. lia. Qed.
(** A prefix [x] of the rest: what follows it. *)
Lemma rest_after c p x t : rest c p = x ++ t -> rest c (p + len x) = t.
Proof. intro H. unfold rest in *. replace (N.to_nat (p + len x)) with (N.to_nat p + length x)%nat by (unfold len; lia). rewrite <- skip_skip, H, skipn_app, skipn_all, Nat.sub_diag. reflexivity. Qed.

(** [o] reads the content [c], which ends with a failure if [br]: [at_ s p] when the next byte is byte [p], [mu s] bounds the
    interruptions to come, and [calm s] when no failure is to come before the end. *)
Record sim {R} (o : rops R) (c : list byte) (br : bool) (fuel : nat) (at_ : R -> N -> Prop) (mu : R -> nat) (calm : R -> Prop) : Prop := {
  s_pos : forall s p, at_ s p -> p < 18446744073709551616;
  s_read : forall n s p r s', at_ s p -> 0 < n -> o_read o n s = (r, s') -> (calm s -> calm s') /\ (mu s' <= mu s)%nat /\
    match r with
    | RBytes b => at_ s' (p + len b) /\ len b <= n /\ (exists t, rest c p = b ++ t) /\ (b = [] -> rest c p = [] /\ br = false)
    | RInt => at_ s' p /\ (mu s' < mu s)%nat
    | RFail => at_ s' p /\ (~ calm s \/ br = true)
    end;
  s_seek : forall off s p ok s', at_ s p -> (-9223372036854775808 <= off)%Z -> o_seek o off s = (ok, s') -> (calm s -> calm s') /\ (mu s' <= mu s)%nat /\
    if ok then (0 <= Z.of_N p + off < 18446744073709551616)%Z /\ at_ s' (Z.to_N (Z.of_N p + off))
    else calm s -> ~ (0 <= Z.of_N p + off < 18446744073709551616)%Z;
  s_end : forall s p, at_ s p ->
    match o_end o s with
    | Some (Ok d) => br = false /\ d = rest c p
    | Some (Err e) => e = IoError /\ (~ calm s \/ br = true)
    | Some Panic => False
    | None => (fuel <= mu s + length (rest c p))%nat
    end
}.
Arguments s_pos {R o c br fuel at_ mu calm}. Arguments s_read {R o c br fuel at_ mu calm}. Arguments s_seek {R o c br fuel at_ mu calm}. Arguments s_end {R o c br fuel at_ mu calm}.

(** ** The medium *)
Definition md_at (c : list byte) (br : bool) (m : medium) (p : N) : Prop := len c < 18446744073709551616 /\ p < 18446744073709551616 /\ md_all m = c /\ md_pos m = p /\ md_broken m = br.
Definition md_mu (m : medium) : nat := length (md_plan m).
Definition md_calm (m : medium) : Prop := ~ In Fail (md_plan m).
Lemma md_give_sim c br n m p plan r m' : md_at c br m p -> 0 < n -> md_give n m plan = (r, m') -> md_plan m' = plan /\
  match r with
  | RBytes b => md_at c br m' (p + len b) /\ len b <= n /\ (exists t, rest c p = b ++ t) /\ (b = [] -> rest c p = [] /\ br = false)
  | RInt => False
  | RFail => md_at c br m' p /\ br = true
  end.
Proof.
  intros (Lc & Lp & <- & <- & <-) Hn. unfold md_give, md_rest. rewrite r_rest_eq. destruct (rest (md_all m) (md_pos m)) as [|x t] eqn:E.
  - destruct (md_broken m) eqn:B; intro Q; injection Q as <- <-; cbn; (split; [reflexivity|]); [now repeat (split; auto)|]. change (len []) with 0. rewrite N.add_0_r. split; [now repeat (split; auto)|]. split; [lia|]. split; [now exists []|easy].
  - intro Q. injection Q as <- <-. split; [reflexivity|]. cbv beta iota. set (k := N.to_nat (N.min n (len (x :: t)))). assert (Hk : (1 <= k <= length (x :: t))%nat) by (unfold k, len; cbn [length]; lia).
    assert (Lk : len (firstn k (x :: t)) = N.of_nat k) by (unfold len; rewrite firstn_length; lia).
    assert (Le : md_pos m + N.of_nat k <= len (md_all m)) by (apply (f_equal (@length byte)) in E; unfold rest in E; rewrite skipn_length in E; unfold len; lia).
    split; [split; [exact Lc|]; split; [lia|]; now repeat (split; auto)|]. split; [rewrite Lk; unfold k, len; lia|]. split; [exists (skipn k (x :: t)); now rewrite firstn_skipn|].
    intro Z. rewrite Z in Lk. change (len []) with 0 in Lk. lia.
Qed.
Lemma md_read_sim c br n m p r m' : md_at c br m p -> 0 < n -> md_read n m = (r, m') -> (md_calm m -> md_calm m') /\ (md_mu m' <= md_mu m)%nat /\
  match r with
  | RBytes b => md_at c br m' (p + len b) /\ len b <= n /\ (exists t, rest c p = b ++ t) /\ (b = [] -> rest c p = [] /\ br = false)
  | RInt => md_at c br m' p /\ (md_mu m' < md_mu m)%nat
  | RFail => md_at c br m' p /\ (~ md_calm m \/ br = true)
  end.
Proof.
  intros A Hn. unfold md_read, md_calm, md_mu. destruct (md_plan m) as [|[k| |] pl] eqn:E.
  - intro Q. destruct (md_give_sim _ _ _ _ _ _ _ _ A Hn Q) as (-> & H). split; [easy|]. split; [lia|]. destruct r; [exact H|contradiction|]. destruct H. split; [assumption|now right].
  - intro Q. assert (Hm : 0 < N.min n (N.max 1 k)) by lia. destruct (md_give_sim _ _ _ _ _ _ _ _ A Hm Q) as (-> & H). split; [cbn; intuition|]. split; [cbn; lia|]. destruct r; [|contradiction|destruct H; split; [assumption|now right]]. destruct H as (H1 & H2 & H3). split; [exact H1|]. split; [lia|exact H3].
  - intro Q. injection Q as <- <-. cbn. split; [intuition|]. split; [lia|]. destruct A as (Lc & Lp & <- & <- & <-). split; [now repeat (split; auto)|lia].
  - intro Q. injection Q as <- <-. cbn. split; [intuition|]. split; [lia|]. destruct A as (Lc & Lp & <- & <- & <-). split; [now repeat (split; auto)|]. left. intuition.
Qed.
Lemma md_end_sim c br : forall fuel acc m p, md_at c br m p ->
  match md_end fuel acc m with
  | Some (Ok d) => br = false /\ d = acc ++ rest c p
  | Some (Err e) => e = IoError /\ (~ md_calm m \/ br = true)
  | Some Panic => False
  | None => (fuel <= md_mu m + length (rest c p))%nat
  end.
Proof.
  induction fuel as [|fuel IH]; intros acc m p A; cbn [md_end]; [lia|]. destruct (md_read u64_max m) as [r m'] eqn:E. destruct (md_read_sim _ _ _ _ _ _ _ A (eq_refl : 0 < u64_max) E) as (C & M & H). destruct r as [[|x b]| |].
  - destruct H as (_ & _ & _ & H). destruct (H eq_refl) as [-> ->]. now rewrite app_nil_r.
  - destruct H as (A' & _ & (t & Ht) & _). specialize (IH (acc ++ x :: b) m' _ A'). rewrite (rest_after _ _ _ _ Ht) in IH. rewrite Ht. destruct (md_end fuel (acc ++ x :: b) m') as [[d|e|]|].
    + destruct IH as [-> ->]. split; [reflexivity|]. now rewrite <- app_assoc.
    + destruct IH as [-> IH]. split; [reflexivity|]. destruct IH; [left; intuition|now right].
    + exact IH.
    + rewrite app_length. cbn [length]. lia.
  - destruct H as (A' & H). specialize (IH acc m' p A'). destruct (md_end fuel acc m') as [[d|e|]|].
    + exact IH.
    + destruct IH as [-> IH]. split; [reflexivity|]. destruct IH; [left; intuition|now right].
    + exact IH.
    + lia.
  - split; [reflexivity|apply H].
Qed.
Lemma md_sim c br fuel : sim (md_ops fuel) c br fuel (md_at c br) md_mu md_calm.
Proof.
  split; cbn [md_ops o_read o_seek o_end].
  - intros s p H. apply H.
  - intros. eapply md_read_sim; eauto.
  - intros off m p ok m' (Lc & Lp & <- & <- & <-) Ho. unfold md_seek, md_calm, md_mu.
    assert (G : forall pl, pl = md_plan m -> (if (Z.of_N (md_pos m) + off <? 0)%Z || (18446744073709551616 <=? Z.of_N (md_pos m) + off)%Z then (false, m) else (true, md_upd m (Z.to_N (Z.of_N (md_pos m) + off)) pl)) = (ok, m') ->
      (~ In Fail pl -> ~ In Fail (md_plan m')) /\ (length (md_plan m') <= length pl)%nat /\ if ok then (0 <= Z.of_N (md_pos m) + off < 18446744073709551616)%Z /\ md_at (md_all m) (md_broken m) m' (Z.to_N (Z.of_N (md_pos m) + off)) else ~ In Fail pl -> ~ (0 <= Z.of_N (md_pos m) + off < 18446744073709551616)%Z).
    { intros pl ->. destruct (Z.ltb_spec (Z.of_N (md_pos m) + off) 0) as [L|L]; cbn [orb]; [intro Q; injection Q as <- <-; split; [easy|]; split; [lia|]; intros; lia|].
      destruct (Z.leb_spec 18446744073709551616 (Z.of_N (md_pos m) + off)) as [L'|L']; intro Q; injection Q as <- <-; (split; [easy|]); (split; [cbn; lia|]); [intros; lia|]. split; [lia|]. split; [exact Lc|]. split; [lia|]. now repeat (split; auto). }
    destruct (md_plan m) as [|[k| |] pl] eqn:E; try (apply G; reflexivity). intro Q. injection Q as <- <-. cbn. split; [intuition|]. split; [lia|]. intuition.
  - intros m p A. pose proof (md_end_sim c br fuel [] m p A) as H. exact H.
Qed.

(** ** A layer *)
Definition br_at {R} (c : list byte) (at_ : R -> N -> Prop) (b : bufr R) (p : N) : Prop :=
  len (br_buf b) <= BUF_CAP /\ exists q, at_ (br_in b) q /\ br_pos b <= len (br_buf b) /\ br_pos b <= p /\ p + len (br_buf b) = q + br_pos b /\ br_buf b ++ rest c q = rest c (p - br_pos b).
Definition br_mu {R} (mu : R -> nat) (b : bufr R) : nat := mu (br_in b).
Definition br_calm {R} (calm : R -> Prop) (b : bufr R) : Prop := calm (br_in b).
Lemma br_at_new {R} c (at_ : R -> N -> Prop) r p : at_ r p -> br_at c at_ (br_new r) p.
Proof. intro H. split; [discriminate|]. exists p. cbn. change (len []) with 0. rewrite N.sub_0_r. repeat split; auto; lia. Qed.
Lemma br_left_eq {R} c at_ (b : bufr R) p q : at_ (br_in b) q -> br_pos b <= len (br_buf b) -> br_pos b <= p -> p + len (br_buf b) = q + br_pos b -> br_buf b ++ rest c q = rest c (p - br_pos b) ->
  rest c p = br_left b ++ rest c q /\ p + len (br_left b) = q.
Proof.
  intros _ H1 H2 H3 H4. assert (L : len (br_left b) = len (br_buf b) - br_pos b) by (unfold br_left, len; rewrite skipn_length; lia). split; [|lia].
  replace p with (p - br_pos b + len (firstn (N.to_nat (br_pos b)) (br_buf b))) at 1 by (unfold len in *; rewrite firstn_length; lia).
  apply rest_after. rewrite <- H4, app_assoc. f_equal. symmetry. apply firstn_skipn.
Qed.
(** Consuming [n] buffered bytes. *)
Lemma br_at_take {R} c at_ (b : bufr R) p n : br_at c at_ b p -> n <= len (br_left b) -> br_at c at_ (Build_bufr (br_in b) (br_buf b) (br_pos b + n)) (p + n).
Proof.
  intros (HB & q & H0 & H1 & H2 & H3 & H4) Hn. assert (L : len (br_left b) = len (br_buf b) - br_pos b) by (unfold br_left, len; rewrite skipn_length; lia). split; [exact HB|]. exists q. cbn. split; [exact H0|]. split; [lia|]. split; [lia|]. split; [lia|]. rewrite H4. f_equal. lia.
Qed.
Lemma br_take_sim {R} c br at_ (b : bufr R) p n r b' : br_at c at_ b p -> 0 < n -> (br_left b = [] -> rest c p = [] /\ br = false) -> br_take n b = (r, b') ->
  br_in b' = br_in b /\ exists x, r = RBytes x /\ br_at c at_ b' (p + len x) /\ len x <= n /\ (exists t, rest c p = x ++ t) /\ (x = [] -> rest c p = [] /\ br = false).
Proof.
  intros A Hn Hl Q. unfold br_take in Q. injection Q as <- <-. split; [reflexivity|]. eexists. split; [reflexivity|]. set (k := N.to_nat (N.min n (len (br_left b)))).
  assert (Lk : len (firstn k (br_left b)) = N.of_nat k) by (unfold len; rewrite firstn_length; unfold k, len; lia). rewrite Lk. split; [apply br_at_take; [exact A|unfold k, len; lia]|]. split; [unfold k; lia|]. split.
  - destruct A as (_ & q & H0 & H1 & H2 & H3 & H4). destruct (br_left_eq c at_ b p q H0 H1 H2 H3 H4) as (-> & _). exists (skipn k (br_left b) ++ rest c q). now rewrite app_assoc, firstn_skipn.
  - intro Z. apply Hl. rewrite Z in Lk. change (len []) with 0 in Lk. destruct (br_left b); [reflexivity|]. exfalso. unfold k, len in Lk. cbn [length] in Lk. lia.
Qed.
Lemma br_sim {R} (o : rops R) c br fuel at_ mu calm : sim o c br fuel at_ mu calm -> sim (br_ops o) c br fuel (br_at c at_) (br_mu mu) (br_calm calm).
Proof.
  intro S. split; cbn [br_ops o_read o_seek o_end].
  - intros b p (_ & q & H0 & H1 & H2 & H3 & _). pose proof (s_pos S _ _ H0). lia.
  - intros n b p r b' A Hn. unfold br_read. destruct (N.eqb_spec (br_pos b) (len (br_buf b))) as [E|E].
    + assert (Ap : at_ (br_in b) p) by (destruct A as (_ & q & H0 & _ & _ & H3 & _); replace p with q by lia; exact H0). destruct (BUF_CAP <=? n) eqn:F; cbn [andb].
      * destruct (o_read o n (br_in b)) as [x s] eqn:Q. intro Z. injection Z as <- <-. destruct (s_read S _ _ _ _ _ Ap Hn Q) as (C & M & H). split; [exact C|]. split; [exact M|]. destruct x as [x| |].
        -- destruct H as (H & H'). split; [now apply br_at_new|exact H'].
        -- destruct H as (H & H'). split; [now apply br_at_new|exact H'].
        -- destruct H as (H & H'). split; [now apply br_at_new|exact H'].
      * destruct (o_read o BUF_CAP (br_in b)) as [x s] eqn:Q. destruct (s_read S _ _ _ _ _ Ap (eq_refl : 0 < BUF_CAP) Q) as (C & M & H). destruct x as [x| |].
        -- intro Z. destruct H as (H0 & H1 & (t & H2) & H3). assert (A' : br_at c at_ (Build_bufr s x 0) p).
           { split; [exact H1|]. exists (p + len x). cbn. split; [exact H0|]. split; [lia|]. split; [lia|]. split; [lia|]. now rewrite N.sub_0_r, (rest_after _ _ _ _ H2). }
           destruct (br_take_sim c br at_ _ p n r b' A' Hn) with (2 := Z) as (EI & y & -> & H'); [exact H3|]. unfold br_calm, br_mu. rewrite EI. cbn [br_in]. split; [exact C|]. split; [exact M|exact H'].
        -- intro Z. injection Z as <- <-. destruct H as (H & H'). split; [exact C|]. split; [exact M|]. split; [now apply br_at_new|exact H'].
        -- intro Z. injection Z as <- <-. destruct H as (H & H'). split; [exact C|]. split; [exact M|]. split; [now apply br_at_new|exact H'].
    + cbn [andb]. intro Z. destruct (br_take_sim c br at_ _ p n r b' A Hn) with (2 := Z) as (EI & y & -> & H').
      { intro Q. exfalso. apply E. destruct A as (_ & q & _ & H1 & _). assert (L : len (br_left b) = len (br_buf b) - br_pos b) by (unfold br_left, len; rewrite skipn_length; lia). rewrite Q in L. change (len []) with 0 in L. lia. }
      unfold br_calm, br_mu. rewrite EI. split; [easy|]. split; [lia|exact H'].
  - intros off b p ok b' (HB & q & H0 & H1 & H2 & H3 & H4) Ho. destruct (br_left_eq c at_ b p q H0 H1 H2 H3 H4) as (_ & EL). unfold br_seek, br_calm, br_mu. destruct (Z.leb_spec (-9223372036854775808) (off - Z.of_N (len (br_left b)))) as [L|L].
    + destruct (o_seek o (off - Z.of_N (len (br_left b))) (br_in b)) as [k s] eqn:Q. intro Z. injection Z as <- <-. destruct (s_seek S _ _ _ _ _ H0 L Q) as (C & M & H). replace (Z.of_N q + (off - Z.of_N (len (br_left b))))%Z with (Z.of_N p + off)%Z in H by lia.
      destruct k; cbn [br_in br_new]; (split; [exact C|]); (split; [exact M|]); [|exact H]. destruct H as [H H']. split; [exact H|now apply br_at_new].
    + destruct (o_seek o (- Z.of_N (len (br_left b))) (br_in b)) as [k s] eqn:Q.
      assert (Lb : (-9223372036854775808 <= - Z.of_N (len (br_left b)))%Z) by (unfold br_left, len, BUF_CAP in *; rewrite skipn_length; lia).
      destruct (s_seek S _ _ _ _ _ H0 Lb Q) as (C & M & H). replace (Z.of_N q + - Z.of_N (len (br_left b)))%Z with (Z.of_N p) in H by lia. destruct k.
      * destruct H as [_ H]. rewrite N2Z.id in H. destruct (o_seek o off s) as [k s'] eqn:Q'. intro Z. injection Z as <- <-. destruct (s_seek S _ _ _ _ _ H Ho Q') as (C' & M' & H'). cbn [br_in br_new]. split; [auto|]. split; [lia|].
        destruct k; [destruct H' as [H' H'']; split; [exact H'|now apply br_at_new]|auto].
      * intro Z. injection Z as <- <-. cbn [br_in]. split; [exact C|]. split; [exact M|]. intros Cm T. apply (H Cm). pose proof (s_pos S _ _ H0). lia.
  - intros b p (HB & q & H0 & H1 & H2 & H3 & H4). destruct (br_left_eq c at_ b p q H0 H1 H2 H3 H4) as (ER & EL). unfold br_end, br_calm, br_mu. pose proof (s_end S _ _ H0) as H. destruct (o_end o (br_in b)) as [[d|e|]|].
    + destruct H as [-> ->]. split; [reflexivity|now symmetry].
    + exact H.
    + exact H.
    + rewrite ER, app_length. lia.
Qed.

(** ** Comparison of the loaders with those of M_IO *)
(** [x] is what the reader of M_IO answers, [y], up to [P]; or it fails although [y] may not, which needs [bad]; or it ran out of
    fuel, which needs [stuck]. *)
Definition agree {A A'} (P : A -> A' -> Prop) (bad stuck : Prop) (x : option (outcome A)) (y : option (outcome A')) : Prop :=
  match x with
  | None => stuck
  | Some (Err IoError) => bad \/ y = Some (Err IoError)
  | Some (Err e) => y = Some (Err e)
  | Some Panic => y = Some Panic
  | Some (Ok a) => exists a', y = Some (Ok a') /\ P a a'
  end.
Lemma agree_bind {A A' B B'} (P : A -> A' -> Prop) (Q : B -> B' -> Prop) bad stuck x y k k' :
  agree P bad stuck x y -> (forall a a', P a a' -> agree Q bad stuck (k a) (k' a')) -> agree Q bad stuck (sbind x k) (sbind y k').
Proof.
  intros H HK. destruct x as [[a|e|]|]; cbn [sbind agree] in *; [|destruct e; try (now subst y)|now subst y|exact H].
  - destruct H as (a' & -> & H). cbn [sbind]. now apply HK.
  - destruct H as [H| ->]; [now left|now right].
Qed.
Lemma agree_same {A B B'} (Q : B -> B' -> Prop) bad stuck (x : outcome A) k k' :
  (forall a, agree Q bad stuck (k a) (k' a)) -> agree Q bad stuck (sbind (Some x) k) (sbind (Some x) k').
Proof. intro H. destruct x as [a|e|]; cbn [sbind agree]; [apply H|destruct e; try reflexivity; now right|reflexivity]. Qed.
Lemma agree_ret {A A'} (P : A -> A' -> Prop) bad stuck a a' : P a a' -> agree P bad stuck (Some (Ok a)) (Some (Ok a')).
Proof. intro H. now exists a'. Qed.
(** Interfaces that agree. *)
Record isim {S} (i : rif S) (c : list byte) (bad stuck : Prop) (whole : Prop) (at_ : S -> N -> Prop) : Prop := {
  i_exact : forall n s p, at_ s p -> agree (fun a a' => fst a = fst a' /\ at_ (snd a) (r_pos (snd a')) /\ r_all (snd a') = c) bad stuck (f_exact i n s) (Some (read_exact n {| r_all := c; r_pos := p |}));
  i_seek : forall off s p, at_ s p -> (-9223372036854775808 <= off)%Z -> agree (fun a a' => at_ a (r_pos a') /\ r_all a' = c) bad stuck (f_seek i off s) (Some (seek_relative off {| r_all := c; r_pos := p |}));
  i_end : forall s p, at_ s p -> agree (fun a a' => a = a' /\ whole) bad stuck (f_end i s) (Some (Ok (read_to_end {| r_all := c; r_pos := p |})))
}.
Arguments i_exact {S i c bad stuck whole at_}. Arguments i_seek {S i c bad stuck whole at_}. Arguments i_end {S i c bad stuck whole at_}.

Lemma loop_sim {R} (o : rops R) c br f0 at_ mu calm : sim o c br f0 at_ mu calm -> forall fuel n acc b p, br_at c at_ b p ->
  match br_exact_loop fuel o n acc b with
  | Some (Ok (d, b')) => (exists x t, d = acc ++ x /\ len x = n /\ rest c p = x ++ t) /\ br_at c at_ b' (p + n) /\ (br_mu mu b' <= br_mu mu b)%nat /\ (br_calm calm b -> br_calm calm b')
  | Some (Err e) => e = IoError /\ (~ br_calm calm b \/ br = true \/ len (rest c p) < n)
  | Some Panic => False
  | None => (fuel <= br_mu mu b + length (rest c p))%nat
  end.
Proof.
  intro S. apply br_sim in S. assert (Z : forall acc b p, br_at c at_ b p -> (exists x t, acc = acc ++ x /\ len x = 0 /\ rest c p = x ++ t) /\ br_at c at_ b (p + 0) /\ (br_mu mu b <= br_mu mu b)%nat /\ (br_calm calm b -> br_calm calm b)).
  { intros acc b p A. split; [exists [], (rest c p); now rewrite app_nil_r|]. rewrite N.add_0_r. auto. }
  induction fuel as [|fuel IH]; intros n acc b p A; cbn [br_exact_loop]; (destruct (N.eqb_spec n 0) as [->|Hn]; [now apply Z|]); [lia|].
  destruct (br_read o n b) as [r b'] eqn:E. destruct (s_read S n b p r b' A ltac:(lia) E) as (C & M & H). destruct r as [[|x y]| |].
  - destruct H as (_ & _ & _ & H). destruct (H eq_refl) as [-> _]. split; [reflexivity|]. right. right. change (len []) with 0. lia.
  - set (w := x :: y) in *. assert (W : (1 <= length w)%nat) by (cbn; lia). clearbody w. destruct H as (A' & Lw & (t & Ht) & _). specialize (IH (n - len w) (acc ++ w) b' _ A'). rewrite (rest_after _ _ _ _ Ht) in IH. rewrite Ht. unfold len in Lw.
    destruct (br_exact_loop fuel o (n - len w) (acc ++ w) b') as [[[d b2]|e|]|].
    + destruct IH as ((x' & t' & -> & Lx & ->) & A2 & M2 & C2). split; [exists (w ++ x'), t'; rewrite <- !app_assoc; split; [reflexivity|]; split; [|reflexivity]; unfold len in *; rewrite app_length; lia|]. split; [replace (p + n) with (p + len w + (n - len w)) by (unfold len; lia); exact A2|]. split; [lia|auto].
    + destruct IH as [-> IH]. split; [reflexivity|]. destruct IH as [IH|[IH|IH]]; [left; auto|right; now left|]. right. right. unfold len in *. rewrite app_length. lia.
    + exact IH.
    + rewrite app_length. lia.
  - destruct H as (A' & H). specialize (IH n acc b' p A'). destruct (br_exact_loop fuel o n acc b') as [[[d b2]|e|]|].
    + destruct IH as (H1 & A2 & M2 & C2). split; [exact H1|]. split; [exact A2|]. split; [lia|auto].
    + destruct IH as [-> IH]. split; [reflexivity|]. destruct IH as [IH|IH]; [left; auto|now right].
    + exact IH.
    + lia.
  - split; [reflexivity|]. destruct H as [_ [H|H]]; [now left|right; now left].
Qed.
(** The interface of a BufReader over anything that reads [c]. [bad]: failures are to come or the content breaks off. *)
Lemma br_isim {R} (o : rops R) c br fuel at_ mu calm m0 (k0 : Prop) : sim o c br fuel at_ mu calm ->
  isim (br_if fuel o) c (~ k0 \/ br = true) (fuel <= m0 + length c)%nat (br = false) (fun b p => br_at c at_ b p /\ (br_mu mu b <= m0)%nat /\ (k0 -> br_calm calm b)).
Proof.
  intro S. pose proof (br_sim _ _ _ _ _ _ _ S) as S'. assert (RL : forall p, (length (rest c p) <= length c)%nat) by (intro p; unfold rest; rewrite skipn_length; lia). split; cbn [br_if f_exact f_seek f_end].
  - intros n b p (A & M & K). unfold br_read_exact, read_exact. rewrite r_rest_eq. destruct (N.leb_spec (br_pos b + n) (len (br_buf b))) as [L|L].
    + pose proof A as (HB & q & H0 & H1 & H2 & H3 & H4). destruct (br_left_eq c at_ b p q H0 H1 H2 H3 H4) as (ER & EL). assert (LL : len (br_left b) = len (br_buf b) - br_pos b) by (unfold br_left, len; rewrite skipn_length; lia).
      rewrite (proj2 (N.leb_le _ _)) by (rewrite ER; unfold len in *; rewrite app_length; lia). eexists. split; [reflexivity|]. cbn [fst snd r_pos r_all]. split; [|split; [|reflexivity]].
      * rewrite ER, firstn_app. replace (N.to_nat n - length (br_left b))%nat with 0%nat by (unfold len in *; lia). cbn. now rewrite app_nil_r.
      * split; [apply br_at_take; [exact A|lia]|]. split; [exact M|exact K].
    + pose proof (loop_sim o c br fuel at_ mu calm S fuel n [] b p A) as H. destruct (br_exact_loop fuel o n [] b) as [[[d b']|e|]|].
      * destruct H as ((x & t & -> & Lx & ER) & A' & M' & C'). rewrite (proj2 (N.leb_le _ _)) by (rewrite ER; unfold len in *; rewrite app_length; lia). eexists. split; [reflexivity|]. cbn [fst snd r_pos r_all app]. split; [|split; [|reflexivity]].
        -- rewrite ER, <- Lx. unfold len. rewrite Nat2N.id, firstn_app, Nat.sub_diag, firstn_all. cbn. now rewrite app_nil_r.
        -- split; [exact A'|]. split; [lia|auto].
      * destruct H as [-> H]. cbn [agree]. destruct H as [H|[H|H]]; [left; left; auto|left; now right|]. right. now rewrite (proj2 (N.leb_gt _ _)).
      * contradiction.
      * cbn [agree]. specialize (RL p). lia.
  - intros off b p (A & M & K) Ho. unfold br_seek_relative, seek_relative. cbn [r_pos r_all]. pose proof A as (HB & q & H0 & H1 & H2 & H3 & H4). destruct (Z.leb_spec 0 (Z.of_N (br_pos b) + off)) as [L|L]; cbn [andb].
    2:{ destruct (br_seek o off b) as [ok b'] eqn:E. pose proof (s_seek S' off b p ok b' A Ho E) as (C & M' & H). destruct ok.
        - destruct H as (Rg & A'). rewrite (proj2 (Z.ltb_ge _ _)), (proj2 (Z.leb_gt _ _)) by lia. eexists. split; [reflexivity|]. cbn [r_pos r_all]. split; [|reflexivity]. split; [exact A'|]. split; [lia|auto].
        - cbn [agree]. destruct (Z.ltb_spec (Z.of_N p + off) 0) as [B|B]; cbn [orb]; [now right|]. destruct (Z.leb_spec 18446744073709551616 (Z.of_N p + off)) as [B'|B']; [now right|]. left. left. intro Q. apply (H (K Q)). lia. }
    destruct (Z.leb_spec (Z.of_N (br_pos b) + off) (Z.of_N (len (br_buf b)))) as [L'|L'].
    + pose proof (s_pos S _ _ H0). rewrite (proj2 (Z.ltb_ge _ _)), (proj2 (Z.leb_gt _ _)) by lia. eexists. split; [reflexivity|]. cbn [r_pos r_all]. split; [|reflexivity]. split; [|split; [exact M|exact K]].
      split; [exact HB|]. exists q. cbn [br_in br_buf br_pos]. split; [exact H0|]. split; [lia|]. split; [lia|]. split; [lia|]. rewrite H4. f_equal. lia.
    + destruct (br_seek o off b) as [ok b'] eqn:E. pose proof (s_seek S' off b p ok b' A Ho E) as (C & M' & H). destruct ok.
      * destruct H as (Rg & A'). rewrite (proj2 (Z.ltb_ge _ _)), (proj2 (Z.leb_gt _ _)) by lia. eexists. split; [reflexivity|]. cbn [r_pos r_all]. split; [|reflexivity]. split; [exact A'|]. split; [lia|auto].
      * cbn [agree]. destruct (Z.ltb_spec (Z.of_N p + off) 0) as [B|B]; cbn [orb]; [now right|]. destruct (Z.leb_spec 18446744073709551616 (Z.of_N p + off)) as [B'|B']; [now right|]. left. left. intro Q. apply (H (K Q)). lia.
  - intros b p (A & M & K). pose proof (s_end S' _ _ A) as H. cbn [br_ops o_end] in H. unfold read_to_end. rewrite r_rest_eq. destruct (br_end o b) as [[d|e|]|].
    + destruct H as [-> ->]. now exists (rest c p).
    + destruct H as [-> H]. left. destruct H; [left; auto|now right].
    + contradiction.
    + cbn [agree]. specialize (RL p). lia.
Qed.

(** ** The loaders *)
Definition at_pair {S A} (c : list byte) (at_ : S -> N -> Prop) (a : A * S) (a' : A * reader) : Prop := fst a = fst a' /\ at_ (snd a) (r_pos (snd a')) /\ r_all (snd a') = c.
Lemma g_u64_agree {S} (i : rif S) c bad stuck whole at_ s r : isim i c bad stuck whole at_ -> at_ s (r_pos r) -> r_all r = c -> agree (at_pair c at_) bad stuck (g_u64 i s) (g_u64 io_if r).
Proof.
  intros H A E. unfold g_u64. destruct r as [al p]. cbn [r_all r_pos] in *. subst al. eapply agree_bind; [apply (i_exact H 8 s p A)|]. intros [x s'] [x' r'] (E1 & E2 & E3). cbn [fst snd] in *. subst x'. now apply agree_ret.
Qed.
Lemma g_flags_agree {S} (i : rif S) c bad stuck whole at_ s r : isim i c bad stuck whole at_ -> at_ s (r_pos r) -> r_all r = c -> agree (at_pair c at_) bad stuck (g_flags i s) (g_flags io_if r).
Proof.
  intros H A E. unfold g_flags. destruct r as [al p]. cbn [r_all r_pos] in *. subst al. eapply agree_bind; [apply (i_exact H 8 s p A)|]. intros [x s'] [x' r'] (E1 & E2 & E3). cbn [fst snd] in *. subst x'. apply agree_same. intro f. now apply agree_ret.
Qed.
Lemma g_many_agree {S} (i : rif S) c bad stuck whole at_ size : isim i c bad stuck whole at_ -> forall n s r, at_ s (r_pos r) -> r_all r = c -> agree (at_pair c at_) bad stuck (g_many i n size s) (g_many io_if n size r).
Proof.
  intro H. induction n as [|n IH]; intros s r A E; cbn [g_many]; [now apply agree_ret|]. destruct r as [al p]. cbn [r_all r_pos] in *. subst al. eapply agree_bind; [apply (i_exact H size s p A)|]. intros [x s'] [x' r'] (E1 & E2 & E3). cbn [fst snd] in *. subst x'.
  eapply agree_bind; [now apply IH|]. intros [y s2] [y' r2] (F1 & F2 & F3). cbn [fst snd] in *. subst y'. now apply agree_ret.
Qed.
Lemma g_seek_agree {S} (i : rif S) c bad stuck whole at_ off s r : isim i c bad stuck whole at_ -> at_ s (r_pos r) -> r_all r = c -> (-9223372036854775808 <= off)%Z ->
  agree (fun a a' => at_ a (r_pos a') /\ r_all a' = c) bad stuck (f_seek i off s) (f_seek io_if off r).
Proof. intros H A E Ho. destruct r as [al p]. cbn [r_all r_pos] in *. subst al. now apply (i_seek H). Qed.
Lemma g_exact_agree {S} (i : rif S) c bad stuck whole at_ n s r : isim i c bad stuck whole at_ -> at_ s (r_pos r) -> r_all r = c -> agree (at_pair c at_) bad stuck (f_exact i n s) (f_exact io_if n r).
Proof. intros H A E. destruct r as [al p]. cbn [r_all r_pos] in *. subst al. now apply (i_exact H). Qed.
Lemma g_end_agree {S} (i : rif S) c bad stuck whole at_ s r : isim i c bad stuck whole at_ -> at_ s (r_pos r) -> r_all r = c -> agree (fun a a' => a = a' /\ whole) bad stuck (f_end i s) (f_end io_if r).
Proof. intros H A E. destruct r as [al p]. cbn [r_all r_pos] in *. subst al. now apply (i_end H). Qed.
Lemma as_i64_low x : (-9223372036854775808 <= as_i64 x)%Z.
Proof. unfold as_i64. destruct (N.ltb_spec x 9223372036854775808); lia. Qed.
Ltac astep L s r A E := eapply agree_bind; [eapply L; eassumption|]; clear A E; clear s r; let x := fresh "x" in let x' := fresh in let Q := fresh in intros [x s] [x' r] (Q & A & E); cbn [fst snd] in Q, A, E; subst x'.
Lemma g_v1_agree {S} (i : rif S) c bad stuck (whole : Prop) at_ pr s r fl partial : isim i c bad stuck whole at_ -> at_ s (r_pos r) -> r_all r = c ->
  agree (fun a a' => a = a' /\ whole) bad stuck (g_v1 i pr s fl partial) (g_v1 io_if pr r fl partial).
Proof.
  intros H A E. unfold g_v1. do 5 (astep (@g_u64_agree S) s r A E). eapply (agree_bind (at_pair c at_)).
  - destruct partial.
    + apply agree_same. intro off. eapply agree_bind; [eapply g_seek_agree; eauto using as_i64_low|]. intros s1 r1 (A1 & E1). now apply agree_ret.
    + apply agree_same. intros _. astep (@g_many_agree S) s r A E. now apply agree_ret.
  - clear dependent s. clear dependent r. intros [x' s] [x'' r] (Q & A & E). cbn [fst snd] in Q, A, E. subst x''. eapply agree_bind; [eapply g_end_agree; eassumption|]. intros d d' (<- & W). now apply agree_ret.
Qed.
Lemma g_v2_agree {S} (i : rif S) c bad stuck (whole : Prop) at_ pr s r fl partial : isim i c bad stuck whole at_ -> at_ s (r_pos r) -> r_all r = c ->
  agree (fun a a' => a = a' /\ whole) bad stuck (g_v2 i pr s fl partial) (g_v2 io_if pr r fl partial).
Proof.
  intros H A E. unfold g_v2. do 2 (astep (@g_u64_agree S) s r A E). destruct (negb (fpp_in_range x0)); [reflexivity|]. do 3 (astep (@g_u64_agree S) s r A E). eapply (agree_bind (at_pair c at_)).
  - destruct partial.
    + eapply agree_bind; [eapply g_seek_agree; eauto using as_i64_low|]. intros s1 r1 (A1 & E1). apply agree_same. intro ic. now apply agree_ret.
    + apply agree_same. intros ic. astep (@g_exact_agree S) s r A E. now apply agree_ret.
  - clear dependent s. clear dependent r. intros [ic s] [ic' r] (Q & A & E). cbn [fst snd] in Q, A, E. subst ic'. astep (@g_u64_agree S) s r A E. eapply (agree_bind (at_pair c at_)).
    + destruct partial.
      * apply agree_same. intro off. eapply agree_bind; [eapply g_seek_agree; eauto using as_i64_low|]. intros s1 r1 (A1 & E1). now apply agree_ret.
      * apply agree_same. intros _. eapply g_many_agree; eassumption.
    + clear dependent s. clear dependent r. intros [bs s] [bs' r] (Q & A & E). cbn [fst snd] in Q, A, E. subst bs'. eapply agree_bind; [eapply g_end_agree; eassumption|]. intros d d' (<- & W). now apply agree_ret.
Qed.

(** ** The reader of M_IO as an interface gives the loaders of the model *)
Lemma sbind_some {A B} (x : outcome A) (k : A -> outcome B) : sbind (Some x) (fun a => Some (k a)) = Some (obind x k).
Proof. now destruct x. Qed.
Lemma sbind_ext {A B} (x : outcome A) k (k' : A -> outcome B) : (forall a, k a = Some (k' a)) -> sbind (Some x) k = Some (obind x k').
Proof. intro H. destruct x; cbn; [apply H|reflexivity|reflexivity]. Qed.
Lemma io_u64 r : g_u64 io_if r = Some (read_le_u64 r).
Proof. unfold g_u64, read_le_u64. cbn [io_if f_exact]. apply sbind_ext. now intros [b s]. Qed.
Lemma io_flags r : g_flags io_if r = Some (read_flags r).
Proof. unfold g_flags, read_flags. cbn [io_if f_exact]. apply sbind_ext. intros [b s]. apply sbind_ext. reflexivity. Qed.
Lemma io_many n size : forall r, g_many io_if n size r = Some (read_many n size r).
Proof. induction n as [|n IH]; intro r; [reflexivity|]. cbn [g_many read_many io_if f_exact]. apply sbind_ext. intros [b s]. fold io_if. rewrite IH. apply sbind_ext. now intros [bs s']. Qed.
Lemma io_v1 pr r fl partial : g_v1 io_if pr r fl partial = Some (v1_from_reader_with_flags pr r fl partial).
Proof.
  unfold g_v1, v1_from_reader_with_flags, read_le_f64. do 5 (rewrite io_u64; apply sbind_ext; intros [? ?]). clear r. rename r3 into r.
  match goal with |- sbind ?x _ = Some (obind ?y _) => assert (Q : x = Some y) end.
  { destruct partial; [apply sbind_ext; intro; cbn [io_if f_seek]; apply sbind_ext; reflexivity|]. apply sbind_ext. intros _. rewrite io_many. apply sbind_ext. now intros [? ?]. }
  rewrite Q. apply sbind_ext. now intros [? ?].
Qed.
Lemma io_v2 pr r fl partial : g_v2 io_if pr r fl partial = Some (v2_from_reader_with_flags pr r fl partial).
Proof.
  unfold g_v2, v2_from_reader_with_flags, read_le_f64. do 2 (rewrite io_u64; apply sbind_ext; intros [? ?]). destruct (negb _); [reflexivity|]. do 3 (rewrite io_u64; apply sbind_ext; intros [? ?]).
  match goal with |- sbind ?x _ = Some (obind ?y _) => assert (Q : x = Some y) end.
  { destruct partial; [cbn [io_if f_seek]; apply sbind_ext; intro; apply sbind_ext; reflexivity|]. apply sbind_ext. intro. cbn [io_if f_exact]. apply sbind_ext. now intros [? ?]. }
  rewrite Q. clear Q. apply sbind_ext. intros [? ?]. rewrite io_u64. apply sbind_ext. intros [? ?].
  match goal with |- sbind ?x _ = Some (obind ?y _) => assert (Q : x = Some y) end.
  { destruct partial; [apply sbind_ext; intro; cbn [io_if f_seek]; apply sbind_ext; reflexivity|]. apply sbind_ext. intros _. apply io_many. }
  rewrite Q. apply sbind_ext. now intros [? ?].
Qed.
