(** Buffered writing to a device with limited room (M_IO). *)
From Coq Require Import Lia.
From Verif Require Import M_IO P_Base.
Open Scope N_scope.

(** [took s b s']: offered [b], the device [s] took as much of it as there was room for. *)
Definition took (s : sink) (b : list byte) (s' : sink) : Prop :=
  sk_got s' = sk_got s ++ firstn (N.to_nat (sk_room s)) b /\ sk_room s' = sk_room s - len b.
Lemma firstn_len {A} n (l : list A) : len l <= n -> firstn (N.to_nat n) l = l.
Proof. intro H. apply firstn_all2. unfold len in H. lia. Qed.
Lemma took_all s b : took s b (fst (sink_write_all s b)) /\ snd (sink_write_all s b) = (len b <=? sk_room s).
Proof.
  unfold sink_write_all, took. destruct (N.leb_spec (len b) (sk_room s)) as [H|H]; cbn [fst snd sk_got sk_room]; split; try reflexivity.
  - now rewrite firstn_len.
  - split; [reflexivity|lia].
Qed.
Lemma took_nil s : took s [] s.
Proof. unfold took. rewrite firstn_nil, app_nil_r. split; [reflexivity|]. cbn. lia. Qed.
Lemma took_app s a s1 b s2 : took s a s1 -> took s1 b s2 -> took s (a ++ b) s2.
Proof.
  intros [G1 R1] [G2 R2]. unfold took. rewrite G2, G1, R2, R1, len_app. split; [|lia]. rewrite <- app_assoc. f_equal. rewrite firstn_app. f_equal. f_equal. unfold len. lia.
Qed.
(** After the calls: the device took [x], the buffer holds the rest of what was submitted; a failure left no room. *)
Record wrote (s : sink) (t : list byte) (w : bufw) (ok : bool) : Prop := {
  wr_cap : len (bw_buf w) <= BUF_CAP;
  wr_took : exists x, took s x (bw_sink w) /\
    if ok then x ++ bw_buf w = t /\ len x <= sk_room s
    else exists r, x ++ r = t /\ sk_room s < len x
}.
Lemma flush_took w : took (bw_sink w) (bw_buf w) (bw_sink (fst (bw_flush w))) /\ snd (bw_flush w) = (len (bw_buf w) <=? sk_room (bw_sink w)) /\
  (snd (bw_flush w) = true -> bw_buf (fst (bw_flush w)) = []) /\ len (bw_buf (fst (bw_flush w))) <= len (bw_buf w).
Proof.
  unfold bw_flush. destruct (took_all (bw_sink w) (bw_buf w)) as [T E]. destruct (sink_write_all (bw_sink w) (bw_buf w)) as [s ok]. cbn [fst snd] in *. subst ok.
  destruct (N.leb_spec (len (bw_buf w)) (sk_room (bw_sink w))) as [H|H]; cbn [fst snd bw_sink bw_buf]; (split; [exact T|]); (split; [reflexivity|]).
  - split; [reflexivity|]. cbn. lia.
  - split; [discriminate|]. unfold len. rewrite skipn_length. lia.
Qed.
Lemma write_all_wrote s t w b : wrote s t w true -> wrote s (t ++ b) (fst (bw_write_all w b)) (snd (bw_write_all w b)).
Proof.
  intros [C (x & T & E & R)]. unfold bw_write_all. set (spare := BUF_CAP - len (bw_buf w)).
  destruct (N.ltb_spec (len b) spare) as [H|H]; cbn [fst snd].
  { constructor; cbn [bw_buf bw_sink]; [rewrite len_app; unfold spare in H; lia|]. exists x. split; [exact T|]. split; [|exact R]. now rewrite app_assoc, E. }
  destruct (N.ltb_spec spare (len b)) as [H1|H1].
  - destruct (flush_took w) as (F & Eo & Eb & Ec). destruct (bw_flush w) as [w1 ok]. cbn [fst snd] in *. pose proof (took_app _ _ _ _ _ T F) as T1. rewrite E in T1. destruct T as [_ Rm]. subst ok.
    destruct (N.leb_spec (len (bw_buf w)) (sk_room (bw_sink w))) as [Q|Q]; cbn [negb].
    + specialize (Eb eq_refl). assert (Lt : len t <= sk_room s) by (rewrite <- E, len_app; lia). destruct (N.leb_spec BUF_CAP (len b)) as [Hb|Hb].
      * destruct (took_all (bw_sink w1) b) as [T2 E2]. destruct (sink_write_all (bw_sink w1) b) as [s2 ok2]. cbn [fst snd] in *. constructor; cbn [bw_buf bw_sink]; [lia|].
        exists (t ++ b). split; [exact (took_app _ _ _ _ _ T1 T2)|]. destruct T1 as [_ R1]. subst ok2. rewrite Eb.
        destruct (N.leb_spec (len b) (sk_room (bw_sink w1))) as [Q2|Q2]; [split; [apply app_nil_r|rewrite len_app; lia]|exists []; split; [apply app_nil_r|rewrite len_app; lia]].
      * cbn [fst snd]. constructor; cbn [bw_buf bw_sink]; rewrite Eb; cbn [app]; [lia|]. exists t. split; [exact T1|]. split; [reflexivity|exact Lt].
    + cbn [fst snd]. constructor; [lia|]. exists t. split; [exact T1|]. exists b. split; [reflexivity|]. rewrite <- E, len_app. lia.
  - cbn [negb]. assert (Eq : len b = spare) by lia. destruct (N.leb_spec BUF_CAP (len b)) as [Hb|Hb].
    + assert (B0 : bw_buf w = []) by (destruct (bw_buf w); [reflexivity|unfold spare in *; rewrite len_cons in *; lia]).
      destruct (took_all (bw_sink w) b) as [T2 E2]. destruct (sink_write_all (bw_sink w) b) as [s2 ok2]. cbn [fst snd] in *. rewrite B0, app_nil_r in E. subst x. constructor; cbn [bw_buf bw_sink]; [rewrite B0; cbn; lia|].
      exists (t ++ b). split; [exact (took_app _ _ _ _ _ T T2)|]. destruct T as [_ Rm]. subst ok2. rewrite B0.
      destruct (N.leb_spec (len b) (sk_room (bw_sink w))) as [Q2|Q2]; [split; [apply app_nil_r|rewrite len_app; lia]|exists []; split; [apply app_nil_r|rewrite len_app; lia]].
    + cbn [fst snd]. constructor; cbn [bw_buf bw_sink]; [rewrite len_app; unfold spare in *; lia|]. exists x. split; [exact T|]. split; [now rewrite app_assoc, E|exact R].
Qed.
Lemma write_seq_wrote s l : forall t w, wrote s t w true -> exists p r, concat l = p ++ r /\ wrote s (t ++ p) (fst (bw_write_seq w l)) (snd (bw_write_seq w l)) /\ (snd (bw_write_seq w l) = true -> r = []).
Proof.
  induction l as [|b l IH]; intros t w H; cbn [bw_write_seq].
  - exists [], []. split; [reflexivity|]. cbn [fst snd]. rewrite app_nil_r. auto.
  - pose proof (write_all_wrote s t w b H) as H1. destruct (bw_write_all w b) as [w1 [|]]; cbn [fst snd] in *.
    + destruct (IH _ _ H1) as (p & r & E & A & B). exists (b ++ p), r. cbn [concat]. rewrite E, app_assoc. split; [reflexivity|]. rewrite app_assoc. auto.
    + exists b, (concat l). split; [reflexivity|]. split; [exact H1|discriminate].
Qed.
Lemma write_to_sink_sem calls s s' r : write_to_sink calls s = (s', r) ->
  took s (concat calls) s' /\ (r = Ok tt \/ r = Err IoError) /\ (r = Ok tt -> len (concat calls) <= sk_room s + BUF_CAP) /\ (r = Err IoError -> sk_room s < len (concat calls)).
Proof.
  unfold write_to_sink. assert (H0 : wrote s [] {| bw_sink := s; bw_buf := [] |} true).
  { constructor; [cbn; unfold BUF_CAP; lia|]. exists []. split; [apply took_nil|]. split; [reflexivity|]. cbn. lia. }
  destruct (write_seq_wrote s calls [] _ H0) as (p & rest & E & [C (x & T & X)] & Q). destruct (bw_write_seq _ calls) as [w ok]. cbn [fst snd app] in *.
  destruct (flush_took w) as (F & _). destruct (bw_flush w) as [w' ok']. cbn [fst] in F. intro R. injection R as <- <-. pose proof (took_app _ _ _ _ _ T F) as T2. destruct ok.
  - destruct X as [X R]. rewrite X in T2. rewrite (Q eq_refl), app_nil_r in E. rewrite E. split; [exact T2|]. split; [auto|]. split; [|discriminate]. intros _. rewrite <- X, len_app. lia.
  - destruct X as (r & X & R). assert (L : sk_room s < len (concat calls)) by (rewrite E, <- X, !len_app; lia). split; [|split; [auto|split; [discriminate|auto]]].
    destruct T2 as [T2 R2]. rewrite len_app in R2. split; [|lia]. rewrite T2, E, <- X. f_equal. rewrite !firstn_app.
    replace (N.to_nat (sk_room s) - length x)%nat with O by (unfold len in R; lia). rewrite app_length. replace (N.to_nat (sk_room s) - (length x + length r))%nat with O by (unfold len in R; lia).
    cbn [firstn]. now rewrite !app_nil_r.
Qed.
