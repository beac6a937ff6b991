(** Lemmas on the meters of M_Cost.v. *)
From Coq Require Import Lia.
From Verif Require Import M_Cost Spec_Bits P_Base P_BitSet P_IO P_Codec.
Open Scope N_scope.

(** ** Without the meter *)
Lemma mbind_snd {A B} (x : metered A) (k : A -> metered B) : snd (mbind x k) = obind (snd x) (fun a => snd (k a)).
Proof. destruct x as [n [a|e|]]; cbn; auto. now destruct (k a). Qed.
Lemma obind_ext {A B} (x : outcome A) (k l : A -> outcome B) : (forall a, k a = l a) -> obind x k = obind x l.
Proof. intro H. destruct x; cbn; auto. Qed.
Lemma vec_of_m_snd {A} size (x : A) n : snd (vec_of_m size x n) = vec_of size x n.
Proof. unfold vec_of_m, vec_of. now destruct (_ <=? _). Qed.
Ltac er := rewrite mbind_snd; apply obind_ext; intros [? ?].
Lemma obind_id {A B} (x : outcome (A * B)) : (let? (b, r) := x in Ok (b, r)) = x.
Proof. destruct x as [[? ?]| |]; reflexivity. Qed.
Lemma v1_load_same pr r fl partial : snd (v1_load_m pr r fl partial) = v1_from_reader_with_flags pr r fl partial.
Proof.
  unfold v1_load_m, v1_from_reader_with_flags. rewrite mbind_snd. cbn [new_buffer snd obind]. er. er. er. er. er. cbv zeta. rewrite mbind_snd.
  assert (E : forall (x : metered (list N * reader)) y (k l : list N * reader -> outcome v1), snd x = y -> (forall a, k a = l a) -> obind (snd x) k = obind y l) by (intros x y k l <- K; now apply obind_ext).
  apply E.
  - destruct partial; [reflexivity|]. rewrite mbind_snd, vec_of_m_snd. reflexivity.
  - intros [? ?]. rewrite mbind_snd. reflexivity.
Qed.
Lemma v2_load_same pr r fl partial : snd (v2_load_m pr r fl partial) = v2_from_reader_with_flags pr r fl partial.
Proof.
  assert (E : forall A (x : metered (A * reader)) y (k l : A * reader -> outcome v2), snd x = y -> (forall a, k a = l a) -> obind (snd x) k = obind y l) by (intros A x y k l <- K; now apply obind_ext).
  unfold v2_load_m, v2_from_reader_with_flags. rewrite mbind_snd. cbn [new_buffer snd obind]. er. er. destruct (negb _); [reflexivity|]. er. er. er. cbv zeta. rewrite mbind_snd. apply E.
  - destruct partial; [reflexivity|]. rewrite mbind_snd, vec_of_m_snd. reflexivity.
  - intros [? ?]. er. rewrite mbind_snd. apply E.
    + destruct partial; [reflexivity|]. rewrite mbind_snd, vec_of_m_snd. reflexivity.
    + intros [? ?]. rewrite mbind_snd. reflexivity.
Qed.
Lemma bf_load_same pr content partial : snd (bf_load_m pr content partial) = bf_from_reader_partial pr content partial.
Proof.
  unfold bf_load_m, bf_from_reader_partial. rewrite mbind_snd. cbn [new_buffer snd obind]. er. destruct (_ =? 1); [|destruct (_ =? 2); [|reflexivity]]; rewrite mbind_snd.
  - now rewrite v1_load_same.
  - now rewrite v2_load_same.
Qed.

(** ** A longer file *)
Definition mono {A} (R : A -> A -> Prop) (x y : metered A) : Prop :=
  fst x <= fst y /\ ext_rel R (snd x) (snd y).
Lemma mono_bind {A B} (R : A -> A -> Prop) (S : B -> B -> Prop) x y (f g : A -> metered B) : mono R x y -> (forall a b, R a b -> mono S (f a) (g b)) -> mono S (mbind x f) (mbind y g).
Proof.
  intros [C E] K. destruct x as [n x], y as [m y]. cbn [fst snd] in *. destruct E as [->|E].
  - cbn [mbind]. split; [|now left]. destruct y as [b|e|]; cbn [mbind]; [destruct (g b)|..]; cbn [fst]; lia.
  - destruct x as [a|e|], y as [b|e'|]; try easy; cbn [mbind].
    + destruct (K a b E) as [C2 E2]. destruct (f a), (g b). cbn [fst snd] in *. split; cbn [fst snd]; [lia|exact E2].
    + split; [exact C|right; exact E].
    + split; [exact C|right; exact I].
Qed.
Lemma mono_free {A} (R : A -> A -> Prop) x y : ext_rel R x y -> mono R (free x) (free y).
Proof. intro E. split; [cbn; lia|exact E]. Qed.
Lemma mono_refl {A} (R : A -> A -> Prop) x : (forall a, R a a) -> mono R x x.
Proof. intro H. split; [lia|]. destruct x as [n [a|e|]]; right; cbn; auto. Qed.
Lemma mono_same {A B} (S : B -> B -> Prop) (x : metered A) (f g : A -> metered B) : (forall a, mono S (f a) (g a)) -> mono S (mbind x f) (mbind x g).
Proof. intro K. apply (mono_bind eq); [now apply mono_refl|]. intros a b <-. apply K. Qed.
(** Readers after a seek may be beyond the end of the shorter file. *)
Definition longer (s : list byte) (r r' : reader) : Prop := r_all r' = r_all r ++ s /\ r_pos r' = r_pos r.
Definition same_longer {A} (s : list byte) (p q : A * reader) : Prop := fst p = fst q /\ longer s (snd p) (snd q).
Lemma longer_rest s r r' : longer s r r' -> exists t, r_rest r' = r_rest r ++ t.
Proof.
  intros [A B]. rewrite !rest_skip, A, B, skipn_app. eauto.
Qed.
Lemma long_exact s n r r' : longer s r r' -> ext_rel (same_longer s) (read_exact n r) (read_exact n r').
Proof.
  intro G. destruct (longer_rest _ _ _ G) as [t T]. destruct (N.leb_spec n (len (r_rest r))) as [H|H]; [|left; now apply read_exact_short].
  right. unfold read_exact. rewrite T. rewrite !(proj2 (N.leb_le _ _)) by (try assumption; rewrite len_app; lia). destruct G as [A B]. split; cbn [fst snd].
  - rewrite firstn_app. replace (N.to_nat n - length (r_rest r))%nat with 0%nat by (unfold len in H; lia). cbn [firstn]. now rewrite app_nil_r.
  - split; [exact A|]. cbn [r_pos]. now rewrite B.
Qed.
Lemma long_many s n sz : forall r r', longer s r r' -> ext_rel (same_longer s) (read_many n sz r) (read_many n sz r').
Proof.
  induction n as [|n IH]; intros r r' G; [right; split; [reflexivity|exact G]|]. cbn [read_many].
  eapply ext_bind; [eapply long_exact; exact G|]. intros [a r1] [b r1'] [E G1]. cbn [fst snd] in *. subst b.
  eapply ext_bind; [eapply IH; exact G1|]. intros [l r2] [l' r2'] [E G2]. cbn [fst snd] in *. subst l'. right. split; [reflexivity|exact G2].
Qed.
Lemma long_u64 s r r' : longer s r r' -> ext_rel (same_longer s) (read_le_u64 r) (read_le_u64 r').
Proof.
  intro G. unfold read_le_u64. eapply ext_bind; [eapply long_exact; exact G|]. intros [a r1] [b r1'] [E G1]. cbn [fst snd] in *. subst b.
  right. split; [reflexivity|exact G1].
Qed.
Lemma long_flags s r r' : longer s r r' -> ext_rel (same_longer s) (read_flags r) (read_flags r').
Proof.
  intro G. unfold read_flags. eapply ext_bind; [eapply long_exact; exact G|]. intros [a r1] [b r1'] [E G1]. cbn [fst snd] in *. subst b.
  apply ext_same. intro fl. right. split; [reflexivity|exact G1].
Qed.
Lemma long_seek s z r r' : longer s r r' -> ext_rel (longer s) (seek_relative z r) (seek_relative z r').
Proof. intros [A B]. unfold seek_relative. rewrite B. destruct (_ || _); [now left|]. right. split; [exact A|reflexivity]. Qed.
Definition any {A} (x y : A) := True.
Lemma mono_data {A} s r r' (f g : list byte -> outcome A) : longer s r r' -> (exists a, f (read_to_end r) = Ok a) -> (exists b, g (read_to_end r') = Ok b) ->
  mono any (let! d := read_to_end_m r in free (f d)) (let! d := read_to_end_m r' in free (g d)).
Proof.
  intros G [a Ha] [b Hb]. destruct (longer_rest _ _ _ G) as [t T]. unfold read_to_end_m. cbn [mbind free]. split; cbn [fst snd].
  - unfold read_to_end. rewrite T, len_app. lia.
  - rewrite Ha, Hb. now right.
Qed.
Ltac lstep := eapply (mono_bind (same_longer _)); [apply mono_free; first [eapply long_u64; eassumption|eapply long_flags; eassumption]|];
  let a := fresh "x" in let b := fresh "y" in let ra := fresh "r" in let rb := fresh "r" in let E := fresh "E" in let G := fresh "G" in
  intros [a ra] [b rb] [E G]; cbn [fst snd] in E, G; subst b.
Lemma v1_load_mono pr s r r' fl partial : longer s r r' -> mono any (v1_load_m pr r fl partial) (v1_load_m pr r' fl partial).
Proof.
  intro G. unfold v1_load_m, read_le_f64. apply mono_same. intros _. lstep. lstep. lstep. lstep. lstep. cbv zeta.
  eapply (mono_bind (same_longer s)).
  - destruct partial.
    + apply mono_free, ext_same. intro off. eapply ext_bind; [eapply long_seek; eassumption|]. intros a b L. right. now split.
    + apply mono_same. intros _. apply mono_free. eapply ext_bind; [eapply long_many; eassumption|]. intros [l ra] [l' rb] [E' G']. cbn [fst snd] in *. subst l'. right. now split.
  - intros [b ra] [b' rb] [E' G']. cbn [fst snd] in *. eapply mono_data; eauto.
Qed.
Lemma v2_load_mono pr s r r' fl partial : longer s r r' -> mono any (v2_load_m pr r fl partial) (v2_load_m pr r' fl partial).
Proof.
  intro G. unfold v2_load_m, read_le_f64. apply mono_same. intros _. lstep. lstep. destruct (negb _); [apply mono_refl; now intro|]. lstep. lstep. lstep. cbv zeta.
  eapply (mono_bind (same_longer s)).
  - destruct partial.
    + apply mono_free. eapply ext_bind; [eapply long_seek; eassumption|]. intros a b L. apply ext_same. intro ic. right. now split.
    + apply mono_same. intros ic. apply mono_free. eapply ext_bind; [eapply long_exact; eassumption|]. intros [l ra] [l' rb] [E' G']. cbn [fst snd] in *. subst l'. right. now split.
  - intros [b ra] [b' rb] [E' G']. cbn [fst snd] in *. subst b'. lstep. eapply (mono_bind (same_longer s)).
    + destruct partial.
      * apply mono_free, ext_same. intro off. eapply ext_bind; [eapply long_seek; eassumption|]. intros a c L. right. now split.
      * apply mono_same. intros _. apply mono_free. eapply long_many. eassumption.
    + intros [c rc] [c' rd] [E' G'']. cbn [fst snd] in *. eapply mono_data; eauto.
Qed.
Lemma bf_load_mono pr a s partial : fst (bf_load_m pr a partial) <= fst (bf_load_m pr (a ++ s) partial).
Proof.
  assert (M : mono any (bf_load_m pr a partial) (bf_load_m pr (a ++ s) partial)); [|exact (proj1 M)].
  assert (G : longer s (reader_of a) (reader_of (a ++ s))) by (split; reflexivity).
  unfold bf_load_m. apply mono_same. intros _. lstep. destruct (_ =? 1); [|destruct (_ =? 2); [|apply mono_refl; now intro]].
  - eapply (mono_bind any); [eapply v1_load_mono; eassumption|]. intros. apply mono_free. now right.
  - eapply (mono_bind any); [eapply v2_load_mono; eassumption|]. intros. apply mono_free. now right.
Qed.

(** ** Successful and partial loads *)
Lemma mbind_Ok_inv {A B} (x : metered A) (k : A -> metered B) n b : mbind x k = (n, Ok b) -> exists n1 a n2, x = (n1, Ok a) /\ k a = (n2, Ok b) /\ n = n1 + n2.
Proof.
  destruct x as [n1 [a|e|]]; cbn [mbind]; try discriminate. destruct (k a) as [n2 r] eqn:E. intro H. injection H as <- ->. eauto 6.
Qed.
Lemma free_Ok_inv {A} (x : outcome A) n a : free x = (n, Ok a) -> x = Ok a /\ n = 0.
Proof. unfold free. intro H. now injection H as <- ->. Qed.
Lemma u64_rest r x r' : read_le_u64 r = Ok (x, r') -> len (r_rest r) = 8 + len (r_rest r').
Proof.
  unfold read_le_u64. intro E. apply obind_Ok_inv in E as ([a r1] & E1 & E). apply Ok_inj, pair_inj in E as [<- <-]. apply read_exact_inv in E1 as (A & B & _). rewrite A, len_app, B. reflexivity.
Qed.
Lemma many_rest n sz r l r' : read_many n sz r = Ok (l, r') -> len (r_rest r) = N.of_nat n * sz + len (r_rest r').
Proof.
  intro E. apply read_many_inv in E as (A & <- & F & _). rewrite A, len_app. f_equal. clear - F. induction F as [|b l Hb F IH]; [reflexivity|]. cbn [concat length]. rewrite len_app, IH, Hb, Nat2N.inj_succ. lia.
Qed.
Lemma vec_of_m_inv {A} size (x : A) n c l : vec_of_m size x n = (c, Ok l) -> c = n * size /\ l = repeat x (N.to_nat n).
Proof. unfold vec_of_m. destruct (_ <=? _); [|discriminate]. intro E. now injection E as <- <-. Qed.
Lemma data_inv {A} r (f : list byte -> A) n a : (let! d := read_to_end_m r in free (Ok (f d))) = (n, Ok a) -> n = len (r_rest r) /\ a = f (r_rest r).
Proof. unfold read_to_end_m. cbn [mbind free]. intro E. injection E as <- <-. unfold read_to_end. split; [lia|reflexivity]. Qed.
Ltac minv H := let n1 := fresh "n" in let a := fresh "a" in let n2 := fresh "n" in let E := fresh "E" in let N := fresh "N" in
  apply mbind_Ok_inv in H as (n1 & a & n2 & E & H & N).
Ltac fstep H := minv H; match goal with E : free _ = _ |- _ => apply free_Ok_inv in E as [E ->] end; match goal with a : (_ * reader)%type |- _ => destruct a as [? ?] end.
Lemma v1_load_success pr r fl n f : v1_load_m pr r fl false = (n, Ok f) -> n <= BUF_CAP + len (r_rest r).
Proof.
  unfold v1_load_m, read_le_f64. intro H. minv H. injection E as <- <-. do 5 (fstep H). cbv zeta in H. minv H. destruct a as [bs rb]. minv E4. apply vec_of_m_inv in E5 as [-> _]. apply free_Ok_inv in E4 as [E4 ->]. apply obind_Ok_inv in E4 as ([ws rw] & E4 & E5).
  apply Ok_inj, pair_inj in E5 as [_ ->]. apply data_inv in H as [-> _]. apply many_rest in E4. rewrite N2Nat.id in E4.
  repeat match goal with E : read_le_u64 _ = Ok _ |- _ => apply u64_rest in E end. set (w := v1_u64_size _) in *. clearbody w. lia.
Qed.
Lemma v2_load_success pr r fl n f : v2_load_m pr r fl false = (n, Ok f) -> n <= BUF_CAP + len (r_rest r).
Proof.
  unfold v2_load_m, read_le_f64. intro H. minv H. injection E as <- <-. do 2 (fstep H). destruct (negb _); [discriminate|]. do 3 (fstep H). cbv zeta in H. minv H. destruct a as [ic ri]. minv E4. apply vec_of_m_inv in E5 as [-> ->]. apply free_Ok_inv in E4 as [E4 ->].
  rewrite obind_id in E4. apply read_exact_inv in E4 as (E4 & E5 & _). rewrite len_repeat, N2Nat.id in E5. assert (R : forall q l q', r_rest q = l ++ r_rest q' -> len (r_rest q) = len l + len (r_rest q')) by (intros q l q' ->; apply len_app).
  apply R in E4. rewrite E5 in E4. clear R.
  fstep H. minv H. destruct a as [bs rb]. minv E7. apply vec_of_m_inv in E8 as [-> _]. apply free_Ok_inv in E7 as [E7 ->]. apply many_rest in E7. rewrite N2Nat.id in E7. apply data_inv in H as [-> _].
  repeat match goal with E : read_le_u64 _ = Ok _ |- _ => apply u64_rest in E end. set (w := byte_cap_from_bit_cap _) in *. clearbody w. lia.
Qed.
Lemma bf_load_success pr content n f : bf_load_m pr content false = (n, Ok f) -> n <= 2 * BUF_CAP + len content.
Proof.
  unfold bf_load_m. intro H. minv H. injection E as <- <-. fstep H. apply read_flags_inv in E as (E & _ & _). rewrite rest_of in E.
  assert (L : len (r_rest r) <= len content) by (rewrite E, len_app; lia). clear E.
  destruct (_ =? 1); [|destruct (_ =? 2); [|discriminate]]; minv H; apply free_Ok_inv in H as [_ ->].
  - apply v1_load_success in E. lia.
  - apply v2_load_success in E. lia.
Qed.

Definition spent_upto {A} (c : N) (x : metered A) : Prop := fst x <= c.
Lemma upto_bind {A B} c d (x : metered A) (k : A -> metered B) : fst x <= c -> (forall n a, x = (n, Ok a) -> fst (k a) <= d) -> fst (mbind x k) <= c + d.
Proof. destruct x as [n [a|e|]]; cbn [mbind fst]; intros H K; [|lia|lia]. specialize (K n a eq_refl). destruct (k a). cbn [fst] in *. lia. Qed.
Lemma upto_free {A B} d (x : outcome A) (k : A -> metered B) : (forall a, x = Ok a -> fst (k a) <= d) -> fst (mbind (free x) k) <= d.
Proof. intro K. apply (upto_bind 0 d); [cbn; lia|]. intros n a E. apply free_Ok_inv in E as [E _]. now apply K. Qed.
Lemma u64_all r x r' : read_le_u64 r = Ok (x, r') -> r_all r' = r_all r.
Proof. unfold read_le_u64. intro E. apply obind_Ok_inv in E as ([a r1] & E1 & E). apply Ok_inj, pair_inj in E as [_ <-]. apply read_exact_inv in E1 as (_ & _ & ->). reflexivity. Qed.
Lemma seek_all z r r' : seek_relative z r = Ok r' -> r_all r' = r_all r.
Proof. unfold seek_relative. destruct (_ || _); [discriminate|]. intro E. apply Ok_inj in E as <-. reflexivity. Qed.
Lemma rest_le r : len (r_rest r) <= len (r_all r).
Proof. rewrite rest_skip, len_skipn. lia. Qed.
Lemma data_upto {A} c r (f : list byte -> outcome A) : r_all r = c -> fst (let! d := read_to_end_m r in free (f d)) <= len c.
Proof. intros <-. unfold read_to_end_m. cbn [mbind free fst]. pose proof (rest_le r). unfold read_to_end. lia. Qed.
Ltac ustep := apply upto_free; let E := fresh "E" in intros [? ?] E; apply u64_all in E.
Lemma v1_load_partial pr r fl : fst (v1_load_m pr r fl true) <= BUF_CAP + len (r_all r).
Proof.
  unfold v1_load_m, read_le_f64. apply upto_bind; [cbn; lia|]. intros _ _ _. do 5 ustep. cbv zeta. apply upto_free. intros [b rb] S. apply obind_Ok_inv in S as (off & _ & S). apply obind_Ok_inv in S as (rs & S & T).
  apply Ok_inj, pair_inj in T as [_ ->]. apply seek_all in S. apply data_upto. congruence.
Qed.
Lemma v2_load_partial pr r fl : fst (v2_load_m pr r fl true) <= BUF_CAP + len (r_all r).
Proof.
  unfold v2_load_m, read_le_f64. apply upto_bind; [cbn; lia|]. intros _ _ _. do 2 ustep. destruct (negb _); [cbn; lia|]. do 3 ustep. cbv zeta. apply upto_free. intros [ic ri] S. apply obind_Ok_inv in S as (rs & S & T). apply obind_Ok_inv in T as (ic' & _ & T).
  apply Ok_inj, pair_inj in T as [_ ->]. apply seek_all in S. ustep. apply upto_free. intros [b rb] U. apply obind_Ok_inv in U as (off & _ & U). apply obind_Ok_inv in U as (rt & U & T).
  apply Ok_inj, pair_inj in T as [_ ->]. apply seek_all in U. apply data_upto. congruence.
Qed.
Lemma bf_load_partial pr content : fst (bf_load_m pr content true) <= 2 * BUF_CAP + len content.
Proof.
  unfold bf_load_m. replace (2 * BUF_CAP + len content) with (BUF_CAP + (BUF_CAP + len content)) by lia. apply upto_bind; [cbn; lia|]. intros _ _ _. apply upto_free. intros [fl r] E.
  apply read_flags_inv in E as (_ & _ & ->). destruct (_ =? 1); [|destruct (_ =? 2); [|cbn; lia]].
  - apply N.le_trans with (fst (v1_load_m pr (advance (reader_of content) 8) fl true) + 0); [apply upto_bind; [lia|intros; cbn; lia]|]. pose proof (v1_load_partial pr (advance (reader_of content) 8) fl) as P. cbn [advance r_all reader_of] in P. lia.
  - apply N.le_trans with (fst (v2_load_m pr (advance (reader_of content) 8) fl true) + 0); [apply upto_bind; [lia|intros; cbn; lia]|]. pose proof (v2_load_partial pr (advance (reader_of content) 8) fl) as P. cbn [advance r_all reader_of] in P. lia.
Qed.

(** ** Bits visited *)
From Verif Require Import Spec_Hash P_Hash P_V1.
Lemma v2_contains_loop_same b l : snd (v2_contains_loop_m b l) = v2_contains_loop b l.
Proof. induction l as [|i l IH]; [reflexivity|]. cbn [v2_contains_loop_m v2_contains_loop]. rewrite mbind_snd. cbn [spend snd]. apply obind_ext. intros []; [exact IH|reflexivity]. Qed.
Lemma v2_contains_same wy f k : snd (v2_contains_m wy f k) = v2_contains wy f k.
Proof.
  unfold v2_contains_m, v2_contains. assert (E : snd (v2_contains_iter_m wy f (v2_build_index_iter wy k)) = v2_contains_iter wy f (v2_build_index_iter wy k)).
  { unfold v2_contains_iter_m, v2_contains_iter. destruct (negb _); [reflexivity|]. cbv zeta. destruct (_ =? 0); [reflexivity|]. rewrite mbind_snd.
    assert (Q : forall (x : metered bool) y (p q : bool -> outcome bool), snd x = y -> (forall a, p a = q a) -> obind (snd x) p = obind y q) by (intros x y p q <- K; now apply obind_ext).
    apply Q; [now destruct (bs_is_empty _)|]. intro hit. destruct (negb hit); [reflexivity|]. rewrite mbind_snd. cbn [free snd]. apply obind_ext. intro ib. destruct (getN _ ib); [apply v2_contains_loop_same|reflexivity]. }
  destruct (v2_contains_iter_m _ _ _). cbn [snd] in *. now rewrite E.
Qed.
Lemma v1_contains_same f d : snd (v1_contains_m f d) = v1_contains_bytes f d.
Proof.
  unfold v1_contains_m, v1_contains_bytes. destruct (v1_bitset f) as [|w ws]; [reflexivity|]. induction (fp_list _) as [|[i|e|] l IH]; try reflexivity.
  cbn [v1_contains_loop_m v1_contains_loop]. rewrite mbind_snd. cbn [spend snd]. apply obind_ext. intros []; [exact IH|reflexivity].
Qed.
Lemma v2_insert_loop_same pr c l : forall b new, snd (v2_insert_loop_m pr c b new l) = v2_insert_loop pr c b new l.
Proof.
  induction l as [|i l IH]; intros b new; [reflexivity|]. cbn [v2_insert_loop_m v2_insert_loop]. destruct (if c then _ else _) as [[]|e|]; try reflexivity. destruct (bs_set b i) as [b' [old|e|]]; try reflexivity.
  cbv zeta. rewrite <- IH. destruct (v2_insert_loop_m _ _ _ _ _) as [n x]. destruct pr; [|reflexivity]. destruct (bs_get b' i) as [[]|e|]; reflexivity.
Qed.
Lemma v2_insert_same pr wy f k : snd (v2_insert_m pr wy f k) = v2_insert pr wy f k.
Proof.
  unfold v2_insert_m, v2_insert, v2_insert_iter_m, v2_insert_iter. destruct (negb _); [reflexivity|]. cbv zeta. destruct (_ =? 0); [reflexivity|]. destruct (v2_ibucket _ _) as [ib|e|]; try reflexivity. destruct (getN _ ib); [|reflexivity].
  rewrite <- v2_insert_loop_same. destruct (v2_insert_loop_m _ _ _ _ _) as [n [b' [new|e|]]]; cbn [snd]; try reflexivity. destruct (if new then _ else _) as [cnt|e|]; try reflexivity. destruct (bs_is_empty _); [reflexivity|].
  destruct (bs_set _ _) as [ca [o|e|]]; reflexivity.
Qed.
Lemma v1_insert_loop_same pr c l : forall b new, snd (v1_insert_loop_m pr c b new l) = v1_insert_loop pr c b new l.
Proof.
  induction l as [|[i|e|] l IH]; intros b new; try reflexivity. cbn [v1_insert_loop_m v1_insert_loop]. cbv zeta. destruct (getN b (i / 64)); [|reflexivity]. destruct (_ && c); [reflexivity|].
  rewrite <- IH. destruct (v1_insert_loop_m _ _ _ _ _) as [m x]. destruct pr; [|reflexivity]. destruct (v1_get_nth_bit _ _) as [[]|e|]; reflexivity.
Qed.
Lemma v1_insert_same pr f d : snd (v1_insert_m pr f d) = v1_insert_bytes pr f d.
Proof.
  unfold v1_insert_m, v1_insert_bytes. destruct (_ =? 0); [reflexivity|]. cbv zeta. rewrite <- v1_insert_loop_same. destruct (v1_insert_loop_m _ _ _ _ _) as [n [b' [[]|e|]]]; cbn [snd]; try reflexivity. now destruct (checked_add _ _ _).
Qed.

Lemma contains_loop_spent b l : fst (v2_contains_loop_m b l) <= len l /\ (snd (v2_contains_loop_m b l) = Ok true -> fst (v2_contains_loop_m b l) = len l).
Proof.
  induction l as [|i l [IH1 IH2]]; [cbn; split; [lia|reflexivity]|]. cbn [v2_contains_loop_m]. rewrite len_cons. destruct (bs_get b i) as [[]|e|]; cbn [spend mbind free fst snd]; try (split; [lia|discriminate]).
  destruct (v2_contains_loop_m b l) as [n r]. cbn [fst snd] in *. split; [lia|]. intro E. rewrite (IH2 E). lia.
Qed.
Lemma contains_loop1_spent b l : fst (v1_contains_loop_m b l) <= len l /\ (snd (v1_contains_loop_m b l) = Ok true -> fst (v1_contains_loop_m b l) = len l).
Proof.
  induction l as [|[i|e|] l [IH1 IH2]]; try (cbn; rewrite ?len_cons; split; [lia|discriminate]); [cbn; split; [lia|reflexivity]|]. cbn [v1_contains_loop_m]. rewrite len_cons.
  destruct (v1_get_nth_bit b i) as [[]|e|]; cbn [spend mbind free fst snd]; try (split; [lia|discriminate]).
  destruct (v1_contains_loop_m b l) as [n r]. cbn [fst snd] in *. split; [lia|]. intro E. rewrite (IH2 E). lia.
Qed.
Lemma insert_loop_spent pr c l : forall b new, fst (v2_insert_loop_m pr c b new l) <= len l /\ (forall x, snd (snd (v2_insert_loop_m pr c b new l)) = Ok x -> fst (v2_insert_loop_m pr c b new l) = len l).
Proof.
  induction l as [|i l IH]; intros b new; [cbn; split; [lia|reflexivity]|]. cbn [v2_insert_loop_m]. rewrite len_cons. destruct (if c then _ else _) as [[]|e|]; cbn [fst snd]; try (split; [lia|discriminate]).
  destruct (bs_set b i) as [b' [old|e|]]; cbn [fst snd]; try (split; [lia|discriminate]). cbv zeta. destruct (IH b' (if old then new else true)) as [IH1 IH2]. destruct (v2_insert_loop_m _ _ _ _ _) as [n x]. cbn [fst snd] in *.
  assert (G : 1 + n <= N.succ (len l) /\ (forall y, snd x = Ok y -> 1 + n = N.succ (len l))) by (split; [lia|intros y E; rewrite (IH2 y E); lia]). 
  destruct pr; [|exact G]. destruct (bs_get b' i) as [[]|e|]; cbn [fst snd]; try (split; [lia|discriminate]). exact G.
Qed.
Lemma insert_loop1_spent pr c l : forall b new, fst (v1_insert_loop_m pr c b new l) <= len l /\ (forall x, snd (snd (v1_insert_loop_m pr c b new l)) = Ok x -> fst (v1_insert_loop_m pr c b new l) = len l).
Proof.
  induction l as [|[i|e|] l IH]; intros b new; try (cbn; rewrite ?len_cons; split; [lia|discriminate]); [cbn; split; [lia|reflexivity]|]. cbn [v1_insert_loop_m]. cbv zeta. rewrite len_cons. destruct (getN b (i / 64)) as [w|]; cbn [fst snd]; try (split; [lia|discriminate]).
  destruct (_ && c); cbn [fst snd]; try (split; [lia|discriminate]). match goal with |- context [v1_insert_loop_m pr c ?b' ?new' l] => destruct (IH b' new') as [IH1 IH2]; destruct (v1_insert_loop_m pr c b' new' l) as [n x] end. cbn [fst snd] in *.
  assert (G : 1 + n <= N.succ (len l) /\ (forall y, snd x = Ok y -> 1 + n = N.succ (len l))) by (split; [lia|intros y E; rewrite (IH2 y E); lia]).
  destruct pr; [|exact G]. destruct (v1_get_nth_bit _ _) as [[]|e|]; cbn [fst snd]; try (split; [lia|discriminate]). exact G.
Qed.
Lemma it_list_len wy f k : key_ok k -> v2_n_hash_buck f < two64 -> len (it_list wy BIT_SET_MOD (it_set_count (v2_build_index_iter wy k) (v2_n_hash_buck f))) = v2_n_hash_buck f.
Proof.
  intros Hk Hn. change BIT_SET_MOD with 32768. rewrite it_list_spec; [|reflexivity|now apply hash_pop_lt|exact Hn]. unfold len. rewrite edh_positions_length. apply N2Nat.id.
Qed.
(** A bucket full of ones. *)
Lemma full_get n i : i < 8 * n -> bs_get (repeat 255 (N.to_nat n)) i = Ok true.
Proof.
  intro H. unfold bs_get. rewrite getN_repeat; [|apply N.div_lt_upper_bound; lia]. f_equal. change 7 with (N.ones 3). rewrite N.land_ones. change (2 ^ 3) with 8. pose proof (N.mod_lt i 8 ltac:(discriminate)) as M.
  destruct (i mod 8) as [|[[[]|[]|]|[[]|[]|]|]]; try reflexivity; lia.
Qed.
