(** Reading a file that is continued by more bytes: either the shorter file ends too early, or both give the same answer
    up to the attached data. *)
From Coq Require Import Lia.
From Verif Require Import M_Bloom Spec_Bits P_Base P_BitSet P_IO.
Open Scope N_scope.

Definition ext_rel {A} (R : A -> A -> Prop) (x y : outcome A) : Prop :=
  x = Err IoError \/ match x, y with Ok a, Ok b => R a b | Err e, Err e' => e = e' | Panic, Panic => True | _, _ => False end.
Lemma ext_bind {A B} (R : A -> A -> Prop) (S : B -> B -> Prop) x y f g :
  ext_rel R x y -> (forall a b, R a b -> ext_rel S (f a) (g b)) -> ext_rel S (obind x f) (obind y g).
Proof.
  intros [->|H] K; [left; reflexivity|]. destruct x as [a|e|], y as [b|e'|]; try easy; cbn [obind].
  - now apply K.
  - right. exact H.
  - right. exact I.
Qed.
Lemma ext_same {A B} (S : B -> B -> Prop) (x : outcome A) f g :
  (forall a, ext_rel S (f a) (g a)) -> ext_rel S (obind x f) (obind x g).
Proof. intro K. destruct x; cbn [obind]; [apply K|right; reflexivity|right; exact I]. Qed.

(** [r'] is at the same place of a file continued by [s]. *)
Definition grows (s : list byte) (r r' : reader) : Prop :=
  r_all r' = r_all r ++ s /\ r_pos r' = r_pos r /\ r_pos r <= len (r_all r).
Definition same_grow {A} (s : list byte) (p q : A * reader) : Prop := fst p = fst q /\ grows s (snd p) (snd q).
Lemma grows_rest s r r' : grows s r r' -> r_rest r' = r_rest r ++ s.
Proof.
  intros (A & B & C). rewrite !rest_skip, A, B, skipn_app. f_equal.
  replace (N.to_nat (r_pos r) - length (r_all r))%nat with 0%nat; [reflexivity|]. unfold len in C. lia.
Qed.
Lemma grows_start s c : grows s (reader_of c) (reader_of (c ++ s)).
Proof. split; [reflexivity|]. split; [reflexivity|]. cbn [reader_of r_pos]. lia. Qed.
Lemma ext_read_exact s n r r' : grows s r r' -> ext_rel (same_grow s) (read_exact n r) (read_exact n r').
Proof.
  intro G. destruct (N.leb_spec n (len (r_rest r))) as [H|H]; [|left; now apply read_exact_short].
  right. unfold read_exact. rewrite (grows_rest _ _ _ G).
  assert (H' : n <= len (r_rest r ++ s)) by (unfold len in *; rewrite app_length; lia).
  rewrite !(proj2 (N.leb_le _ _)) by assumption. destruct G as (A & B & C). split; cbn [fst snd].
  - rewrite firstn_app. replace (N.to_nat n - length (r_rest r))%nat with 0%nat by (unfold len in H; lia). cbn [firstn]. now rewrite app_nil_r.
  - split; [exact A|]. split; cbn [r_pos r_all]; [now rewrite B|]. rewrite rest_skip, len_skipn, N2Nat.id in H. lia.
Qed.
Lemma ext_read_many s n sz : forall r r', grows s r r' -> ext_rel (same_grow s) (read_many n sz r) (read_many n sz r').
Proof.
  induction n as [|n IH]; intros r r' G; [right; split; [reflexivity|exact G]|]. cbn [read_many].
  eapply ext_bind; [eapply ext_read_exact; exact G|]. intros [a r1] [b r1'] [E G1]. cbn [fst snd] in *. subst b.
  eapply ext_bind; [eapply IH; exact G1|]. intros [l r2] [l' r2'] [E G2]. cbn [fst snd] in *. subst l'. right. split; [reflexivity|exact G2].
Qed.
Lemma ext_u64 s r r' : grows s r r' -> ext_rel (same_grow s) (read_le_u64 r) (read_le_u64 r').
Proof.
  intro G. unfold read_le_u64. eapply ext_bind; [eapply ext_read_exact; exact G|]. intros [a r1] [b r1'] [E G1]. cbn [fst snd] in *. subst b.
  right. split; [reflexivity|exact G1].
Qed.
Lemma ext_flags s r r' : grows s r r' -> ext_rel (same_grow s) (read_flags r) (read_flags r').
Proof.
  intro G. unfold read_flags. eapply ext_bind; [eapply ext_read_exact; exact G|]. intros [a r1] [b r1'] [E G1]. cbn [fst snd] in *. subst b.
  apply ext_same. intro fl. right. split; [reflexivity|exact G1].
Qed.
Ltac estep L := eapply ext_bind; [eapply L; eassumption|]; let a := fresh "x" in let b := fresh "y" in let ra := fresh "r" in let rb := fresh "r" in
  let E := fresh "E" in let G := fresh "G" in intros [a ra] [b rb] [E G]; cbn [fst snd] in E, G; subst b.

Definition v2_extended (s : list byte) (f g : v2) : Prop := g = v2_set_data f (v2_data f ++ s).
Definition v1_extended (s : list byte) (f g : v1) : Prop := g = v1_set_data f (v1_data f ++ s).
Lemma ext_v2_flags pr s r r' fl : grows s r r' ->
  ext_rel (v2_extended s) (v2_from_reader_with_flags pr r fl false) (v2_from_reader_with_flags pr r' fl false).
Proof.
  intro G. unfold v2_from_reader_with_flags, read_le_f64. estep ext_u64. estep ext_u64. destruct (negb _); [right; reflexivity|].
  estep ext_u64. estep ext_u64. estep ext_u64.
  eapply (ext_bind (same_grow s)); [apply ext_same; intro ic; eapply ext_bind; [eapply ext_read_exact; eassumption|]; intros [a ra] [b rb] [Eq1 Gq1]; cbn [fst snd] in *; subst b; right; split; [reflexivity|exact Gq1]|].
  intros [c rc] [c' rc'] [Eq1 Gq2]. cbn [fst snd] in *. subst c'. estep ext_u64.
  eapply (ext_bind (same_grow s)); [apply ext_same; intro ic; apply ext_read_many; eassumption|].
  intros [b rb] [b' rb'] [Eq3 Gq3]. cbn [fst snd] in *. subst b'. right. unfold v2_extended, read_to_end, v2_set_data. cbn. now rewrite (grows_rest _ _ _ Gq3).
Qed.
Lemma ext_v1_flags pr s r r' fl : grows s r r' ->
  ext_rel (v1_extended s) (v1_from_reader_with_flags pr r fl false) (v1_from_reader_with_flags pr r' fl false).
Proof.
  intro G. unfold v1_from_reader_with_flags, read_le_f64. estep ext_u64. estep ext_u64. estep ext_u64. estep ext_u64. estep ext_u64.
  eapply (ext_bind (same_grow s)); [apply ext_same; intro ic; eapply ext_bind; [eapply ext_read_many; eassumption|]; intros [a ra] [b rb] [Eq1 Gq1]; cbn [fst snd] in *; subst b; right; split; [reflexivity|exact Gq1]|].
  intros [c rc] [c' rc'] [Eq1 Gq2]. cbn [fst snd] in *. subst c'. right. unfold v1_extended, read_to_end, v1_set_data. cbn. now rewrite (grows_rest _ _ _ Gq2).
Qed.
Theorem ext_v2 pr s c : ext_rel (v2_extended s) (v2_from_reader pr c) (v2_from_reader pr (c ++ s)).
Proof.
  unfold v2_from_reader, v2_from_reader_partial. eapply ext_bind; [apply ext_flags, grows_start|]. intros [fl r] [fl' r'] [E G]. cbn [fst snd] in *. subst fl'.
  destruct (negb _); [right; reflexivity|]. now apply ext_v2_flags.
Qed.
Theorem ext_v1 pr s c : ext_rel (v1_extended s) (v1_from_reader pr c) (v1_from_reader pr (c ++ s)).
Proof.
  unfold v1_from_reader, v1_from_reader_partial. eapply ext_bind; [apply ext_flags, grows_start|]. intros [fl r] [fl' r'] [E G]. cbn [fst snd] in *. subst fl'.
  destruct (negb _); [right; reflexivity|]. now apply ext_v1_flags.
Qed.

(** The generic reader is the reader of the version found in the header. *)
Lemma bf_reader_cases pr c p : bf_from_reader_partial pr c p =
  match v1_from_reader_partial pr c p with
  | Ok f => Ok (V1 f)
  | Err (InvalidVersion v) => if v =? 2 then let? f := v2_from_reader_partial pr c p in Ok (V2 f) else Err (InvalidVersion v)
  | Err e => Err e
  | Panic => Panic
  end.
Proof.
  unfold bf_from_reader_partial, v1_from_reader_partial, v2_from_reader_partial. destruct (read_flags (reader_of c)) as [[fl r]|e|] eqn:E; cbn [obind].
  - destruct (N.eqb_spec (fl_version fl) 1) as [V|V]; cbn [negb].
    + destruct (v1_from_reader_with_flags pr r fl p) as [f|e|] eqn:F; cbn [obind]; try reflexivity.
      destruct e; try reflexivity. exfalso. revert F. unfold v1_from_reader_with_flags, read_le_f64.
      repeat (match goal with |- obind (read_le_u64 ?r) _ = _ -> _ => destruct (read_u64_cases r) as [[? ->]| ->]; cbn [obind]; [|discriminate] end).
      destruct p; cbn [obind].
      * unfold checked_mul, seek_relative. destruct (_ <? two64); [|destruct pr]; cbn [obind]; try discriminate; destruct ((_ <? 0)%Z || _)%bool; cbn [obind]; discriminate.
      * unfold vec_of. destruct (_ <=? isize_max); cbn [obind]; [|discriminate].
        match goal with |- obind (obind (read_many ?n ?s ?r) _) _ = _ -> _ => destruct (read_many_cases n s r) as [(l & r' & ->)| ->] end; cbn [obind]; discriminate.
    + destruct (fl_version fl =? 2); reflexivity.
  - destruct e; try reflexivity. exfalso. revert E. unfold read_flags. destruct (read_exact_cases 8 (reader_of c)) as [[a ->]| ->]; cbn [obind]; [|discriminate].
    unfold flags_from_bytes. destruct a as [|x [|y t]]; try discriminate. unfold opt_of_u8.
    repeat match goal with |- context [if ?b then _ else _] => destruct b end; cbn [obind]; discriminate.
  - reflexivity.
Qed.
