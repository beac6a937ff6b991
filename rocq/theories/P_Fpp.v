(** Bit patterns of binary64 numbers: the accepted false positive probabilities. *)
From Coq Require Import Lia.
From Verif Require Import M_Float P_Base.
Open Scope N_scope.

Definition q52 : N := 4503599627370496.
Definition q63 : N := 9223372036854775808.
Definition sf_build (s : bool) (e m : N) : spec_float :=
  if e =? 0 then match m with 0 => S754_zero s | Npos p => S754_finite s p (-1074) end
  else if e =? 2047 then (if m =? 0 then S754_infinity s else S754_nan)
  else match m + q52 with 0 => S754_nan | Npos p => S754_finite s p (Z.of_N e - 1075) end.
Lemma sf_of_bits_build (s : bool) e m : e < 2048 -> m < q52 ->
  sf_of_bits ((if s then q63 else 0) + e * q52 + m) = sf_build s e m.
Proof.
  intros He Hm. unfold sf_of_bits. fold q52. set (b := (if s then q63 else 0) + e * q52 + m).
  assert (Em : b mod q52 = m). { symmetry. apply N.mod_unique with ((if s then 2048 else 0) + e); auto. subst b. unfold q52, q63 in *. destruct s; lia. }
  assert (Ed : b / q52 = (if s then 2048 else 0) + e). { symmetry. apply N.div_unique with m; auto. subst b. unfold q52, q63 in *. destruct s; lia. }
  assert (Ee : (b / q52) mod 2048 = e). { rewrite Ed. symmetry. apply N.mod_unique with (if s then 1 else 0); auto. destruct s; lia. }
  assert (Es : N.testbit b 63 = s).
  { rewrite N.testbit_eqb. change (2 ^ 63) with (q52 * 2048). rewrite <- N.div_div by discriminate. rewrite Ed.
    destruct s.
    - replace ((2048 + e) / 2048) with 1. reflexivity. apply N.div_unique with e; lia.
    - rewrite N.div_small by lia. reflexivity. }
  rewrite Em, Ee, Es. reflexivity.
Qed.
Lemma bits_split b : b < two64 -> exists (s : bool) e m, b = (if s then q63 else 0) + e * q52 + m /\ e < 2048 /\ m < q52.
Proof.
  intro H. exists (q63 <=? b). exists ((b / q52) mod 2048), (b mod q52).
  split; [|split; apply N.mod_lt; discriminate].
  pose proof (N.div_mod b q52 ltac:(discriminate)) as D.
  assert (b / q52 < 4096). { apply N.div_lt_upper_bound; [discriminate|]. unfold two64 in H. unfold q52. lia. }
  assert (M : b mod q52 < q52) by (apply N.mod_lt; discriminate).
  destruct (N.leb_spec q63 b).
  - assert (2048 <= b / q52). { apply N.div_le_lower_bound; [discriminate|]. unfold q63, q52 in *. lia. }
    replace ((b / q52) mod 2048) with (b / q52 - 2048) by (apply N.mod_unique with 1; lia). unfold q52, q63 in *. lia.
  - assert (b / q52 < 2048). { apply N.div_lt_upper_bound; [discriminate|]. unfold q63, q52 in *. lia. }
    rewrite (N.mod_small (b / q52)) by auto. unfold q52, q63 in *. lia.
Qed.

Lemma pcc p q : Pos.compare_cont Eq p q = Pos.compare p q.
Proof. reflexivity. Qed.
(** Comparisons of significands, moved from [positive] to [N]. *)
Lemma pos_cmp_N p q : (p ?= q)%positive = (Npos p ?= Npos q).
Proof. reflexivity. Qed.
(** Order of positive numbers is the order of their patterns. *)
Lemma sf_build_normal e m : 0 < e -> e < 2047 -> sf_build false e m = match m + q52 with 0 => S754_nan | Npos p => S754_finite false p (Z.of_N e - 1075) end.
Proof. intros H1 H2. unfold sf_build. destruct (N.eqb_spec e 0); [lia|]. destruct (N.eqb_spec e 2047); [lia|]. reflexivity. Qed.
Lemma leb_min_positive s e m : e < 2048 -> m < q52 ->
  f_leb (sf_of_bits bits_min_positive) (sf_build s e m) = negb s && (0 <? e) && negb ((e =? 2047) && negb (m =? 0)).
Proof.
  intros He Hm. change (sf_of_bits bits_min_positive) with (S754_finite false 4503599627370496 (-1074)).
  unfold sf_build. destruct (N.eqb_spec e 0) as [E0|E0].
  { subst e. rewrite andb_false_r. cbn [andb]. destruct m as [|p]; [now destruct s|]. destruct s; [reflexivity|].
    unfold f_leb, SFleb, SFcompare. rewrite Z.compare_refl.
    rewrite (pcc 4503599627370496 p).
    assert (Hlt : (4503599627370496 ?= p)%positive = Gt) by (destruct (Pos.compare_spec 4503599627370496 p); [exfalso; unfold q52 in Hm; lia|exfalso; unfold q52 in Hm; lia|reflexivity]). rewrite Hlt. reflexivity. }
  destruct (N.eqb_spec e 2047) as [E1|E1].
  { subst e. destruct (m =? 0); destruct s; reflexivity. }
  assert (X : (0 <? e) = true) by (apply N.ltb_lt; lia). rewrite X.
  destruct (m + q52) as [|p] eqn:P; [exfalso; revert P; unfold q52; destruct m; discriminate|].
  destruct s; [reflexivity|]. cbn [negb andb].
  unfold f_leb, SFleb, SFcompare.
  destruct (Z.compare_spec (-1074) (Z.of_N e - 1075)).
  - rewrite (pcc 4503599627370496 p).
    rewrite pos_cmp_N, <- P. fold q52. destruct (N.compare_spec q52 (m + q52)); [reflexivity|reflexivity|exfalso; lia].
  - reflexivity.
  - lia.
Qed.
Lemma leb_one e m : 0 < e -> e < 2048 -> m < q52 ->
  f_leb (sf_build false e m) (sf_of_bits bits_one) = (e <? 1023) || ((e =? 1023) && (m =? 0)).
Proof.
  intros H0 He Hm. change (sf_of_bits bits_one) with (S754_finite false 4503599627370496 (-52)).
  unfold sf_build. destruct (N.eqb_spec e 0) as [E0|E0]; [lia|].
  destruct (N.eqb_spec e 2047) as [E1|E1].
  { subst e. destruct (m =? 0); reflexivity. }
  destruct (m + q52) as [|p] eqn:P; [exfalso; revert P; unfold q52; destruct m; discriminate|].
  unfold f_leb, SFleb, SFcompare.
  destruct (Z.compare_spec (Z.of_N e - 1075) (-52)).
  - assert (e = 1023) by lia. subst e. rewrite N.ltb_irrefl, N.eqb_refl. cbn [orb andb].
    rewrite (pcc p 4503599627370496).
    rewrite pos_cmp_N, <- P. fold q52. destruct (N.compare_spec (m + q52) q52); destruct (N.eqb_spec m 0); try reflexivity; exfalso; lia.
  - assert (X : (e <? 1023) = true) by (apply N.ltb_lt; lia). now rewrite X.
  - assert (X : (e <? 1023) = false) by (apply N.ltb_ge; lia). rewrite X. destruct (N.eqb_spec e 1023); [lia|]. reflexivity.
Qed.
Theorem fpp_in_range_bits b : b < two64 -> (fpp_in_range b = true <-> bits_min_positive <= b <= bits_one).
Proof.
  intro Hb. destruct (bits_split b Hb) as (s & e & m & -> & He & Hm). unfold fpp_in_range. rewrite sf_of_bits_build by auto.
  rewrite leb_min_positive by auto. unfold bits_min_positive, bits_one.
  destruct s; cbn [negb andb].
  { split; [discriminate|]. unfold q63. lia. }
  destruct (N.ltb_spec 0 e); cbn [andb].
  - rewrite leb_one by auto. destruct (N.eqb_spec e 2047); cbn [andb negb].
    + subst e. replace (2047 <? 1023) with false by reflexivity. replace (2047 =? 1023) with false by reflexivity.
      destruct (m =? 0); cbn [negb orb andb]; unfold q52 in *; (split; [discriminate|lia]).
    + destruct (N.ltb_spec e 1023); cbn [orb]; [unfold q52 in *; split; auto; lia|].
      destruct (N.eqb_spec e 1023); cbn [andb]; [|unfold q52 in *; split; [discriminate|lia]].
      destruct (N.eqb_spec m 0); unfold q52 in *; (split; [intro; try discriminate; lia|intro; auto; lia]).
  - split; [discriminate|]. unfold q52 in *. lia.
Qed.

(** Accepted values are compared by their patterns. *)
Lemma eqb_normal e m e' m' : 0 < e < 2047 -> 0 < e' < 2047 -> m < q52 -> m' < q52 ->
  f_eqb (sf_build false e m) (sf_build false e' m') = (e =? e') && (m =? m').
Proof.
  intros He He' Hm Hm'. rewrite !sf_build_normal by lia.
  destruct (m + q52) as [|p] eqn:P; [exfalso; revert P; unfold q52; destruct m; discriminate|]. destruct (m' + q52) as [|p'] eqn:P'; [exfalso; revert P'; unfold q52; destruct m'; discriminate|].
  unfold f_eqb, SFeqb, SFcompare. destruct (Z.compare_spec (Z.of_N e - 1075) (Z.of_N e' - 1075)).
  - assert (e = e') by lia. subst e'. rewrite N.eqb_refl. cbn [andb].
    rewrite (pcc p p').
    rewrite pos_cmp_N, <- P, <- P'. destruct (N.compare_spec (m + q52) (m' + q52)); destruct (N.eqb_spec m m'); try reflexivity; exfalso; lia.
  - destruct (N.eqb_spec e e'); [lia|]. reflexivity.
  - destruct (N.eqb_spec e e'); [lia|]. reflexivity.
Qed.
Lemma range_split b : b < two64 -> fpp_in_range b = true ->
  exists e m, sf_of_bits b = sf_build false e m /\ b = e * q52 + m /\ 0 < e < 2047 /\ m < q52.
Proof.
  intros Hb H. apply fpp_in_range_bits in H; auto. destruct (bits_split b Hb) as (s & e & m & -> & He & Hm).
  unfold bits_min_positive, bits_one in H. destruct s; [unfold q63 in H; lia|].
  exists e, m. split; [apply (sf_of_bits_build false); auto|]. split; [apply N.add_0_l || reflexivity|]. split; auto. unfold q52 in *. lia.
Qed.
Lemma fpp_eqb_range a b : a < two64 -> b < two64 -> fpp_in_range a = true -> fpp_in_range b = true ->
  fpp_eqb a b = (a =? b).
Proof.
  intros Ha Hb Ra Rb. destruct (range_split a Ha Ra) as (e & m & Ea & Va & He & Hm). destruct (range_split b Hb Rb) as (e' & m' & Eb & Vb & He' & Hm').
  unfold fpp_eqb. rewrite Ea, Eb, eqb_normal by auto. apply eq_true_iff_eq. rewrite andb_true_iff, !N.eqb_eq.
  subst a b. split; [intros [-> ->]; auto|]. unfold q52 in *. intro. assert (e = e') by lia. subst. lia.
Qed.

(** General facts about f64 equality: symmetric, transitive, reflexive except on NaN. *)
Definition is_nan (b : N) : bool := match sf_of_bits b with S754_nan => true | _ => false end.
Lemma compare_refl s m e : SFcompare (S754_finite s m e) (S754_finite s m e) = Some Eq.
Proof. cbn. destruct s; rewrite Z.compare_refl; rewrite ?Pos.compare_cont_refl; auto. Qed.
Lemma sfeqb_refl x : SFeqb x x = match x with S754_nan => false | _ => true end.
Proof. unfold SFeqb. destruct x as [[]|[]| |s m e]; auto. now rewrite compare_refl. Qed.
(** Numbers equal as floats: same float up to the sign of zero. *)
Lemma sfeqb_fin s m e s' m' e' : SFeqb (S754_finite s m e) (S754_finite s' m' e') = true -> S754_finite s m e = S754_finite s' m' e'.
Proof.
  unfold SFeqb, SFcompare. destruct s, s'; try discriminate; destruct (Z.compare_spec e e'); try discriminate; subst; rewrite (pcc m m');
  destruct (Pos.compare_spec m m'); try discriminate; now subst.
Qed.
Lemma sfeqb_spec x y : SFeqb x y = true <-> (match x, y with S754_zero _, S754_zero _ => True | S754_nan, _ => False | _, _ => x = y end).
Proof.
  split.
  - destruct x as [sx|sx| |s m e], y as [sy|sy| |s' m' e']; try apply sfeqb_fin;
    repeat match goal with b : bool |- _ => destruct b end; intro H; try discriminate H; auto.
  - destruct x as [sx|sx| |s m e], y as [sy|sy| |s' m' e']; intro H; try contradiction; try discriminate; try reflexivity.
    + injection H as ->. destruct sy; reflexivity.
    + rewrite H. apply (sfeqb_refl (S754_finite s' m' e')).
Qed.
Lemma fpp_eqb_refl a : fpp_eqb a a = negb (is_nan a).
Proof. unfold fpp_eqb, f_eqb, is_nan. rewrite sfeqb_refl. now destruct (sf_of_bits a). Qed.
Lemma fpp_eqb_sym a b : fpp_eqb a b = fpp_eqb b a.
Proof.
  unfold fpp_eqb, f_eqb. apply eq_true_iff_eq. rewrite !sfeqb_spec.
  destruct (sf_of_bits a), (sf_of_bits b); split; intro; auto; try congruence; try contradiction.
Qed.
Lemma fpp_eqb_trans a b c : fpp_eqb a b = true -> fpp_eqb b c = true -> fpp_eqb a c = true.
Proof.
  unfold fpp_eqb, f_eqb. rewrite !sfeqb_spec.
  destruct (sf_of_bits a), (sf_of_bits b), (sf_of_bits c); intros; auto; try congruence; try contradiction.
Qed.
Lemma range_not_nan a : fpp_in_range a = true -> is_nan a = false.
Proof.
  unfold fpp_in_range, is_nan. intro H. apply andb_prop in H as [_ H]. destruct (sf_of_bits a); auto; discriminate.
Qed.
