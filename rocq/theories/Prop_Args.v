(** The command line (C101). *)
From Coq Require Import Lia Reals Lra SpecFloat String Permutation.
From Flocq Require Import Core IEEE754.BinarySingleNaN.
From Verif Require Import M_Args P_Base P_Float P_FloatDiv P_Text P_Decimal P_Args P_Bloom P_V1Codec P_V2Make P_Lines P_Create P_Par M_RefLibm Ex_Base Ex_V1 Ex_Cli Prop_Create Prop_Build Prop_Check Prop_Codec Spec_Libm Spec_Bits Spec_Lines Spec_Cli Spec_Bloom.
Open Scope N_scope.

(** ** Numbers *)
Inductive sign_of : list N -> bool -> Prop := so_none : sign_of [] false | so_plus : sign_of [43] false | so_minus : sign_of [45] true.
(** Digits as a number. *)
Definition digits_of (l : list N) (n : N) : Prop := l <> [] /\ Forall digit l /\ dec_val l = n.
Lemma split43 {A} (c : N) (x y : A) : c <> 43 -> match c with 43 => x | _ => y end = y.
Proof. intro H. destruct c as [|p]; [reflexivity|]. do 6 (try destruct p as [p|p|]; try reflexivity). now destruct H. Qed.
Lemma split45 {A} (c : N) (x y : A) : c <> 45 -> match c with 45 => x | _ => y end = y.
Proof. intro H. destruct c as [|p]; [reflexivity|]. do 6 (try destruct p as [p|p|]; try reflexivity). now destruct H. Qed.
Lemma unplus_other d : (forall c r, d = c :: r -> c <> 43) -> unplus d = d.
Proof. intro H. destruct d as [|c r]; [reflexivity|]. unfold unplus. apply split43, (H c r eq_refl). Qed.
Definition unsigned (l : list N) : bool * list N := match l with 45 :: r => (true, r) | _ => (false, unplus l) end.
Lemma unsigned_app sg s d : sign_of sg s -> (forall c r, d = c :: r -> c <> 43 /\ c <> 45) -> unsigned (sg ++ d) = (s, d).
Proof.
  intros S H. inversion S; subst; cbn [app]; [|reflexivity..]. destruct d as [|c r]; [reflexivity|]. destruct (H c r eq_refl) as [A B]. unfold unsigned. rewrite split45 by exact B. rewrite unplus_other; [reflexivity|]. intros x y E. injection E as <- _. exact A.
Qed.
Lemma unsigned_inv l : exists sg, sign_of sg (fst (unsigned l)) /\ l = sg ++ snd (unsigned l).
Proof.
  destruct l as [|c l]; [exists []; split; [constructor|reflexivity]|]. destruct (N.eq_dec c 45) as [-> |N5]; [exists [45]; split; [constructor|reflexivity]|]. unfold unsigned. rewrite split45 by exact N5.
  destruct (N.eq_dec c 43) as [-> |N3]; [exists [43]; split; [constructor|reflexivity]|]. exists []. split; [constructor|]. cbn [snd app]. rewrite unplus_other; [reflexivity|]. intros x y E. injection E as <- _. exact N3.
Qed.
Lemma digits_unsigned d : Forall digit d -> forall c r, d = c :: r -> c <> 43 /\ c <> 45.
Proof. intros F c r ->. apply Forall_inv in F. unfold digit in F. lia. Qed.
(** Sizes and counts: digits, a plus in front or not, at most 2^64 - 1. *)
Theorem C101_usize l n : read_usize l = Some n <-> n < 2 ^ 64 /\ exists sg d, sign_of sg false /\ digits_of d n /\ l = sg ++ d.
Proof.
  unfold read_usize. change (2 ^ 64) with two64. split.
  - destruct (read_digits (unplus l)) as [m|] eqn:E; [|discriminate]. destruct (N.ltb_spec m two64) as [L|]; [|discriminate]. intro Q. injection Q as <-. split; [exact L|]. apply read_digits_spec in E.
    destruct (unsigned_inv l) as (sg & S & El). unfold unsigned in *. destruct l as [|c l]; [destruct E as [[] _]; reflexivity|]. destruct (N.eq_dec c 45) as [-> |N5]; [destruct E as (_ & F & _); apply Forall_inv in F; unfold digit in F; lia|].
    rewrite split45 in S, El by exact N5. cbn [fst snd] in *. now exists sg, (unplus (c :: l)).
  - intros (L & sg & d & S & D & ->). pose proof (digits_unsigned d (proj1 (proj2 D))) as H. assert (U : unplus (sg ++ d) = d). { inversion S; subst; cbn [app]; [|reflexivity]. apply unplus_other. intros c r E. apply (H c r E). }
    rewrite U. apply read_digits_spec in D. rewrite D. now rewrite (proj2 (N.ltb_lt _ _) L).
Qed.
Print Assumptions C101_usize.
(** The text of a number is read back. *)
Lemma read_dec n : n < two64 -> read_usize (dec n) = Some n.
Proof.
  intro L. destruct (dec_spec n) as (F & V & (c & r & E & _) & _). apply C101_usize. split; [exact L|]. exists [], (dec n). split; [constructor|]. split; [|reflexivity]. split; [rewrite E; discriminate|now split].
Qed.
(** Versions, levels and run counts: below [k], and a minus only in front of zero. *)
Theorem C101_ranged k l n : read_ranged k l = Some n <-> n < k /\ exists sg s d, sign_of sg s /\ digits_of d n /\ (s = true -> n = 0) /\ l = sg ++ d.
Proof.
  unfold read_ranged. fold (unsigned l). split.
  - destruct (unsigned_inv l) as (sg & S & El). destruct (unsigned l) as [s d]. cbn [fst snd] in *. destruct (read_digits d) as [m|] eqn:E; [|discriminate]. destruct (_ && _)%bool eqn:C; [|discriminate]. intro Q. injection Q as <-.
    apply andb_true_iff in C as [C1 C2]. apply N.ltb_lt in C1. split; [exact C1|]. exists sg, s, d. split; [exact S|]. split; [now apply read_digits_spec|]. split; [|exact El]. intros ->. cbn [negb orb] in C2. now apply N.eqb_eq in C2.
  - intros (L & sg & s & d & S & D & Z & ->). rewrite (unsigned_app sg s d S (digits_unsigned d (proj1 (proj2 D)))). apply read_digits_spec in D. rewrite D. rewrite (proj2 (N.ltb_lt n k) L). destruct s; [|reflexivity]. now rewrite (Z eq_refl).
Qed.
Print Assumptions C101_ranged.
(** Numbers with a fraction. Independently of the code, the text of a number and the real it stands for. *)
Inductive exponent_of : list N -> Z -> Prop :=
| ex_none : exponent_of [] 0
| ex_some : forall k sg s d n, k = 101 \/ k = 69 -> sign_of sg s -> digits_of d n -> exponent_of (k :: sg ++ d) (if s then - Z.of_N n else Z.of_N n).
Inductive number_of : list N -> bool -> R -> Prop :=
| nu : forall sg s a pt b x e n, sign_of sg s -> digits_of (a ++ b) n -> pt = [46] \/ pt = [] /\ b = [] -> exponent_of x e ->
    number_of (sg ++ a ++ pt ++ b ++ x) s (signed s (IZR (Z.of_N n) * powerRZ 10 (e - Z.of_N (len b)))).
Lemma pow10_powerRZ e : pow10 e = powerRZ 10 e.
Proof.
  unfold pow10. destruct e as [|p|p]; cbn [Z.leb Z.compare powerRZ]; [reflexivity| |].
  - rewrite pow_IZR, positive_nat_Z. reflexivity.
  - change (- Zneg p)%Z with (Zpos p). rewrite pow_IZR, positive_nat_Z. reflexivity.
Qed.
Lemma read_exponent_spec l e : read_exponent l = Some e <-> exponent_of l e.
Proof.
  split.
  - destruct l as [|c l]; cbn [read_exponent]; [intro E; injection E as <-; constructor|]. destruct (_ || _)%bool eqn:C; [|discriminate]. assert (K : c = 101 \/ c = 69) by (apply orb_true_iff in C as [C|C]; apply N.eqb_eq in C; auto).
    intro E. assert (Q : exists s d n, unsigned l = (s, d) /\ read_digits d = Some n /\ e = if s then (- Z.of_N n)%Z else Z.of_N n).
    { unfold unsigned. destruct l as [|x l]; [discriminate|]. destruct (N.eq_dec x 45) as [-> |N5]; [destruct (read_digits l) as [n|] eqn:D; [|discriminate]; injection E as <-; now exists true, l, n|].
      cbn beta iota in E |- *. rewrite split45 in E by exact N5. rewrite split45 by exact N5. destruct (read_digits (unplus (x :: l))) as [n|] eqn:D; [|discriminate]. injection E as <-. now exists false, (unplus (x :: l)), n. }
    destruct Q as (s & d & n & U & D & ->). destruct (unsigned_inv l) as (sg & S & El). rewrite U in S, El. cbn [fst snd] in *. rewrite El. apply (ex_some c sg s d n K S). now apply read_digits_spec.
  - intros [|k sg s d n K S D]; [reflexivity|]. cbn [read_exponent]. assert (C : ((k =? 101) || (k =? 69))%bool = true) by (destruct K as [-> | ->]; reflexivity). rewrite C.
    pose proof (digits_unsigned d (proj1 (proj2 D))) as H. apply read_digits_spec in D. inversion S; subst; cbn [app]; [|cbn beta iota delta [unplus]; now rewrite D..].
    destruct d as [|c r]; [discriminate|]. destruct (H c r eq_refl) as [A B]. rewrite split45 by exact B. rewrite unplus_other by (intros x y E; injection E as <- _; exact A). now rewrite D.
Qed.
Lemma exponent_not_digit x e c r : exponent_of x e -> x = c :: r -> ~ digit c /\ c <> 46.
Proof. intros [|k sg s d n K S D] E; [discriminate|]. injection E as <- _. unfold digit. destruct K as [-> | ->]; lia. Qed.
(** The digits, the point and the exponent are found. *)
Lemma read_number_spec s l x : read_number s l = Some x <-> exists a pt b t e n, digits_of (a ++ b) n /\ (pt = [46] \/ pt = [] /\ b = []) /\ exponent_of t e /\ l = a ++ pt ++ b ++ t /\ x = of_decimal s n (e - Z.of_N (len b)).
Proof.
  unfold read_number. split.
  - pose proof (span_spec l) as Sp. destruct (span_digits l) as [a r]. destruct Sp as (-> & Fa & Na).
    assert (Q : exists pt b t, (match r with 46 :: r' => span_digits r' | _ => ([], r) end) = (b, t) /\ r = pt ++ b ++ t /\ (pt = [46] \/ pt = [] /\ b = []) /\ Forall digit b).
    { destruct r as [|c r]; [exists [], [], []; split; [reflexivity|]; split; [reflexivity|]; split; [now right|constructor]|]. destruct (N.eq_dec c 46) as [-> |N6].
      - pose proof (span_spec r) as Sp. destruct (span_digits r) as [b t]. destruct Sp as (-> & Fb & _). exists [46], b, t. auto.
      - exists [], [], (c :: r). split; [|split; [reflexivity|]; split; [now right|constructor]]. destruct c as [|p]; [reflexivity|]. do 6 (try destruct p as [p|p|]; try reflexivity). now destruct N6. }
    destruct Q as (pt & b & t & -> & -> & P & Fb). destruct (read_digits (a ++ b)) as [n|] eqn:D; [|discriminate]. destruct (read_exponent t) as [e|] eqn:E; [|discriminate]. intro Q. injection Q as <-.
    exists a, pt, b, t, e, n. apply read_digits_spec in D. apply read_exponent_spec in E. auto.
  - intros (a & pt & b & t & e & n & D & P & E & -> & ->). assert (Fa : Forall digit a /\ Forall digit b) by (destruct D as (_ & F & _); now apply Forall_app in F). destruct Fa as [Fa Fb].
    rewrite span_app; [|exact Fa|].
    + assert (Q : (match pt ++ b ++ t with 46 :: r' => span_digits r' | _ => ([], pt ++ b ++ t) end) = (b, t)).
      { destruct P as [-> |[-> ->]]; cbn [app]; [apply span_app; [exact Fb|]; intros c r Et; apply (exponent_not_digit t e c r E Et)|].
        destruct t as [|c r]; [reflexivity|]. destruct (exponent_not_digit _ e c r E eq_refl) as [_ N6]. destruct c as [|p]; [reflexivity|]. do 6 (try destruct p as [p|p|]; try reflexivity). now destruct N6. }
      rewrite Q. apply read_digits_spec in D. apply read_exponent_spec in E. now rewrite D, E.
    + intros c r Et. destruct P as [-> |[-> ->]]; cbn [app] in Et; [injection Et as <- _; unfold digit; lia|]. apply (exponent_not_digit t e c r E Et).
Qed.
Lemma number_head a pt b t e n : digits_of (a ++ b) n -> (pt = [46] \/ pt = [] /\ b = []) -> exponent_of t e -> exists c r, a ++ pt ++ b ++ t = c :: r /\ (digit c \/ c = 46).
Proof.
  intros (Ne & F & _) P _. destruct a as [|c a].
  - destruct P as [-> |[-> ->]]; [exists 46, (b ++ t); auto|contradiction].
  - exists c, (a ++ pt ++ b ++ t). split; [reflexivity|]. left. now apply Forall_inv in F.
Qed.
Lemma not_a_name c r : digit c \/ c = 46 -> list_eqb (map lower (c :: r)) (bytes_of "inf") = false /\ list_eqb (map lower (c :: r)) (bytes_of "infinity") = false /\ list_eqb (map lower (c :: r)) (bytes_of "nan") = false.
Proof.
  intro H. assert (L : lower c = c). { unfold lower, in_rng. destruct ((65 <=? c) && (c <=? 90))%bool eqn:E; [|reflexivity]. apply andb_true_iff in E as [A B]. apply N.leb_le in A, B. unfold digit in H. lia. }
  cbn [map]. rewrite L. assert (E1 : c =? 105 = false /\ c =? 110 = false). { unfold digit in H. split; apply N.eqb_neq; lia. } destruct E1 as [E1 E2].
  change (bytes_of "inf") with [105; 110; 102]. change (bytes_of "infinity") with [105; 110; 102; 105; 110; 105; 116; 121]. change (bytes_of "nan") with [110; 97; 110]. cbn [list_eqb]. rewrite E1, E2. auto.
Qed.
(** The double read is the one nearest to the number, and its sign bit is the sign of the text. Beyond the largest double it is
    infinite. *)
Theorem C101_float l s r : number_of l s r -> exists b, read_f64 l = Some b /\ b < 2 ^ 64 /\ nearest s r (sf_of_bits b).
Proof.
  intros [sg s' a pt b x e n S D P E]. destruct (number_head a pt b x e n D P E) as (c & t & Hd & Hc). unfold read_f64. fold (unsigned (sg ++ a ++ pt ++ b ++ x)).
  rewrite (unsigned_app sg s' (a ++ pt ++ b ++ x) S) by (intros y z Ey; rewrite Hd in Ey; injection Ey as <- _; unfold digit in Hc; lia).
  cbv zeta. rewrite Hd. destruct (not_a_name c t Hc) as (-> & -> & ->). cbn [orb]. rewrite <- Hd.
  assert (Q : read_number s' (a ++ pt ++ b ++ x) = Some (of_decimal s' n (e - Z.of_N (len b)))) by (apply read_number_spec; exists a, pt, b, x, e, n; auto). rewrite Q. cbn [option_map].
  pose proof (of_decimal_nearest s' n (e - Z.of_N (len b))) as Nr. rewrite pow10_powerRZ in Nr. eexists. split; [reflexivity|]. split; [apply sf_bits_bound, Nr|now apply nearest_bits].
Qed.
Print Assumptions C101_float.
(** The names of the infinities and of NaN, in capitals, small letters or both. *)
Definition any_case (name l : list N) : Prop := Forall2 (fun c d => d = c \/ d + 32 = c) name l.
Lemma lower_spelled name : Forall (fun c => 97 <= c <= 122) name -> forall l, map lower l = name <-> any_case name l.
Proof.
  unfold any_case. induction 1 as [|c name Hc F IH]; intros [|d l]; (split; intro H); try (inversion H; fail); try discriminate; try constructor.
  - injection H as H1 H2. unfold lower, in_rng in H1. destruct ((65 <=? d) && (d <=? 90))%bool eqn:E; [right|left]; lia.
  - injection H as H1 H2. now apply IH.
  - inversion H as [|? ? ? ? H1 H2]; subst. cbn [map]. apply IH in H2. rewrite H2. f_equal. unfold lower, in_rng.
    destruct ((65 <=? d) && (d <=? 90))%bool eqn:E; [apply andb_true_iff in E as [A B]; apply N.leb_le in A, B; lia|]. destruct H1 as [H1|H1]; [exact H1|]. apply andb_false_iff in E as [E|E]; apply N.leb_gt in E; lia.
Qed.
Definition inf_name := bytes_of "inf".
Definition infinity_name := bytes_of "infinity".
Definition nan_name := bytes_of "nan".
Lemma small_letters : Forall (fun c => 97 <= c <= 122) inf_name /\ Forall (fun c => 97 <= c <= 122) infinity_name /\ Forall (fun c => 97 <= c <= 122) nan_name.
Proof. unfold inf_name, infinity_name, nan_name. cbn. repeat split; repeat (apply Forall_cons; [lia|]); constructor. Qed.
Lemma spelled_head c name d l : any_case (c :: name) (d :: l) -> 97 <= c -> d <> 43 /\ d <> 45.
Proof. intros H C. inversion H; subst. lia. Qed.
Theorem C101_names sg s l : sign_of sg s ->
  (any_case inf_name l \/ any_case infinity_name l -> read_f64 (sg ++ l) = Some ((if s then 9223372036854775808 else 0) + 9218868437227405312)) /\
  (any_case nan_name l -> read_f64 (sg ++ l) = Some ((if s then 9223372036854775808 else 0) + 9221120237041090560)).
Proof.
  intro S. destruct small_letters as (L1 & L2 & L3).
  assert (U : any_case inf_name l \/ any_case infinity_name l \/ any_case nan_name l -> unsigned (sg ++ l) = (s, l)).
  { intro H. apply (unsigned_app sg s l S). intros c r ->. destruct H as [H|[H|H]]; [apply (spelled_head 105 [110; 102] _ _ H)|apply (spelled_head 105 [110; 102; 105; 110; 105; 116; 121] _ _ H)|apply (spelled_head 110 [97; 110] _ _ H)]; lia. }
  unfold read_f64. fold (unsigned (sg ++ l)). split; intro H; (rewrite U by tauto); cbv zeta.
  - assert (E : list_eqb (map lower l) (bytes_of "inf") || list_eqb (map lower l) (bytes_of "infinity") = true).
    { apply orb_true_iff. destruct H as [H|H]; [left|right]; apply list_eqb_eq; apply lower_spelled; assumption. }
    rewrite E. destruct s; reflexivity.
  - apply (lower_spelled _ L3) in H. rewrite H. destruct s; reflexivity.
Qed.
Print Assumptions C101_names.
Example C101_names_example : sign_of [45] true /\ any_case inf_name (bytes_of "INF") /\ any_case infinity_name (bytes_of "Infinity") /\ any_case nan_name (bytes_of "NaN") /\
  read_f64 (bytes_of "-INF") = Some 18442240474082181120 /\ read_f64 (bytes_of "Infinity") = Some 9218868437227405312 /\ read_f64 (bytes_of "infinit") = None.
Proof.
  split; [constructor|]. unfold any_case, inf_name, infinity_name, nan_name. cbn [bytes_of String.list_ascii_of_string map]. 
  split; [repeat constructor; cbn; lia|]. split; [repeat constructor; cbn; lia|]. split; [repeat constructor; cbn; lia|]. split; [vm_compute; reflexivity|]. split; vm_compute; reflexivity.
Qed.
(** Nothing else is read. *)
Theorem C101_float_only l b : read_f64 l = Some b -> (exists s r, number_of l s r) \/ exists sg s name, sign_of sg s /\ l = sg ++ name /\ (any_case inf_name name \/ any_case infinity_name name \/ any_case nan_name name).
Proof.
  destruct small_letters as (L1 & L2 & L3).
  unfold read_f64. fold (unsigned l). destruct (unsigned_inv l) as (sg & S & El). destruct (unsigned l) as [s d]. cbn [fst snd] in *. cbv zeta.
  destruct (list_eqb (map lower d) (bytes_of "inf")) eqn:E1; [intros _; right; exists sg, s, d; apply list_eqb_eq in E1; apply (lower_spelled _ L1) in E1; split; [exact S|]; split; [exact El|]; tauto|].
  destruct (list_eqb (map lower d) (bytes_of "infinity")) eqn:E2; [intros _; right; exists sg, s, d; apply list_eqb_eq in E2; apply (lower_spelled _ L2) in E2; split; [exact S|]; split; [exact El|]; tauto|].
  destruct (list_eqb (map lower d) (bytes_of "nan")) eqn:E3; [intros _; right; exists sg, s, d; apply list_eqb_eq in E3; apply (lower_spelled _ L3) in E3; split; [exact S|]; split; [exact El|]; tauto|].
  cbn [orb]. destruct (read_number s d) as [x|] eqn:Q; cbn [option_map]; intro Z; [|discriminate Z]. clear Z. apply read_number_spec in Q as (a & pt & b' & t & e & n & D & P & E & -> & _). left. rewrite El. exists s. eexists. exact (nu sg s a pt b' t e n S D P E).
Qed.
Print Assumptions C101_float_only.
(** Every double but NaN has a text. *)
Lemma bits_sf_round b : b < two64 -> sf_of_bits b <> S754_nan -> sf_to_bits (sf_of_bits b) = b /\ SpecFloat.valid_binary 53 1024 (sf_of_bits b) = true.
Proof.
  intros Hb NN. unfold sf_of_bits in *. set (m := b mod 4503599627370496) in *. set (q := b / 4503599627370496) in *. set (e := q mod 2048) in *.
  assert (M : m < 4503599627370496) by (apply N.mod_lt; discriminate). assert (E : e < 2048) by (apply N.mod_lt; discriminate).
  assert (Q : b = 4503599627370496 * q + m) by (apply N.div_mod; discriminate). assert (Q2 : q = 2048 * (q / 2048) + e) by (apply N.div_mod; discriminate).
  assert (Sg : sign_bit (N.testbit b 63) + (4503599627370496 * e + m) = b).
  { assert (K : q / 2048 = b / 2 ^ 63) by (unfold q; rewrite N.div_div by discriminate; reflexivity). assert (K2 : b / 2 ^ 63 < 2) by (apply N.div_lt_upper_bound; [discriminate|exact Hb]).
    rewrite N.testbit_eqb, <- K. rewrite <- K in K2. set (h := q / 2048) in *. clearbody h e m. clear K NN. clearbody q. assert (H2 : h = 0 \/ h = 1) by lia. destruct H2 as [-> | ->]; [change (0 mod 2 =? 1) with false|change (1 mod 2 =? 1) with true]; cbn [sign_bit]; lia. }
  set (s := N.testbit b 63) in *. clearbody s. destruct (N.eqb_spec e 0) as [E0|E0].
  - rewrite E0, N.mul_0_r, N.add_0_l in Sg. destruct m as [|p]; [cbn [sf_to_bits]; split; [now rewrite N.add_0_r in Sg|reflexivity]|]. cbn [sf_to_bits SpecFloat.valid_binary]. rewrite (proj2 (N.ltb_lt _ _) M). split; [exact Sg|].
    unfold bounded, canonical_mantissa, fexp, SpecFloat.emin. assert (D : (Zpos (digits2_pos p) <= 52)%Z). { rewrite Digits.Zpos_digits2_pos. apply Digits.Zdigits_le_Zpower. rewrite Z.abs_eq by lia. change (radix2 ^ 52)%Z with 4503599627370496%Z. clear - M; lia. }
    apply andb_true_iff. split; [apply Zeq_bool_true; lia|reflexivity].
  - destruct (N.eqb_spec e 2047) as [E7|E7].
    + destruct (N.eqb_spec m 0) as [M0|]; [|contradiction]. cbn [sf_to_bits SpecFloat.valid_binary]. split; [|reflexivity]. rewrite <- Sg, E7, M0. reflexivity.
    + destruct (m + 4503599627370496) as [|p] eqn:P; [lia|]. cbn [sf_to_bits SpecFloat.valid_binary]. destruct (N.ltb_spec (Npos p) 4503599627370496) as [|L]; [lia|]. replace (Z.to_N (Z.of_N e - 1075 + 1075)) with e by lia. split; [lia|].
      assert (D : Zpos (digits2_pos p) = 53%Z). { rewrite Digits.Zpos_digits2_pos. apply Z.le_antisymm; [apply Digits.Zdigits_le_Zpower; rewrite Z.abs_eq by lia; change (radix2 ^ 53)%Z with 9007199254740992%Z; clear - M P; lia|]. apply Z.lt_pred_le. change (Z.pred 53) with 52%Z. apply (Digits.Zdigits_gt_Zpower radix2 52 (Zpos p)). rewrite Z.abs_eq by lia. change (radix2 ^ 52)%Z with 4503599627370496%Z. clear - L; lia. }
      unfold bounded, canonical_mantissa, fexp, SpecFloat.emin. rewrite D. apply andb_true_iff. split; [apply Zeq_bool_true; lia|apply Z.leb_le; lia].
Qed.
Lemma valid_fval s m e : SpecFloat.valid_binary 53 1024 (S754_finite s m e) = true -> fval (S754_finite s m e) (signed s (IZR (Zpos m) * bpow radix2 e)).
Proof. intro V. exists (SF2B _ V). split; [apply B2SF_SF2B|]. split; [now rewrite is_finite_SF2B|]. rewrite B2R_SF2B. cbn [SF2R]. apply signed_Z. Qed.
Lemma nearest_exact s m e x : SpecFloat.valid_binary 53 1024 (S754_finite s m e) = true -> nearest s (signed s (IZR (Zpos m) * bpow radix2 e)) x -> x = S754_finite s m e.
Proof.
  intros V [Vx H]. pose proof (valid_fval s m e V) as F. rewrite (rnd_format _ (fval_format _ _ F)) in H. set (r := signed s (IZR (Zpos m) * bpow radix2 e)) in *. destruct F as (b & Eb & Fb & Rb).
  assert (L : (Rabs r < bpow radix2 1024)%R) by (rewrite <- Rb; apply (abs_B2R_lt_emax 53 1024 b)). rewrite Rlt_bool_true in H by exact L. destruct H as [(c & Ec & Fc & Rc) Sx]. rewrite <- Eb, <- Ec. f_equal. apply B2R_Bsign_inj; try assumption; [congruence|].
  assert (SS : forall y : bf64, Bsign y = sign_SF (B2SF y)) by (intros []; reflexivity). rewrite !SS, Ec, Eb, Sx. reflexivity.
Qed.
Lemma dec_digits n : digits_of (dec n) n.
Proof. destruct (dec_spec n) as (F & V & (c & r & E & _) & _). split; [rewrite E; discriminate|now split]. Qed.
Theorem C101_every_double b : b < 2 ^ 64 -> sf_of_bits b <> S754_nan -> exists t, read_f64 t = Some b.
Proof.
  intros Hb NN. change (2 ^ 64) with two64 in Hb. destruct (bits_sf_round b Hb NN) as [Rt V]. remember (sf_of_bits b) as x eqn:Ex. destruct x as [s|s| |s m e]; [| |contradiction|].
  - exists (if s then [45; 48] else [48]). rewrite <- Rt. destruct s; reflexivity.
  - exists (if s then bytes_of "-inf" else bytes_of "inf"). rewrite <- Rt. destruct s; reflexivity.
  - set (sg := if s then [45] else []). assert (S : sign_of sg s) by (unfold sg; destruct s; constructor).
    assert (T : exists t, number_of t s (signed s (IZR (Zpos m) * bpow radix2 e))).
    { destruct (Z_le_gt_dec 0 e) as [E|E].
      - exists (sg ++ dec (Npos m * 2 ^ Z.to_N e) ++ [] ++ [] ++ []). pose proof (dec_digits (Npos m * 2 ^ Z.to_N e)) as D. rewrite <- (app_nil_r (dec (N.pos m * 2 ^ Z.to_N e))) in D.
        pose proof (nu sg s (dec (Npos m * 2 ^ Z.to_N e)) [] [] [] 0 _ S D (or_intror (conj eq_refl eq_refl)) ex_none) as Nu. cbn [len length N.of_nat Z.of_N Z.sub Z.opp Z.add powerRZ] in Nu. change (Z.of_N (len [])) with 0%Z in Nu. cbn [Z.sub Z.opp Z.add powerRZ] in Nu. rewrite Rmult_1_r in Nu.
        replace (IZR (Z.of_N (N.pos m * 2 ^ Z.to_N e))) with (IZR (Z.pos m) * bpow radix2 e)%R in Nu; [exact Nu|]. rewrite N2Z.inj_mul, N2Z.inj_pow, Z2N.id by exact E. rewrite mult_IZR. f_equal. apply IZR_bpow. lia.
      - set (k := Z.to_N (- e)). exists (sg ++ dec (Npos m * 5 ^ k) ++ [] ++ [] ++ (101 :: [45] ++ dec k)). pose proof (dec_digits (Npos m * 5 ^ k)) as D. rewrite <- (app_nil_r (dec (Npos m * 5 ^ k))) in D.
        pose proof (nu sg s (dec (Npos m * 5 ^ k)) [] [] _ _ _ S D (or_intror (conj eq_refl eq_refl)) (ex_some 101 [45] true (dec k) k (or_introl eq_refl) so_minus (dec_digits k))) as Nu. cbn beta iota in Nu. change (Z.of_N (len [])) with 0%Z in Nu. rewrite Z.sub_0_r in Nu.
        replace (IZR (Z.of_N (N.pos m * 5 ^ k)) * powerRZ 10 (- Z.of_N k))%R with (IZR (Z.pos m) * bpow radix2 e)%R in Nu; [exact Nu|].
        rewrite N2Z.inj_mul, N2Z.inj_pow, mult_IZR, Rmult_assoc. f_equal. replace e with (- Z.of_N k)%Z by lia. rewrite <- pow10_powerRZ. unfold pow10. assert (K : (0 < Z.of_N k)%Z) by lia. destruct (Z.leb_spec 0 (- Z.of_N k)) as [|_]; [lia|]. rewrite Z.opp_involutive.
        rewrite bpow_opp, IZR_bpow by lia. change 10%Z with (5 * 2)%Z. rewrite Z.pow_mul_l, mult_IZR. change (Z.of_N (N.pos m)) with (Zpos m). change (Z.of_N 5) with 5%Z. assert (P5 : (0 < IZR (5 ^ Z.of_N k))%R) by (apply IZR_lt, Z.pow_pos_nonneg; lia). assert (P2 : (0 < IZR (2 ^ Z.of_N k))%R) by (apply IZR_lt, Z.pow_pos_nonneg; lia). field. split; lra. }
    destruct T as (t & T). exists t. destruct (C101_float t s _ T) as (b' & R & B' & Nr). rewrite R. f_equal. pose proof (nearest_exact s m e _ V Nr) as Q. assert (NN' : sf_of_bits b' <> S754_nan) by (rewrite Q; discriminate). destruct (bits_sf_round b' B' NN') as [Rt' _]. congruence.
Qed.
Print Assumptions C101_every_double.

(** ** Command lines *)
(** What was chosen for option [i]: the default when it is absent, the value when it is given once. *)
Definition absent (i : nat) (its : list item) : Prop := forall t, ~ In (Given i t) its.
Inductive once (i : nat) (its : list item) (t : list N) : Prop := on : forall l1 l2, its = l1 ++ Given i t :: l2 -> absent i l1 -> absent i l2 -> once i its t.
Inductive chosen {A} (i : nat) (read : list N -> option A) (default : string) (its : list item) (v : A) : Prop :=
| ch_default : absent i its -> read (bytes_of default) = Some v -> chosen i read default its v
| ch_given : forall t, once i its t -> read t = Some v -> chosen i read default its v.
Inductive maybe {A} (i : nat) (read : list N -> option A) (its : list item) : option A -> Prop :=
| my_none : absent i its -> maybe i read its None
| my_some : forall t v, once i its t -> read t = Some v -> maybe i read its (Some v).
Inductive turned (i : nat) (its : list item) : bool -> Prop := tu_off : absent i its -> turned i its false | tu_on : forall t, once i its t -> turned i its true.
(** The operands, in order. *)
Definition named (its : list item) (l : list (list N)) : Prop := filter (fun x => match x with Operand _ => true | Given _ _ => false end) its = map Operand l.


Lemma values_app i a b : values i (a ++ b) = values i a ++ values i b.
Proof. apply flat_map_app. Qed.
Lemma values_nil i its : values i its = [] <-> absent i its.
Proof.
  induction its as [|x its IH]; [split; [intros _ t []|reflexivity]|]. unfold values, absent in *. cbn [flat_map]. destruct x as [j v|v].
  - destruct (Nat.eqb_spec i j) as [-> |Ne]; cbn [app]; [split; [discriminate|intro H; destruct (H v); now left]|]. rewrite IH. split; intros H t I; [destruct I as [E|I]; [injection E as E _; congruence|now destruct (H t)]|apply (H t); now right].
  - cbn [app]. rewrite IH. split; intros H t I; [destruct I as [E|I]; [discriminate|now destruct (H t)]|apply (H t); now right].
Qed.
Lemma values_one i its t : values i its = [t] <-> once i its t.
Proof.
  split.
  - induction its as [|x its IH]; [discriminate|]. intro E. destruct x as [j v|v].
    + change (values i (Given j v :: its)) with ((if Nat.eqb i j then [v] else []) ++ values i its) in E. destruct (Nat.eqb_spec i j) as [<- |Ne]; cbn [app] in E.
      * injection E as -> E. apply values_nil in E. apply (on i (Given i t :: its) t [] its); [reflexivity|intros y []|exact E].
      * destruct (IH E) as [l1 l2 -> A B]. apply (on i _ t (Given j v :: l1) l2); [reflexivity| |exact B]. intros y [Q|Q]; [injection Q as Q _; congruence|now apply (A y)].
    + change (values i (Operand v :: its)) with (values i its) in E. destruct (IH E) as [l1 l2 -> A B]. apply (on i _ t (Operand v :: l1) l2); [reflexivity| |exact B]. intros y [Q|Q]; [discriminate|now apply (A y)].
  - intros [l1 l2 -> A B]. rewrite values_app. apply values_nil in A, B. rewrite A. change (values i (Given i t :: l2)) with ((if Nat.eqb i i then [t] else []) ++ values i l2). now rewrite Nat.eqb_refl, B.
Qed.
Lemma once_fun i its t u : once i its t -> once i its u -> t = u.
Proof. intros A B. apply values_one in A, B. congruence. Qed.
Lemma once_present i its t : once i its t -> absent i its -> False.
Proof. intros A B. apply values_one in A. apply values_nil in B. congruence. Qed.
Lemma with_default_spec {A} i (read : list N -> option A) d its v : with_default i read d its = Some v <-> chosen i read d its v.
Proof.
  unfold with_default. split.
  - destruct (values i its) as [|t [|]] eqn:E; [| |discriminate]; intro H; [apply ch_default; [now apply values_nil|exact H]|apply (ch_given i read d its v t); [now apply values_one|exact H]].
  - intros [H R|t H R]; [apply values_nil in H|apply values_one in H]; rewrite H; exact R.
Qed.
Lemma optional_spec {A} i (read : list N -> option A) its v : optional i read its = Some v <-> maybe i read its v.
Proof.
  unfold optional. split.
  - destruct (values i its) as [|t [|]] eqn:E; [| |discriminate]; intro H; [injection H as <-; constructor; now apply values_nil|]. destruct (read t) as [x|] eqn:R; [|discriminate]. injection H as <-. apply (my_some i read its t); [now apply values_one|exact R].
  - intros [H|t x H R]; [apply values_nil in H|apply values_one in H]; rewrite H; [reflexivity|now rewrite R].
Qed.
Lemma switch_spec i its b : switch i its = Some b <-> turned i its b.
Proof.
  unfold switch. split.
  - destruct (values i its) as [|t [|]] eqn:E; [| |discriminate]; intro H; injection H as <-; [constructor; now apply values_nil|apply (tu_on i its t); now apply values_one].
  - intros [H|t H]; [apply values_nil in H|apply values_one in H]; now rewrite H.
Qed.
Lemma operands_spec its l : operands its = l <-> named its l.
Proof.
  revert l. induction its as [|x its IH]; intro l; [unfold named; cbn; destruct l; split; (reflexivity || discriminate)|]. destruct x as [j v|v].
  - exact (IH l).
  - change (operands (Operand v :: its)) with (v :: operands its). unfold named. cbn [filter]. split; [intros <-; cbn [map]; f_equal; now apply IH|]. destruct l as [|y l]; [discriminate|]. cbn [map]. intro E. injection E as -> E. f_equal. now apply IH.
Qed.
Lemma read_string_spec t u : read_string t = Some u <-> u = t /\ utf8 t.
Proof. unfold read_string. rewrite <- utf8_valid_iff. destruct (utf8_valid t); split; [intro E; injection E as <-; auto|intros [-> _]; reflexivity|discriminate|intros [_ ?]; discriminate]. Qed.
Lemma read_strings_spec l m : read_strings l = Some m <-> m = l /\ Forall utf8 l.
Proof.
  revert m. induction l as [|t l IH]; intro m; cbn [read_strings].
  - split; [intro E; injection E as <-; auto|intros [-> _]; reflexivity].
  - rewrite Forall_cons_iff. destruct (read_string t) as [u|] eqn:E.
    + apply read_string_spec in E as [-> Tt]. destruct (read_strings l) as [r|]; [|split; [discriminate|intros (-> & _ & F); destruct (IH l) as [_ Q]; discriminate (Q (conj eq_refl F))]].
      destruct (IH r) as [Q _]. destruct (Q eq_refl) as [-> F]. split; [intro E; injection E as <-; auto|intros [-> _]; reflexivity].
    + split; [discriminate|]. intros (_ & Tt & _). apply utf8_valid_iff in Tt. unfold read_string in E. rewrite Tt in E. discriminate.
Qed.
Lemma laid_rest ds args its rest : laid ds false args its rest -> rest = [].
Proof. intro H. remember false as s eqn:E. induction H; auto; discriminate. Qed.

(** The arguments before the command: [-v] and [-j], then the command's name and its own arguments. *)
Definition headed (argv : list (list N)) (v : bool) (j : N) (name : string) (args : list (list N)) : Prop :=
  exists top, laid main_decls true argv top (bytes_of name :: args) /\ turned 0 top v /\ chosen 1 read_usize "2" top j.
Lemma declared ds : In ds [main_decls; create_decls; insert_decls; check_decls; bench_decls; []] -> well_declared ds = true.
Proof. intro I. pose proof all_declared as A. rewrite forallb_forall in A. exact (A ds I). Qed.
Lemma read_args_spec argv v j c : read_args argv = Some {| ar_verbose := v; ar_jobs := j; ar_command := c |} <->
  exists name args, headed argv v j name args /\ In name ["create"; "insert"; "check"; "bench"; "show"]%string /\ read_command (bytes_of name :: args) = Some c.
Proof.
  assert (W : well_declared main_decls = true) by (apply declared; cbn [In]; tauto). unfold read_args. split.
  - destruct (scan main_decls true argv) as [[top rest]|] eqn:S; [|discriminate]. cbn [fst snd]. apply (laid_scan _ _ _ _ _ W) in S. destruct (switch 0 top) as [v'|] eqn:V; [|discriminate]. destruct (with_default 1 read_usize "2" top) as [j'|] eqn:J; [|discriminate]. destruct (read_command rest) as [c'|] eqn:C; [|discriminate].
    intro E. injection E as -> -> ->. apply switch_spec in V. apply with_default_spec in J. assert (N0 : exists name args, rest = bytes_of name :: args /\ In name ["create"; "insert"; "check"; "bench"; "show"]%string).
    { destruct rest as [|nm args]; [discriminate|]. cbn [read_command] in C.
      destruct (list_eqb nm (bytes_of "create")) eqn:E1; [apply list_eqb_eq in E1 as ->; exists "create"%string, args; cbn [In]; tauto|].
      destruct (list_eqb nm (bytes_of "insert")) eqn:E2; [apply list_eqb_eq in E2 as ->; exists "insert"%string, args; cbn [In]; tauto|].
      destruct (list_eqb nm (bytes_of "check")) eqn:E3; [apply list_eqb_eq in E3 as ->; exists "check"%string, args; cbn [In]; tauto|].
      destruct (list_eqb nm (bytes_of "bench")) eqn:E4; [apply list_eqb_eq in E4 as ->; exists "bench"%string, args; cbn [In]; tauto|].
      destruct (list_eqb nm (bytes_of "show")) eqn:E5; [apply list_eqb_eq in E5 as ->; exists "show"%string, args; cbn [In]; tauto|discriminate]. }
    destruct N0 as (name & args & -> & I). exists name, args. split; [|auto]. exists top. auto.
  - intros (name & args & (top & Ld & V & J) & _ & C). apply (scan_laid _ _ _ _ _ W) in Ld. rewrite Ld. cbn [fst snd]. apply switch_spec in V. apply with_default_spec in J. now rewrite V, J, C.
Qed.
Lemma command_inv name args c : In name ["create"; "insert"; "check"; "bench"; "show"]%string -> read_command (bytes_of name :: args) = Some c ->
  match c with
  | Create a => name = "create"%string /\ read_create args = Some a
  | Insert a => name = "insert"%string /\ read_insert args = Some a
  | Check a => name = "check"%string /\ read_check args = Some a
  | Bench a => name = "bench"%string /\ read_bench args = Some a
  | Show a => name = "show"%string /\ read_show args = Some a
  end.
Proof.
  intros I E. cbn [In] in I. destruct I as [<-|[<-|[<-|[<-|[<-|[]]]]]].
  - change (option_map Create (read_create args) = Some c) in E. destruct (read_create args); [injection E as <-; auto|discriminate].
  - change (option_map Insert (read_insert args) = Some c) in E. destruct (read_insert args); [injection E as <-; auto|discriminate].
  - change (option_map Check (read_check args) = Some c) in E. destruct (read_check args); [injection E as <-; auto|discriminate].
  - change (option_map Bench (read_bench args) = Some c) in E. destruct (read_bench args); [injection E as <-; auto|discriminate].
  - change (option_map Show (read_show args) = Some c) in E. destruct (read_show args); [injection E as <-; auto|discriminate].
Qed.
(** The options, as the help text of each command lists them. *)
Definition options_of (name : string) : list (option N * string * bool) :=
  (if string_dec name "" then [(Some 118, "verbose", false); (Some 106, "jobs", true)]
   else if string_dec name "create" then [(None, "version", true); (Some 99, "capacity", true); (Some 112, "probability", true); (Some 79, "opt-lvl", true)]
   else if string_dec name "insert" then [(None, "stdin", false)]
   else if string_dec name "check" then [(None, "stdin", false); (None, "silent", false); (None, "verify", false)]
   else if string_dec name "bench" then [(Some 115, "size-mb", true); (None, "test-size", true); (Some 114, "runs", true); (Some 102, "fp-tol", true); (Some 118, "version", true); (None, "fpp", true); (Some 79, "opt", true)]
   else [])%string.
(** The spellings of an option: [--name=value], [--name value], [-c=value], [-cvalue], [-c value]; of a switch: [--name], [-c]. *)
Definition spelled (o : option N * string * bool) (ts : list (list N)) (v : list N) : Prop :=
  let '(c, n, takes) := o in
  if takes then ts = [bytes_of "--" ++ bytes_of n ++ bytes_of "=" ++ v] \/ (ts = [bytes_of "--" ++ bytes_of n; v] /\ dashed v = false) \/
    exists x, c = Some x /\ (ts = [[45; x; 61] ++ v] \/ (ts = [[45; x] ++ v] /\ exists y r, v = y :: r /\ y <> 61) \/ (ts = [[45; x]; v] /\ dashed v = false))
  else v = [] /\ (ts = [bytes_of "--" ++ bytes_of n] \/ exists x, c = Some x /\ ts = [[45; x]]).
Theorem C101_options name ds ts i v : In (name, ds) [("", main_decls); ("create", create_decls); ("insert", insert_decls); ("check", check_decls); ("bench", bench_decls); ("show", [])]%string ->
  form ds ts i v <-> exists o, nth_error (options_of name) i = Some o /\ spelled o ts v.
Proof.
  intro I. assert (Tb : map (fun d => (d_short d, d_long d, d_takes d)) ds = map (fun '(c, n, t) => (c, bytes_of n, t)) (options_of name)).
  { cbn [In] in I. destruct I as [E|[E|[E|[E|[E|[E|[]]]]]]]; injection E as <- <-; vm_compute; reflexivity. }
  split.
  - assert (Fw : forall d, nth_error ds i = Some d -> exists n, nth_error (options_of name) i = Some (d_short d, n, d_takes d) /\ d_long d = bytes_of n).
    { intros d Hd. apply (map_nth_error (fun d => (d_short d, d_long d, d_takes d))) in Hd. rewrite Tb, nth_error_map in Hd. destruct (nth_error (options_of name) i) as [[[c n] t]|]; [|discriminate]. cbn in Hd. injection Hd as -> E ->. exists n. auto. }
    intro F. destruct F as [i d v Hd T|i d v Hd T D|i d c v Hd T S|i d c x v Hd T S Nx|i d c v Hd T S D|i d Hd T|i d c Hd T S]; destruct (Fw d Hd) as (n & Hn & El); exists (d_short d, n, d_takes d); (split; [exact Hn|]); unfold spelled; rewrite T, ?S, ?El.
    + now left.
    + right. left. auto.
    + right. right. exists c. auto.
    + right. right. exists c. split; [reflexivity|]. right. left. split; [reflexivity|]. eauto.
    + right. right. exists c. auto.
    + split; [reflexivity|now left].
    + split; [reflexivity|]. right. eauto.
  - intros ([[c n] t] & Hn & Sp). assert (Hd : exists d, nth_error ds i = Some d /\ d_short d = c /\ d_long d = bytes_of n /\ d_takes d = t).
    { apply (map_nth_error (fun '(c, n, t) => (c, bytes_of n, t))) in Hn. rewrite <- Tb, nth_error_map in Hn. destruct (nth_error ds i) as [d|]; [|discriminate]. cbn in Hn. injection Hn as <- <- <-. exists d. auto. }
    destruct Hd as (d & Hd & Ec & El & Et). unfold spelled in Sp. destruct t.
    + destruct Sp as [-> |[[-> D]|(x & Ex & [-> |[(-> & y & r & -> & Ny)|[-> D]]])]]; rewrite <- ?El.
      * now apply (f_long_equals ds i d v).
      * now apply (f_long_next ds i d v).
      * apply (f_short_equals ds i d x v Hd Et). congruence.
      * apply (f_short_glued ds i d x y r Hd Et); [congruence|exact Ny].
      * apply (f_short_next ds i d x v Hd Et); [congruence|exact D].
    + destruct Sp as [-> [-> |(x & Ex & ->)]]; rewrite <- ?El; [now apply (f_switch_long ds i d)|apply (f_switch_short ds i d x Hd Et); congruence].
Qed.
Print Assumptions C101_options.

Ltac gone E := match type of E with None = Some _ => discriminate E end.
Ltac step E := match type of E with match ?x with _ => _ end = Some _ => let Q := fresh "Q" in destruct x eqn:Q; try discriminate E end.
(** create: the accepted command lines are those in which every option is given at most once, in any of its spellings and anywhere
    among the operands, and an operand names the output. *)
Theorem C101_create argv v j c : read_args argv = Some {| ar_verbose := v; ar_jobs := j; ar_command := Create c |} <->
  exists args its, headed argv v j "create" args /\ laid create_decls false args its [] /\ chosen 0 (read_ranged 256) "2" its (ca_version c) /\ chosen 1 read_usize "10000" its (ca_capacity c) /\
    chosen 2 read_f64 "0.01" its (ca_probability c) /\ chosen 3 (read_ranged 256) "0" its (ca_optimize c) /\ named its (ca_file c :: ca_dataset c) /\ ca_file c <> [] /\ Forall utf8 (ca_dataset c).
Proof.
  assert (W : well_declared create_decls = true) by (apply declared; cbn [In]; tauto). rewrite read_args_spec. split.
  - intros (name & args & H & I & C). apply (command_inv _ _ _ I) in C as [-> C]. unfold read_create in C. destruct (scan create_decls false args) as [[its rest]|] eqn:S; [|discriminate]. cbn [fst] in C. apply (laid_scan _ _ _ _ _ W) in S. pose proof (laid_rest _ _ _ _ S) as ->.
    do 4 (step C). destruct (operands its) as [|f ds] eqn:O; [discriminate|]. destruct (read_path f) as [f'|] eqn:P; [|discriminate]. destruct (read_strings ds) as [ds'|] eqn:D; [|discriminate]. injection C as <-. cbn [ca_version ca_capacity ca_probability ca_optimize ca_file ca_dataset].
    apply read_strings_spec in D as [-> D]. assert (f' = f /\ f <> []) as [-> Nf] by (destruct f; [discriminate|injection P as <-; split; [reflexivity|discriminate]]). exists args, its. split; [exact H|]. split; [exact S|].
    split; [now apply with_default_spec|]. split; [now apply with_default_spec|]. split; [now apply with_default_spec|]. split; [now apply with_default_spec|]. split; [now apply operands_spec|auto].
  - intros (args & its & H & S & A0 & A1 & A2 & A3 & O & Nf & D). exists "create"%string, args. split; [exact H|]. split; [cbn [In]; tauto|]. apply (scan_laid _ _ _ _ _ W) in S. change (option_map Create (read_create args) = Some (Create c)). unfold read_create. rewrite S. cbn [fst].
    apply with_default_spec in A0, A1, A2, A3. apply operands_spec in O. rewrite A0, A1, A2, A3, O. destruct c as [cv cc cp co cf cd]. cbn [ca_version ca_capacity ca_probability ca_optimize ca_file ca_dataset] in *. destruct cf as [|x cf]; [contradiction|]. cbn [read_path].
    rewrite (proj2 (read_strings_spec cd cd) (conj eq_refl D)). reflexivity.
Qed.
Print Assumptions C101_create.
Theorem C101_insert argv v j c : read_args argv = Some {| ar_verbose := v; ar_jobs := j; ar_command := Insert c |} <->
  exists args its, headed argv v j "insert" args /\ laid insert_decls false args its [] /\ turned 0 its (ia_stdin c) /\ named its (ia_file c :: ia_inputs c) /\ Forall utf8 (ia_file c :: ia_inputs c).
Proof.
  assert (W : well_declared insert_decls = true) by (apply declared; cbn [In]; tauto). rewrite read_args_spec. split.
  - intros (name & args & H & I & C). apply (command_inv _ _ _ I) in C as [-> C]. unfold read_insert in C. destruct (scan insert_decls false args) as [[its rest]|] eqn:S; [|discriminate]. cbn [fst] in C. apply (laid_scan _ _ _ _ _ W) in S. pose proof (laid_rest _ _ _ _ S) as ->.
    step C. destruct (operands its) as [|f ds] eqn:O; [discriminate|]. destruct (read_string f) as [f'|] eqn:P; [|discriminate]. destruct (read_strings ds) as [ds'|] eqn:D; [|discriminate]. injection C as <-. cbn [ia_stdin ia_file ia_inputs].
    apply read_strings_spec in D as [-> D]. apply read_string_spec in P as [-> P]. exists args, its. split; [exact H|]. split; [exact S|]. split; [now apply switch_spec|]. split; [now apply operands_spec|now constructor].
  - intros (args & its & H & S & A0 & O & D). exists "insert"%string, args. split; [exact H|]. split; [cbn [In]; tauto|]. apply (scan_laid _ _ _ _ _ W) in S. change (option_map Insert (read_insert args) = Some (Insert c)). unfold read_insert. rewrite S. cbn [fst].
    apply switch_spec in A0. apply operands_spec in O. rewrite A0, O. apply Forall_cons_iff in D as [P D]. rewrite (proj2 (read_string_spec (ia_file c) (ia_file c)) (conj eq_refl P)), (proj2 (read_strings_spec (ia_inputs c) (ia_inputs c)) (conj eq_refl D)). now destruct c.
Qed.
Print Assumptions C101_insert.
Theorem C101_check argv v j c : read_args argv = Some {| ar_verbose := v; ar_jobs := j; ar_command := Check c |} <->
  exists args its, headed argv v j "check" args /\ laid check_decls false args its [] /\ turned 0 its (ka_stdin c) /\ turned 1 its (ka_silent c) /\ turned 2 its (ka_verify c) /\ named its (ka_file c :: ka_inputs c) /\ Forall utf8 (ka_file c :: ka_inputs c).
Proof.
  assert (W : well_declared check_decls = true) by (apply declared; cbn [In]; tauto). rewrite read_args_spec. split.
  - intros (name & args & H & I & C). apply (command_inv _ _ _ I) in C as [-> C]. unfold read_check in C. destruct (scan check_decls false args) as [[its rest]|] eqn:S; [|discriminate]. cbn [fst] in C. apply (laid_scan _ _ _ _ _ W) in S. pose proof (laid_rest _ _ _ _ S) as ->.
    do 3 (step C). destruct (operands its) as [|f ds] eqn:O; [discriminate|]. destruct (read_string f) as [f'|] eqn:P; [|discriminate]. destruct (read_strings ds) as [ds'|] eqn:D; [|discriminate]. injection C as <-. cbn [ka_stdin ka_silent ka_verify ka_file ka_inputs].
    apply read_strings_spec in D as [-> D]. apply read_string_spec in P as [-> P]. exists args, its. split; [exact H|]. split; [exact S|]. split; [now apply switch_spec|]. split; [now apply switch_spec|]. split; [now apply switch_spec|]. split; [now apply operands_spec|now constructor].
  - intros (args & its & H & S & A0 & A1 & A2 & O & D). exists "check"%string, args. split; [exact H|]. split; [cbn [In]; tauto|]. apply (scan_laid _ _ _ _ _ W) in S. change (option_map Check (read_check args) = Some (Check c)). unfold read_check. rewrite S. cbn [fst].
    apply switch_spec in A0, A1, A2. apply operands_spec in O. rewrite A0, A1, A2, O. apply Forall_cons_iff in D as [P D]. rewrite (proj2 (read_string_spec (ka_file c) (ka_file c)) (conj eq_refl P)), (proj2 (read_strings_spec (ka_inputs c) (ka_inputs c)) (conj eq_refl D)). now destruct c.
Qed.
Print Assumptions C101_check.
Theorem C101_bench argv v j c : read_args argv = Some {| ar_verbose := v; ar_jobs := j; ar_command := Bench c |} <->
  exists args its l, headed argv v j "bench" args /\ laid bench_decls false args its [] /\ chosen 0 read_usize "100" its (ba_size_mb c) /\ maybe 1 read_usize its (ba_test_size c) /\ chosen 2 (read_ranged 4294967296) "50" its (ba_runs c) /\
    chosen 3 read_f64 "0.2" its (ba_fp_tol c) /\ chosen 4 (read_ranged 256) "2" its (ba_version c) /\ chosen 5 read_f64 "0.001" its (ba_fpp c) /\ chosen 6 (read_ranged 256) "0" its (ba_opt c) /\
    named its l /\ Forall utf8 l /\ l = match ba_file c with Some p => [p] | None => [] end.
Proof.
  assert (W : well_declared bench_decls = true) by (apply declared; cbn [In]; tauto). rewrite read_args_spec. split.
  - intros (name & args & H & I & C). apply (command_inv _ _ _ I) in C as [-> C]. unfold read_bench in C. destruct (scan bench_decls false args) as [[its rest]|] eqn:S; [|discriminate]. cbn [fst] in C. apply (laid_scan _ _ _ _ _ W) in S. pose proof (laid_rest _ _ _ _ S) as ->.
    do 7 (step C). assert (O : exists l q, match operands its with [] => Some None | [q] => option_map Some (read_string q) | _ => None end = Some q /\ operands its = l /\ Forall utf8 l /\ l = match q with Some p => [p] | None => [] end).
    { destruct (operands its) as [|p [|]]; [exists [], None; auto| |discriminate]. destruct (read_string p) as [p'|] eqn:P; [|discriminate]. apply read_string_spec in P as [-> P]. exists [p], (Some p). auto. }
    destruct O as (l & q & O1 & O2 & O3 & O4). rewrite O1 in C. injection C as <-. cbn [ba_size_mb ba_test_size ba_runs ba_fp_tol ba_version ba_fpp ba_opt ba_file]. exists args, its, l. split; [exact H|]. split; [exact S|].
    split; [now apply with_default_spec|]. split; [now apply optional_spec|]. split; [now apply with_default_spec|]. split; [now apply with_default_spec|]. split; [now apply with_default_spec|]. split; [now apply with_default_spec|]. split; [now apply with_default_spec|]. split; [now apply operands_spec|auto].
  - intros (args & its & l & H & S & A0 & A1 & A2 & A3 & A4 & A5 & A6 & O & D & El). exists "bench"%string, args. split; [exact H|]. split; [cbn [In]; tauto|]. apply (scan_laid _ _ _ _ _ W) in S. change (option_map Bench (read_bench args) = Some (Bench c)). unfold read_bench. rewrite S. cbn [fst].
    apply with_default_spec in A0, A2, A3, A4, A5, A6. apply optional_spec in A1. apply operands_spec in O. rewrite El in O, D. rewrite A0, A1, A2, A3, A4, A5, A6, O. clear O El. destruct c as [c0 c1 c2 c3 c4 c5 c6 [p|]]; cbn [ba_size_mb ba_test_size ba_runs ba_fp_tol ba_version ba_fpp ba_opt ba_file] in *; [|reflexivity].
    apply Forall_inv in D. cbn beta iota. now rewrite (proj2 (read_string_spec p p) (conj eq_refl D)).
Qed.
Print Assumptions C101_bench.
Theorem C101_show argv v j p : read_args argv = Some {| ar_verbose := v; ar_jobs := j; ar_command := Show p |} <->
  exists args its, headed argv v j "show" args /\ laid [] false args its [] /\ named its [p] /\ utf8 p.
Proof.
  assert (W : well_declared [] = true) by reflexivity. rewrite read_args_spec. split.
  - intros (name & args & H & I & C). apply (command_inv _ _ _ I) in C as [-> C]. unfold read_show in C. destruct (scan [] false args) as [[its rest]|] eqn:S; [|discriminate]. cbn [fst] in C. apply (laid_scan _ _ _ _ _ W) in S. pose proof (laid_rest _ _ _ _ S) as ->.
    destruct (operands its) as [|f [|]] eqn:O; [discriminate| |discriminate]. apply read_string_spec in C as [-> C]. exists args, its. split; [exact H|]. split; [exact S|]. split; [now apply operands_spec|exact C].
  - intros (args & its & H & S & O & D). exists "show"%string, args. split; [exact H|]. split; [cbn [In]; tauto|]. apply (scan_laid _ _ _ _ _ W) in S. change (option_map Show (read_show args) = Some (Show p)). unfold read_show. rewrite S. cbn [fst].
    apply operands_spec in O. rewrite O. now rewrite (proj2 (read_string_spec p p) (conj eq_refl D)).
Qed.
Print Assumptions C101_show.
(** Where the options stand and in which order does not matter; the order of the operands does. *)
Theorem C101_order name ds args1 args2 its1 its2 : In (name, ds) [("create", create_decls); ("insert", insert_decls); ("check", check_decls); ("bench", bench_decls); ("show", [])]%string ->
  laid ds false args1 its1 [] -> laid ds false args2 its2 [] -> Permutation its1 its2 -> (forall l, named its1 l <-> named its2 l) -> read_command (bytes_of name :: args1) = read_command (bytes_of name :: args2).
Proof.
  intros I L1 L2 P Op. assert (W : well_declared ds = true). { cbn [In] in I. destruct I as [E|[E|[E|[E|[E|[]]]]]]; injection E as <- <-; apply declared; cbn [In]; tauto. } apply (scan_laid _ _ _ _ _ W) in L1, L2. assert (O : operands its1 = operands its2) by (symmetry; apply operands_spec, Op, operands_spec; reflexivity).
  assert (V : forall i, Permutation (values i its1) (values i its2)). { intro i. apply Permutation_flat_map. exact P. }
  assert (V' : forall i, values i its1 = values i its2 \/ (2 <= length (values i its1))%nat /\ (2 <= length (values i its2))%nat).
  { intro i. specialize (V i). pose proof (Permutation_length V) as Q. destruct (values i its1) as [|x [|y l]]; [left; symmetry; now apply Permutation_nil in V|left; symmetry; now apply Permutation_length_1_inv|right; rewrite <- Q; cbn [length]; lia]. }
  assert (D : forall A i (read : list N -> option A) d, with_default i read d its1 = with_default i read d its2).
  { intros A i read d. unfold with_default. destruct (V' i) as [-> |[A1 A2]]; [reflexivity|]. destruct (values i its1) as [|x [|y l]]; cbn [length] in A1; try lia. destruct (values i its2) as [|x' [|y' l']]; cbn [length] in A2; try lia. reflexivity. }
  assert (Sw : forall i, switch i its1 = switch i its2).
  { intros i. unfold switch. destruct (V' i) as [-> |[A1 A2]]; [reflexivity|]. destruct (values i its1) as [|x [|y l]]; cbn [length] in A1; try lia. destruct (values i its2) as [|x' [|y' l']]; cbn [length] in A2; try lia. reflexivity. }
  assert (Oo : forall A i (read : list N -> option A), optional i read its1 = optional i read its2).
  { intros A i read. unfold optional. destruct (V' i) as [-> |[A1 A2]]; [reflexivity|]. destruct (values i its1) as [|x [|y l]]; cbn [length] in A1; try lia. destruct (values i its2) as [|x' [|y' l']]; cbn [length] in A2; try lia. reflexivity. }
  cbn [In] in I. destruct I as [E|[E|[E|[E|[E|[]]]]]]; injection E as <- <-.
  - change (option_map Create (read_create args1) = option_map Create (read_create args2)). unfold read_create. rewrite L1, L2. cbn [fst]. now rewrite !D, O.
  - change (option_map Insert (read_insert args1) = option_map Insert (read_insert args2)). unfold read_insert. rewrite L1, L2. cbn [fst]. now rewrite Sw, O.
  - change (option_map Check (read_check args1) = option_map Check (read_check args2)). unfold read_check. rewrite L1, L2. cbn [fst]. now rewrite !Sw, O.
  - change (option_map Bench (read_bench args1) = option_map Bench (read_bench args2)). unfold read_bench. rewrite L1, L2. cbn [fst]. now rewrite !D, Oo, O.
  - change (option_map Show (read_show args1) = option_map Show (read_show args2)). unfold read_show. rewrite L1, L2. cbn [fst]. now rewrite O.
Qed.
Print Assumptions C101_order.

(** ** Whole runs *)
(** Operands and what follows the options are arguments as given. *)
Lemma form_ne ds ts i v : form ds ts i v -> exists t r, ts = t :: r.
Proof. intro F. destruct F; eauto. Qed.
Lemma laid_tokens ds sub args its rest : laid ds sub args its rest ->
  (forall v, In (Operand v) its \/ In v rest -> In v args /\ forall t r, args = t :: r -> dashed t = true -> t <> [45; 45] -> In v r).
Proof.
  induction 1 as [sub|sub ts i v args its rest F H IH|sub i d c x body args its rest N0 T S Nx H IH|v args its rest D H IH|ops|v args D]; intros y I.
  - destruct I as [[]|[]].
  - assert (J : In (Operand y) its \/ In y rest) by (destruct I as [[E|I]|I]; [discriminate|auto|auto]). destruct (IH y J) as [A _]. split; [apply in_app_iff; auto|]. intros t r E _ _. destruct (form_ne _ _ _ _ F) as (t' & r' & ->). cbn [app] in E. injection E as <- <-. apply in_app_iff. auto.
  - assert (J : In (Operand y) its \/ In y rest) by (destruct I as [[E|I]|I]; [discriminate|auto|auto]). destruct (IH y J) as [_ A]. assert (B : In y args). { apply (A (45 :: x :: body) args eq_refl eq_refl). intro E. injection E as E _. contradiction. }
    split; [now right|]. intros t r E _ _. injection E as <- <-. exact B.
  - assert (J : y = v \/ In y args). { destruct I as [[E|I]|I]; [injection E as <-; auto|right; apply (IH y); auto|right; apply (IH y); auto]. } split; [destruct J as [-> |J]; [now left|now right]|]. intros t r E Dt _. injection E as <- <-. congruence.
  - destruct I as [I|[]]. apply in_map_iff in I as (z & E & I). injection E as <-. split; [now right|]. intros t r E _ Nt. injection E as <- <-. contradiction.
  - destruct I as [[]|I]. split; [exact I|]. intros t r E Dt _. injection E as <- <-. congruence.
Qed.
Lemma headed_in argv v j name args t : headed argv v j name args -> In t args -> In t argv.
Proof. intros (top & Ld & _ & _) I. apply (laid_tokens _ _ _ _ _ Ld t). right. now right. Qed.
Lemma named_in its l t : named its l -> In t l -> In (Operand t) its.
Proof. intros H I. apply (in_map Operand) in I. unfold named in H. rewrite <- H in I. now apply filter_In in I. Qed.
(** A run changes at most one file, which the command line names, and only create and insert do. *)
Theorem C101_touch o w argv w' e : main o w argv w' e -> w' = w \/ exists r p, e = Wrote r /\ In p argv /\ forall q, q <> p -> w' q = w q.
Proof.
  intros [N0|a c w1 r R C E|a c w1 r R C E| | |]; try (left; reflexivity); right; destruct a as [v j cm]; cbn [ar_command] in C; subst cm.
  - exists r, (ca_file c). split; [reflexivity|]. destruct (C47_create _ _ _ _ _ _ _ _ _ _ E) as [A _]. split; [|exact A]. apply C101_create in R as (args & its & H & S & _ & _ & _ & _ & O & _). apply (headed_in _ _ _ _ _ _ H), (laid_tokens _ _ _ _ _ S). left. apply (named_in _ _ _ O). now left.
  - exists r, (ia_file c). split; [reflexivity|]. destruct (C47_insert _ _ _ _ _ _ _ _ _ _ _ E) as [A _]. split; [|exact A]. apply C101_insert in R as (args & its & H & S & _ & O & _). apply (headed_in _ _ _ _ _ _ H), (laid_tokens _ _ _ _ _ S). left. apply (named_in _ _ _ O). now left.
Qed.
Print Assumptions C101_touch.

(** Plain command lines. *)
Lemma absent_operands i l : absent i (map Operand l).
Proof. intros t I. apply in_map_iff in I as (x & E & _). discriminate. Qed.
Lemma named_operands l : named (map Operand l) l.
Proof. unfold named. induction l as [|x l IH]; [reflexivity|]. cbn [map filter]. now rewrite IH. Qed.
Lemma laid_operands ds l : Forall (fun t => dashed t = false) l -> laid ds false l (map Operand l) [].
Proof. induction 1; cbn [map]; [constructor|now constructor]. Qed.
Lemma headed_plain name args : dashed (bytes_of name) = false -> headed (bytes_of name :: args) false 2 name args.
Proof. intro D. exists []. split; [now constructor|]. split; [constructor; intros t []|]. apply ch_default; [intros t []|reflexivity]. Qed.
Definition plain (t : list N) : Prop := dashed t = false /\ utf8 t.
Lemma reads_create f ds : dashed f = false -> f <> [] -> Forall plain ds -> read_args (bytes_of "create" :: f :: ds) =
  Some {| ar_verbose := false; ar_jobs := 2; ar_command := Create {| ca_version := 2; ca_capacity := 10000; ca_probability := 4576918229304087675; ca_optimize := 0; ca_file := f; ca_dataset := ds |} |}.
Proof.
  intros Df Nf P. apply C101_create. exists (f :: ds), (map Operand (f :: ds)). cbn [ca_version ca_capacity ca_probability ca_optimize ca_file ca_dataset].
  split; [now apply headed_plain|]. split; [apply laid_operands; constructor; [exact Df|eapply Forall_impl; [|exact P]; intros t [A _]; exact A]|].
  split; [apply ch_default; [apply absent_operands|vm_compute; reflexivity]|]. split; [apply ch_default; [apply absent_operands|vm_compute; reflexivity]|]. split; [apply ch_default; [apply absent_operands|vm_compute; reflexivity]|]. split; [apply ch_default; [apply absent_operands|vm_compute; reflexivity]|].
  split; [apply named_operands|]. split; [exact Nf|]. eapply Forall_impl; [|exact P]. intros t [_ A]. exact A.
Qed.
Lemma reads_verify f ds : Forall plain (f :: ds) -> read_args (bytes_of "check" :: bytes_of "--verify" :: f :: ds) =
  Some {| ar_verbose := false; ar_jobs := 2; ar_command := Check {| ka_stdin := false; ka_silent := false; ka_verify := true; ka_file := f; ka_inputs := ds |} |}.
Proof.
  intros P. apply C101_check. exists (bytes_of "--verify" :: f :: ds), (Given 2 [] :: map Operand (f :: ds)). cbn [ka_stdin ka_silent ka_verify ka_file ka_inputs].
  split; [now apply headed_plain|]. split. { apply (l_form check_decls false [bytes_of "--verify"] 2 [] (f :: ds)); [|apply laid_operands; eapply Forall_impl; [|exact P]; intros t [A _]; exact A]. exact (f_switch_long check_decls 2 (nth 2 check_decls {| d_short := None; d_long := []; d_takes := false |}) eq_refl eq_refl). }
  assert (Ab : forall i, i <> 2%nat -> absent i (Given 2 [] :: map Operand (f :: ds))). { intros i Ni t [E|I]; [injection E as E _; congruence|now apply (absent_operands i (f :: ds) t)]. }
  split; [constructor; now apply Ab|]. split; [constructor; now apply Ab|]. split; [apply (tu_on 2 _ []), (on 2 _ [] [] (map Operand (f :: ds))); [reflexivity|intros t []|apply absent_operands]|]. split; [apply named_operands|]. eapply Forall_impl; [|exact P]. intros t [_ A]. exact A.
Qed.
(** Two runs: a filter made from files without any option, then verified against the same files: nothing is reported missing. *)
Theorem C101_verify o o' w w' w'' f ds ls e out r : libm_ln2_sq (os_libm o) -> libm_ln_range (os_libm o) -> os_hasher o' = os_hasher o -> fs_bytes w -> file_lines w ds ls -> ds <> [] -> ~ In f ds -> f <> [] -> Forall plain (f :: ds) ->
  (forall g, create_filter (os_build o) (os_libm o) (os_hasher o) (os_par o) w 2 {| ca_version := 2; ca_capacity := 10000; ca_probability := 4576918229304087675; ca_optimize := 0; ca_file := f; ca_dataset := ds |} = Ok g -> len (bf_write g) <= os_room o) -> os_room o < 2 ^ 61 ->
  main o w (bytes_of "create" :: f :: ds) w' e -> e = Wrote (Ok tt) -> main o' w' (bytes_of "check" :: bytes_of "--verify" :: f :: ds) w'' (Checked out r) ->
  r = Ok tt /\ out = [] /\ w'' = w'.
Proof.
  intros A1 A2 Hh B Fl Nd Nin Nf P Room R61 M1 -> M2. apply Forall_cons_iff in P as [Pf P]. pose proof (reads_create f ds (proj1 Pf) Nf P) as R1. pose proof (reads_verify f ds (Forall_cons _ Pf P)) as R2.
  remember (Wrote (Ok tt)) as e1 eqn:E1. destruct M1 as [N0|a c w1 r1 R C E|a c w1 r1 R C E|a c out1 r1 R C E|a c R C|a p R C]; try discriminate; rewrite R1 in R; injection R as <-; cbn [ar_command ar_jobs] in *; [|discriminate]. injection C as <-. injection E1 as ->.
  remember (Checked out r) as e2 eqn:E2. destruct M2 as [N0|a c w2 r2 R C E'|a c w2 r2 R C E'|a c out2 r2 R C E'|a c R C|a p R C]; try discriminate. rewrite R2 in R. injection R as <-. cbn [ar_command ar_jobs] in *. injection C as <-. injection E2 as -> ->. rewrite Hh in E'.
  set (a := {| ca_version := 2; ca_capacity := 10000; ca_probability := 4576918229304087675; ca_optimize := 0; ca_file := f; ca_dataset := ds |}) in *. set (k := {| ka_stdin := false; ka_silent := false; ka_verify := true; ka_file := f; ka_inputs := ds |}) in *.
  assert (Hp : ca_probability a < two64) by reflexivity. assert (Hc : ca_capacity a < two64) by reflexivity.
  destruct (create_filter (os_build o) (os_libm o) (os_hasher o) (os_par o) w 2 a) as [g|x|] eqn:G; [| |]; [|unfold cmd_create in E; rewrite G in E; discriminate E..].
  assert (HB : bf_has_bits g). { destruct (create_inv _ _ _ _ _ _ a g B Hp Hc G) as (n & l & f0 & Hn & Ef & Pi & _). destruct (fresh_facts (os_hasher o) _ _ _ _ _ _ f0 Hn Hp Ef) as (W & _). destruct (parallel_sem _ _ _ _ _ _ _ _ _ W B Pi) as (_ & _ & _ & Fr & _).
    apply (bf_frame_has_bits _ _ Fr). apply bf_make_inv in Ef. destruct f0; destruct Ef as [V _]; [discriminate|exact I]. }
  assert (J2 : 2 <> 0) by discriminate. destruct (C63_create_check _ _ _ _ _ _ _ _ a _ g ls _ _ k _ _ A1 A2 B Hp Hc Fl Nin Nd G HB (Room g eq_refl) R61 E eq_refl eq_refl eq_refl J2 E') as (Q1 & Q2 & _). split; [exact Q1|]. split; [now apply Q2|reflexivity].
Qed.
Print Assumptions C101_verify.

(** What show prints suffices to make another filter of the same parameters, provided the printed probability reads back as itself. *)
Lemma read_version v : v = 1 \/ v = 2 -> read_ranged 256 (dec v) = Some v.
Proof. intros [-> | ->]; reflexivity. Qed.
Lemma digits_plain l : Forall digit l -> dashed l = false.
Proof. intro F. destruct l as [|c l]; [reflexivity|]. apply Forall_inv in F. unfold digit in F. unfold dashed. apply split45. lia. Qed.
Definition recreate (v c p : list N) (q : list N) : list (list N) := [bytes_of "create"; bytes_of "--version"; v; bytes_of "-c"; c; bytes_of "--probability=" ++ p; bytes_of "--"; q].
Theorem C101_recreate o w p c f v cap fpp f0 size : fs_bytes w -> w p = Some c -> utf8 p -> bf_from_reader (os_build o) c = Ok f -> cap < two64 -> fpp < two64 ->
  bf_with_version_capacity_opt (os_build o) (os_libm o) v cap fpp ONone = Ok f0 -> bf_wf f -> bf_same_frame f0 f -> bf_size_in_bytes (os_build o) f = Ok size -> read_f64 (os_float o fpp) = Some fpp ->
  exists tv tc tp more, main o w [bytes_of "show"; bytes_of "--"; p] w (Showed (Ok (bytes_of "File: " ++ p ++ [10] ++
      tab_line "version                                  : " tv ++ tab_line "capacity (desired number of elements)    : " tc ++ tab_line "n (estimated number of elements)         : " (dec (bf_count_estimate f)) ++
      tab_line "fpp (false positive probability)         : " tp ++ more))) /\
    forall q w1, q <> [] -> w1 q = None -> len (bf_write f0) <= os_room o -> exists w', main o w1 (recreate tv tc tp q) w' (Wrote (Ok tt)) /\ w' q = Some (bf_write f0) /\
      (forall pr, bf_from_reader pr (bf_write f0) = Ok f0) /\ bf_has_same_params f0 f = Ok true.
Proof.
  intros B Hp Up Hl Hc Hf E W Fr Hs Rf. destruct (fresh_facts (os_hasher o) _ _ _ _ _ _ f0 Hc Hf E) as (W0 & Rl & Cp & _ & K). assert (V : (v = 1 \/ v = 2) /\ bf_version f0 = v /\ bf_fpp f0 = fpp).
  { apply bf_make_inv in E. destruct f0 as [f0|f0]; destruct E as [-> E]; [apply v1_make_created in E; split; [auto|]; split; [reflexivity|exact (c1_fpp _ _ _ _ E)]|apply v2_make_created in E; split; [auto|]; split; [reflexivity|exact (cr_fpp _ _ _ _ E)]]. }
  destruct V as (V & Ev & Ef). pose proof (frame_version _ _ Fr) as Q1. pose proof (bf_frame_capacity _ _ Fr) as Q2. pose proof (frame_fpp _ _ Fr) as Q3. rewrite Ev in Q1. rewrite Cp in Q2. rewrite Ef in Q3.
  destruct (C59_show _ _ _ _ _ _ B Hp Hl Hs) as (s & Sh & S1 & S2 & S3 & S4 & _). exists (dec v), (dec cap), (os_float o fpp), (tab_line "Length of data                           : " (bz_text (sh_data s)) ++ tab_line "Size of bloom filter                     : " (bz_text (sh_size s))). split.
  - assert (Out : show_output (os_float o) (os_build o) w p p = Ok (bytes_of "File: " ++ p ++ [10] ++
      tab_line "version                                  : " (dec v) ++ tab_line "capacity (desired number of elements)    : " (dec cap) ++ tab_line "n (estimated number of elements)         : " (dec (bf_count_estimate f)) ++
      tab_line "fpp (false positive probability)         : " (os_float o fpp) ++ tab_line "Length of data                           : " (bz_text (sh_data s)) ++ tab_line "Size of bloom filter                     : " (bz_text (sh_size s)))).
    { unfold show_output. rewrite Sh. cbn [obind]. unfold show_text. rewrite S1, S2, S3, S4, Q1, Q2, Q3. reflexivity. }
    rewrite <- Out. apply (main_show o w _ {| ar_verbose := false; ar_jobs := 2; ar_command := Show p |} p); [|reflexivity]. apply C101_show. exists [bytes_of "--"; p], (map Operand [p]). split; [now apply headed_plain|]. split; [apply (l_end [] [p])|]. split; [apply named_operands|exact Up].
  - intros q w1 Nq Hq Room. set (a := {| ca_version := v; ca_capacity := cap; ca_probability := fpp; ca_optimize := 0; ca_file := q; ca_dataset := [] |}).
    assert (Rd : read_args (recreate (dec v) (dec cap) (os_float o fpp) q) = Some {| ar_verbose := false; ar_jobs := 2; ar_command := Create a |}).
    { apply C101_create. set (its := [Given 0 (dec v); Given 1 (dec cap); Given 2 (os_float o fpp); Operand q]). exists (tl (recreate (dec v) (dec cap) (os_float o fpp) q)), its. split; [now apply headed_plain|]. split.
      { set (nd := {| d_short := None; d_long := []; d_takes := false |}). cbn [tl recreate].
        apply (l_form create_decls false [bytes_of "--version"; dec v] 0 (dec v)); [exact (f_long_next create_decls 0 (nth 0 create_decls nd) (dec v) eq_refl eq_refl (digits_plain _ (proj1 (dec_spec v))))|].
        apply (l_form create_decls false [bytes_of "-c"; dec cap] 1 (dec cap)); [exact (f_short_next create_decls 1 (nth 1 create_decls nd) 99 (dec cap) eq_refl eq_refl eq_refl (digits_plain _ (proj1 (dec_spec cap))))|].
        apply (l_form create_decls false [bytes_of "--probability=" ++ os_float o fpp] 2 (os_float o fpp)); [exact (f_long_equals create_decls 2 (nth 2 create_decls nd) (os_float o fpp) eq_refl eq_refl)|]. apply (l_end create_decls [q]). }
      split; [apply (ch_given 0 _ _ its v (dec v)); [now apply values_one|now apply read_version]|]. split; [apply (ch_given 1 _ _ its cap (dec cap)); [now apply values_one|now apply read_dec]|].
      split; [apply (ch_given 2 _ _ its fpp (os_float o fpp)); [now apply values_one|exact Rf]|]. split; [apply ch_default; [now apply values_nil|reflexivity]|]. split; [reflexivity|]. split; [exact Nq|constructor]. }
    assert (Cf : create_filter (os_build o) (os_libm o) (os_hasher o) (os_par o) w1 2 a = Ok f0). { unfold create_filter, check_output. cbn [a ca_file ca_dataset ca_optimize ca_version ca_probability ca_capacity]. rewrite Hq. cbn [obind]. change (opt_of_u8 0) with (@Ok optlevel ONone). cbn [obind]. unfold bf_of_params. cbn [params_opt params_version params_new p_version p_capacity p_fpp p_opt]. now rewrite E. }
    exists (fs_set w1 q (bf_write f0)). split; [|split; [|split]].
    + apply (main_create o w1 _ _ a _ _ Rd eq_refl). unfold cmd_create. cbn [ar_jobs]. rewrite Cf. now apply save_ok.
    + unfold fs_set. now rewrite (proj2 (list_eqb_eq q q) eq_refl).
    + intro pr. now apply (bf_kept_roundtrip pr (os_hasher o) (os_libm o)).
    + now apply bf_frame_params.
Qed.
Print Assumptions C101_recreate.

(** The forms of a command line. *)
Example C101_forms : read_args (words ["-v"; "create"; "--probability"; "1e-3"; "-c=64"; "f"; "-O1"; "x"; "--"; "-y"]%string) =
    read_args (words ["--verbose"; "--jobs=2"; "create"; "f"; "-O"; "1"; "--capacity"; "+64"; "x"; "-p0.001"; "--"; "-y"]%string) /\
  read_args (words ["create"; "f"; "-c1"; "-c1"]%string) = None /\ read_args (words ["create"; "-p"; "-1"; "f"]%string) = None /\ read_args (words ["create"; "-p=-1"; "f"]%string) <> None /\
  read_args (words ["create"; "f"; "-v"]%string) = None /\ read_args (words ["create"; "-c"; "18446744073709551616"; "f"]%string) = None /\ read_args [bytes_of "insert"; [255]] = None /\ read_args [bytes_of "create"; [255]] <> None.
Proof. repeat (split; [vm_compute; (reflexivity || discriminate)|]). vm_compute. discriminate. Qed.
Example C101_numbers : number_of (bytes_of "-12.50e-1") true (- (1250 * powerRZ 10 (-3)))%R /\ nearest true (- (1250 * powerRZ 10 (-3)))%R (sf_of_bits 13831680355561635840).
Proof.
  assert (Nu : number_of (bytes_of "-12.50e-1") true (- (1250 * powerRZ 10 (-3)))%R).
  { apply (nu [45] true [49; 50] [46] [53; 48] [101; 45; 49] (-1) 1250); [constructor|split; [discriminate|split; [repeat (constructor; [unfold digit; lia|]); constructor|reflexivity]]|now left|]. apply (ex_some 101 [45] true [49] 1); [now left|constructor|]. split; [discriminate|]. split; [constructor; [unfold digit; lia|constructor]|reflexivity]. }
  split; [exact Nu|]. destruct (C101_float _ _ _ Nu) as (b & Rb & _ & H). assert (Q : read_f64 (bytes_of "-12.50e-1") = Some 13831680355561635840) by (vm_compute; reflexivity). rewrite Q in Rb. now injection Rb as <-.
Qed.
(** A run of create, then check --verify, on the three files of the other examples. *)
Definition here : outside := {| os_build := Release; os_libm := ref_libm; os_hasher := fun _ => 0; os_par := None; os_wyhash := fun _ => 0; os_draws := {| dr_roll := fun _ _ => 0; dr_key := fun _ _ _ => 0 |}; os_shuffle := fun l => l; os_stdin := []; os_room := 100000; os_float := fun x => if x =? p001 then bytes_of "0.01" else dec x |}.
Definition from_abc : list (list N) := [bytes_of "create"; bytes_of "--version=1"; [1]; pa; pb; pc].
Example C101_run : exists w' c f, main here txt from_abc w' (Wrote (Ok tt)) /\ w' [1] = Some c /\ bf_from_reader Release c = Ok f /\ bf_capacity f = 3 /\ bf_contains_bytes (fun _ => 0) f db = Ok true /\ w' pa = txt pa.
Proof.
  assert (R : read_args from_abc = Some {| ar_verbose := false; ar_jobs := 2; ar_command := Create {| ca_version := 1; ca_capacity := 10000; ca_probability := 4576918229304087675; ca_optimize := 0; ca_file := [1]; ca_dataset := [pa; pb; pc] |} |}) by (vm_compute; reflexivity).
  eexists. eexists. eexists. split; [eapply main_create; [exact R|reflexivity|]; vm_compute; reflexivity|]. split; [vm_compute; reflexivity|]. split; [vm_compute; reflexivity|]. split; [vm_compute; reflexivity|]. split; vm_compute; reflexivity.
Qed.
(** A filter of four entries and probability 0.01, shown and made anew. *)
Example C101_again : exists tv tc tp, read_f64 (os_float here p001) = Some p001 /\ bf_with_version_capacity_opt Release ref_libm 1 4 p001 ONone = Ok (V1 e0) /\ bf_same_frame (V1 e0) (V1 e2) /\
  recreate tv tc tp [2] = words ["create"; "--version"; "1"; "-c"; "4"; "--probability=0.01"; "--"]%string ++ [[2]] /\ exists w', main here shelf (recreate tv tc tp [2]) w' (Wrote (Ok tt)) /\ w' [2] = Some (bf_write (V1 e0)).
Proof.
  exists (dec 1), (dec 4), (bytes_of "0.01"). split; [vm_compute; reflexivity|]. split; [vm_compute; reflexivity|]. split; [vm_compute; tauto|]. split; [vm_compute; reflexivity|]. eexists. split.
  - assert (R : read_args (recreate (dec 1) (dec 4) (bytes_of "0.01") [2]) = Some {| ar_verbose := false; ar_jobs := 2; ar_command := Create {| ca_version := 1; ca_capacity := 4; ca_probability := p001; ca_optimize := 0; ca_file := [2]; ca_dataset := [] |} |}) by (vm_compute; reflexivity).
    eapply main_create; [exact R|reflexivity|]. vm_compute. reflexivity.
  - vm_compute. reflexivity.
Qed.
(** The hypotheses of C101_verify hold of the three files. *)
Succeed Definition C101_verify_case : fs_bytes txt /\ file_lines txt [pa; pb; pc] [da; db; dc] /\ ~ In [1] [pa; pb; pc] /\ forallb (fun t => negb (dashed t) && utf8_valid t) [[1]; pa; pb; pc] = true /\
  exists g, create_filter Release ref_libm (fun _ => 0) None txt 2 {| ca_version := 2; ca_capacity := 10000; ca_probability := 4576918229304087675; ca_optimize := 0; ca_file := [1]; ca_dataset := [pa; pb; pc] |} = Ok g /\ (len (bf_write g) <=? os_room here) = true :=
  ltac:(split; [exact txt_bytes|]; split; [exact txt_abc|]; split; [not_in|]; split; [vm_compute; reflexivity|]; eexists; split; [vm_compute; reflexivity|]; vm_compute; reflexivity).
