(** C106: integers, options and structures as entries. *)
From Coq Require Import Lia.
From Verif Require Import M_Base M_Hash M_Util M_V2 M_RefLibm Spec_Bits Spec_Hash Spec_V2 Spec_V2Hist Spec_Lines Spec_Keys P_Base P_Hash P_V2Props Ex_Base Ex_Wyhash Prop_Hash.
Open Scope N_scope.

Lemma num_of_le l : num l = of_le l.
Proof. induction l as [|b l IH]; [reflexivity|]. cbn [num fold_right of_le]. now rewrite <- IH. Qed.
Lemma le_word n x : x < 256 ^ N.of_nat n -> word n x (le_bytes n x).
Proof. intro H. split; [apply le_bytes_length|split; [apply le_bytes_ok|]]. rewrite num_of_le. now apply of_le_le_bytes. Qed.
Lemma word_unique n x l m : word n x l -> word n x m -> l = m.
Proof. intros (L & B & E) (L' & B' & E'). rewrite num_of_le in E, E'. rewrite <- (le_bytes_of_le l B), <- (le_bytes_of_le m B'), L, L', E, E'. reflexivity. Qed.
Lemma word_of n x y l : word n x l -> word n y l -> x = y.
Proof. intros (_ & _ & E) (_ & _ & E'). congruence. Qed.

Lemma app_eq_len {A} (a b c d : list A) : length a = length c -> a ++ b = c ++ d -> a = c /\ b = d.
Proof.
  revert c. induction a as [|x a IH]; intros [|y c] L E; try discriminate; [now split|]. cbn in L, E. injection E as -> E.
  destruct (IH c ltac:(lia) E) as (-> & ->). now split.
Qed.
Lemma char_not_255 c : utf8_char c -> ~ In 255 c.
Proof. intros C I. destruct C; cbn in I; intuition lia. Qed.
Lemma text_not_255 s : utf8 s -> ~ In 255 s.
Proof. intros (cs & F & ->) H. apply in_concat in H as (c & Hc & H). rewrite Forall_forall in F. now apply (char_not_255 c (F c Hc)). Qed.
Lemma split_255 (a b x y : list byte) : ~ In 255 a -> ~ In 255 b -> a ++ 255 :: x = b ++ 255 :: y -> a = b /\ x = y.
Proof.
  revert b. induction a as [|p a IH]; intros [|q b] Ha Hb E; cbn in E.
  - injection E as ->. now split.
  - injection E as <- E. exfalso. apply Hb. now left.
  - injection E as -> E. exfalso. apply Ha. now left.
  - injection E as -> E. destruct (IH b) as (-> & ->); [intro; apply Ha; now right|intro; apply Hb; now right|exact E|]. now split.
Qed.

(** ** What is fed *)
(** The model feeds the bytes of the specification, and no others. *)
Theorem C106_fed t v : typed t v -> forall l, fed v l <-> l = concat (std_hash (as_key v)).
Proof.
  induction 1 as [w v Hv|b Hb Hl|b Hb|t|t v Tv IH|  |t r v w Tv IHv Tr IHr]; intro l; cbn [as_key std_hash concat]; rewrite ?app_nil_r.
  - split; [intro F; inversion_clear F as [? ? ? W| | | | | |]; exact (word_unique _ _ _ _ W (le_word _ _ Hv))|intros ->; constructor; now apply le_word].
  - change (2 ^ 64) with (256 ^ N.of_nat 8) in Hl. split.
    + intro F; inversion_clear F as [|? m W| | | | |]. now rewrite (word_unique _ _ _ _ W (le_word _ _ Hl)).
    + intros ->. constructor. now apply le_word.
  - split; [intro F; now inversion_clear F|intros ->; constructor].
  - split; [intro F; inversion_clear F as [| | |? W| | |]; exact (word_unique _ _ _ _ W (le_word 8 0 eq_refl))|intros ->; constructor; now apply le_word].
  - split.
    + intro F; inversion_clear F as [| | | |? m n W F'| |]. apply IH in F'. now rewrite (word_unique _ _ _ _ W (le_word 8 1 eq_refl)), F'.
    + intros ->. apply (fed_some v (le_bytes 8 1)); [now apply le_word|now apply IH].
  - split; [intro F; now inversion_clear F|intros ->; constructor].
  - rewrite concat_app. split.
    + intro F; inversion_clear F as [| | | | | |? ? m n Fv Fr]. apply IHv in Fv. apply IHr in Fr. now subst.
    + intros ->. constructor; [now apply IHv|now apply IHr].
Qed.

(** No encoding of a value is the beginning of that of another value of the same type. *)
Theorem C106_prefix t a b : typed t a -> typed t b -> forall x y,
  concat (std_hash (as_key a)) ++ x = concat (std_hash (as_key b)) ++ y -> a = b /\ x = y.
Proof.
  intros Ta. revert b. induction Ta as [w v Hv|s Hb Hl|s Hb|t|t v Tv IH| |t r v w Tv IHv Tr IHr]; intros b Tb x y E;
    inversion Tb as [w' v' Hv'|s' Hb' Hl'|s' Hb'|t'|t' v' Tv'|  |t' r' v' w' Tv' Tr']; subst; cbn [as_key std_hash concat] in E; rewrite ?app_nil_r in E.
  - apply app_eq_len in E as (E & ->); [|now rewrite !le_bytes_length]. split; [|reflexivity]. f_equal. apply (f_equal of_le) in E. now rewrite !of_le_le_bytes in E by assumption.
  - rewrite <- !app_assoc in E. apply app_eq_len in E as (E & F); [|now rewrite !le_bytes_length]. apply (f_equal of_le) in E.
    change (2 ^ 64) with (256 ^ N.of_nat 8) in Hl, Hl'. rewrite !of_le_le_bytes in E by assumption. apply app_eq_len in F as (-> & ->); [now split|]. unfold len in E. lia.
  - rewrite <- !app_assoc in E. cbn [app] in E. apply split_255 in E as (-> & ->); [now split|now apply text_not_255..].
  - apply app_eq_len in E as (_ & ->); [now split|reflexivity].
  - rewrite <- app_assoc in E. apply app_eq_len in E as (E & _); [|reflexivity]. vm_compute in E. discriminate.
  - rewrite <- app_assoc in E. apply app_eq_len in E as (E & _); [|reflexivity]. vm_compute in E. discriminate.
  - rewrite <- !app_assoc in E. apply app_eq_len in E as (_ & E); [|reflexivity]. destruct (IH _ Tv' _ _ E) as (-> & ->). now split.
  - now split.
  - rewrite !concat_app, <- !app_assoc in E. destruct (IHv _ Tv' _ _ E) as (-> & E'). destruct (IHr _ Tr' _ _ E') as (-> & ->). now split.
Qed.

(** Values of the same type: equal hash values come from equal values or from a collision of the hasher. Short byte strings and texts
    are not hashed at all (C25). *)
Definition hashed (v : value) : Prop := match v with VBytes b | VText b => 8 < len b | _ => True end.
Theorem C106_collision wy t a b : typed t a -> typed t b -> hashed a -> hashed b -> hash_pop wy (as_key a) = hash_pop wy (as_key b) ->
  a = b \/ exists ws ws', concat ws <> concat ws' /\ w64 (wy ws) = w64 (wy ws').
Proof.
  intros Ta Tb Ha Hb E.
  assert (G : hash_pop wy (as_key a) = wy_finish wy (std_hash (as_key a)) -> hash_pop wy (as_key b) = wy_finish wy (std_hash (as_key b)) ->
    a = b \/ exists ws ws', concat ws <> concat ws' /\ w64 (wy ws) = w64 (wy ws')).
  { intros Ea Eb. destruct (list_eq_dec N.eq_dec (concat (std_hash (as_key a))) (concat (std_hash (as_key b)))) as [C|C].
    - left. exact (proj1 (C106_prefix t a b Ta Tb [] [] ltac:(now rewrite C))).
    - right. eexists _, _. split; [exact C|]. unfold wy_finish in Ea, Eb. now rewrite <- Ea, <- Eb. }
  destruct Ta; inversion Tb; subst; try (apply G; reflexivity); clear G; cbn [as_key hash_pop] in E; unfold hash_slice in E; cbn [hashed] in Ha, Hb;
    rewrite !(proj2 (N.ltb_lt _ _)) in E by assumption; unfold wy_hash_one, wy_finish in E;
    match type of E with w64 (wy [?p]) = w64 (wy [?q]) => destruct (list_eq_dec N.eq_dec p q) as [->|C]; [now left|right; exists [p], [q]; split; [cbn [concat]; now rewrite !app_nil_r|exact E]] end.
Qed.

(** ** Other machines *)
(** hash.rs:57-61, v2.rs:97-98: byte strings and texts have the same hash value on every target; the model describes 64-bit little-endian ones. *)
Lemma std_hash_here k : std_hash_on here_target k = std_hash k.
Proof. revert k. fix IH 1. intros [w v|b|b|b|b|[k|]|ws]; try reflexivity. cbn [std_hash std_hash_on]. now rewrite IH. Qed.
Theorem C106_here pr wy f k : hash_pop wy (key_on here_target k) = hash_pop wy k /\ v2_contains wy f (key_on here_target k) = v2_contains wy f k /\
  v2_insert pr wy f (key_on here_target k) = v2_insert pr wy f k.
Proof.
  assert (E : hash_pop wy (key_on here_target k) = hash_pop wy k) by (destruct k; cbn [key_on hash_pop]; rewrite ?std_hash_here; reflexivity).
  split; [exact E|]. unfold v2_contains, v2_insert, v2_build_index_iter, it_init_with_hashable. rewrite E. now split.
Qed.

(** A filter filled here and queried on a machine of another byte order or pointer size: byte strings, texts and one-byte integers are found. *)
Definition portable (k : key) : Prop := match k with KSlice _ | KVec _ | KStr _ | KString _ | KInt 1 _ => True | _ => False end.
Theorem C106_portable wy L f K k tg : v2_hist wy L f K -> K k -> portable k -> v2_contains wy f (key_on tg k) = Ok true.
Proof.
  intros H Hk P. assert (E : hash_pop wy (key_on tg k) = hash_pop wy k).
  { destruct k as [[|[|w]] v| | | | | |]; try contradiction; try reflexivity. cbn [key_on hash_pop std_hash_on]. unfold ne_bytes. destruct (tg_big tg); reflexivity. }
  pose proof (hist_contains wy L f K k H Hk) as G. unfold v2_contains, v2_build_index_iter, it_init_with_hashable in *. now rewrite E.
Qed.
(** Other integers are not, after a change of byte order; options are not, after a change of pointer size. *)
Theorem C106_portable_refuted : exists f g, v2_make Release ref_libm 4 p001 ONone = Ok fn0 /\
  v2_insert Release wy_ref fn0 (KInt 4 1) = (f, Ok true) /\ v2_insert Release wy_ref f (KOpt (Some (KStr [97]))) = (g, Ok true) /\
  v2_contains wy_ref g (KInt 4 1) = Ok true /\ v2_contains wy_ref g (key_on {| tg_big := true; tg_ptr := 8 |} (KInt 4 1)) = Ok false /\
  v2_contains wy_ref g (KOpt (Some (KStr [97]))) = Ok true /\ v2_contains wy_ref g (key_on {| tg_big := false; tg_ptr := 4 |} (KOpt (Some (KStr [97])))) = Ok false.
Proof.
  exists (ins wy_ref fn0 (KInt 4 1)), (ins wy_ref (ins wy_ref fn0 (KInt 4 1)) (KOpt (Some (KStr [97])))).
  split; [exact fn0_eq|]. repeat split; vm_compute; reflexivity.
Qed.

(** The structure of hash.rs:20-31 holding -1 and "a", and one holding -1 and "a\0": different entries, unlike the texts themselves. *)
Definition my_struct : ty := TField (TInt 8) (TField TText TEnd).
Definition my_a : value := VField (VInt 8 18446744073709551615) (VField (VText [97]) VEnd).
Definition my_b : value := VField (VInt 8 18446744073709551615) (VField (VText [97; 0]) VEnd).
Lemma small_utf8 b : Forall (fun a => a <= 127) b -> utf8 b.
Proof. induction 1 as [|a b Ha Hb (cs & F & ->)]; [now exists []|]. exists ([a] :: cs). split; [constructor; [now constructor|exact F]|reflexivity]. Qed.
Example C106_example : typed my_struct my_a /\ typed my_struct my_b /\ hashed my_a /\ fed my_a [255; 255; 255; 255; 255; 255; 255; 255; 97; 255] /\
  hash_pop wy_ref (as_key my_a) <> hash_pop wy_ref (as_key my_b) /\ hash_pop wy_ref (KStr [97]) = hash_pop wy_ref (KStr [97; 0]) /\
  fed (VSome (VBytes [1; 2])) [1; 0; 0; 0; 0; 0; 0; 0; 2; 0; 0; 0; 0; 0; 0; 0; 1; 2] /\
  hash_pop wy_ref (KOpt (Some (KInt 4 7))) <> hash_pop wy_ref (KInt 4 7) /\
  v2_contains wy_ref (ins wy_ref fn0 (as_key my_a)) (as_key my_a) = Ok true /\ v2_contains wy_ref (ins wy_ref fn0 (as_key my_a)) (as_key my_b) = Ok false.
Proof.
  assert (A : typed my_struct my_a). { repeat constructor. apply small_utf8. repeat constructor; discriminate. }
  assert (B : typed my_struct my_b). { repeat constructor. apply small_utf8. repeat constructor; discriminate. }
  split; [exact A|split; [exact B|split; [exact I|]]]. split; [apply (C106_fed _ _ A); reflexivity|].
  split; [vm_compute; discriminate|split; [vm_compute; reflexivity|]].
  split. { apply (fed_some _ [1; 0; 0; 0; 0; 0; 0; 0]); [split; [reflexivity|split; [repeat constructor|reflexivity]]|]. apply (fed_bytes [1; 2] [2; 0; 0; 0; 0; 0; 0; 0]). split; [reflexivity|split; [repeat constructor|reflexivity]]. }
  split; [vm_compute; discriminate|]. split; vm_compute; reflexivity.
Qed.
