(** The v1 filter: what insert and contains compute. *)
From Coq Require Import Lia.
From Verif Require Import M_V1 Spec_Bits Spec_Hash Spec_V2 Spec_V1 P_Base P_BitSet P_Hash.
Open Scope N_scope.

(** ** one bit *)
Lemma mask64 i : w64 (N.shiftl 1 (i mod 64)) = N.shiftl 1 (i mod 64).
Proof.
  apply w64_id. rewrite N.shiftl_1_l. change two64 with (2 ^ 64). apply N.pow_lt_mono_r; [lia|]. now apply N.mod_lt.
Qed.
Lemma v1_get_spec b i : v1_get_nth_bit b i = if i <? 64 * len b then Ok (bit 64 b i) else Panic.
Proof.
  unfold v1_get_nth_bit. rewrite mask64, bit_getN. destruct (N.ltb_spec i (64 * len b)) as [H|H].
  - apply div_lt_len in H; [|discriminate]. apply getN_Some in H as [x E]. rewrite E. now rewrite mask_test.
  - assert (E : getN b (i / 64) = None). { apply getN_None. apply N.div_le_lower_bound; auto. discriminate. }
    now rewrite E.
Qed.

(** ** the insertion loop *)
Definition in_range64 (b : list N) (l : list N) : Prop := Forall (fun i => i < 64 * len b) l.
Definition no_err (l : list (outcome N)) : Prop := forall e, ~ In (Err e) l.

Record loop_effect (pr : profile) (full : bool) (bits : list N) (new : bool) (idxs : list (outcome N)) (bits' : list N) (r : outcome bool) : Prop := {
  le_len : len bits' = len bits;
  le_words : words_ok 64 bits -> words_ok 64 bits';
  le_mono : forall i, bit 64 bits i = true -> bit 64 bits' i = true;
  le_cases : match r with
    | Ok new' => exists l, idxs = map Ok l /\ in_range64 bits l /\ new' = new || negb (forallb (bit 64 bits) l) /\
        (forall j, bit 64 bits' j = bit 64 bits j || existsb (N.eqb j) l) /\
        (forallb (bit 64 bits) l = true -> bits' = bits) /\ (full = true -> forallb (bit 64 bits) l = true)
    | Err e => e = TooManyEntries /\ full = true /\ bits' = bits /\ exists i, In (Ok i) idxs /\ bit 64 bits i = false
    | Panic => ~ exists l, idxs = map Ok l /\ in_range64 bits l
    end
}.

Lemma v1_loop_sem pr full idxs : forall bits new bits' r, no_err idxs ->
  v1_insert_loop pr full bits new idxs = (bits', r) -> loop_effect pr full bits new idxs bits' r.
Proof.
  induction idxs as [|x idxs IH]; intros bits new bits' r NE E; cbn [v1_insert_loop] in E.
  - apply pair_inj in E as [<- <-]. constructor; auto. exists []. split; [reflexivity|]. split; [constructor|].
    split; [cbn; now rewrite orb_false_r|]. split; [intro; cbn; now rewrite orb_false_r|]. split; auto.
  - destruct x as [i|e|].
    2:{ destruct (NE e). now left. }
    2:{ apply pair_inj in E as [<- <-]. constructor; auto. intros (l & H & _). destruct l; discriminate. }
    assert (NE' : no_err idxs) by (intros e He; apply (NE e); now right).
    destruct (getN bits (i / 64)) as [entry|] eqn:G.
    2:{ apply pair_inj in E as [<- <-]. constructor; auto. intros (l & H & R). destruct l as [|j l]; [discriminate|].
        cbn in H. injection H as -> _. inversion R as [|? ? Rj _]; subst. apply div_lt_len in Rj; [|discriminate].
        apply getN_Some in Rj as [y Y]. congruence. }
    assert (Hi : i < 64 * len bits). { apply getN_lt in G. pose proof (N.div_mod i 64). pose proof (N.mod_lt i 64). lia. }
    cbv zeta in E. rewrite mask64, mask_test in E. assert (Bi : bit 64 bits i = N.testbit entry (i mod 64)) by (rewrite bit_getN, G; reflexivity).
    rewrite <- Bi in E. destruct (bit 64 bits i) eqn:OLD; cbn [negb andb] in E.
    + (* the bit was set: nothing changes *)
      assert (S : setN bits (i / 64) (N.lor entry (N.shiftl 1 (i mod 64))) = bits).
      { rewrite lor_set_id by auto. now apply setN_same. }
      rewrite S in E. rewrite v1_get_spec in E. destruct (N.ltb_spec i (64 * len bits)); [|lia]. rewrite OLD in E.
      assert (E' : v1_insert_loop pr full bits new idxs = (bits', r)) by (destruct pr; exact E).
      apply IH in E'; auto. destruct E' as [A B C D]. constructor; auto. destruct r as [n|e|].
      * destruct D as (l & -> & R & -> & Bt & Id & Fl). exists (i :: l). split; [reflexivity|]. split; [constructor; auto|].
        cbn [forallb existsb]. rewrite OLD. cbn [andb]. split; auto. split; auto.
        intro j. rewrite Bt. destruct (N.eqb_spec j i); auto. subst j. now rewrite OLD.
      * destruct D as (-> & -> & -> & j & Hj & Hb). split; auto. split; auto. split; auto. exists j. split; auto. now right.
      * intros (l & H1 & R). apply D. destruct l as [|j l]; [discriminate|]. injection H1 as _ ->. exists l. split; auto. now inversion R.
    + destruct full.
      * cbn [negb andb] in E. apply pair_inj in E as [<- <-]. constructor; auto. split; auto. split; auto. split; auto. exists i. split; auto. now left.
      * cbn [negb andb] in E. set (b1 := setN bits (i / 64) (N.lor entry (N.shiftl 1 (i mod 64)))) in *.
        assert (L1 : len b1 = len bits) by apply setN_len.
        assert (B1 : forall j, bit 64 b1 j = bit 64 bits j || (j =? i)) by (intro j; apply bit_set; auto; discriminate).
        rewrite v1_get_spec, L1, B1, N.eqb_refl, orb_true_r in E. destruct (N.ltb_spec i (64 * len bits)); [|lia].
        assert (E' : v1_insert_loop pr false b1 true idxs = (bits', r)) by (destruct pr; exact E).
        apply IH in E'; auto. destruct E' as [A B C D]. rewrite L1 in A. constructor; auto.
        -- intro W. apply B. apply Forall_setN; auto. cbv beta. apply (lor_lt _ _ 64); [exact (Forall_getN _ _ _ _ W G)|].
           rewrite (N.shiftl_1_l (i mod 64)). apply N.pow_lt_mono_r; [lia|]. now apply N.mod_lt.
        -- intros j Hj. apply C. now rewrite B1, Hj.
        -- destruct r as [n|e|].
           ++ destruct D as (l & -> & R & -> & Bt & Id & Fl). exists (i :: l). split; [reflexivity|]. split; [constructor; auto|].
              { unfold in_range64 in R. now rewrite L1 in R. }
              cbn [forallb existsb]. rewrite OLD. cbn [andb negb orb]. split; [now rewrite orb_true_r|]. split; [|split; discriminate].
              intro j. rewrite Bt, B1. now rewrite orb_assoc.
           ++ destruct D as (_ & ? & _). discriminate.
           ++ intros (l & H1 & R). apply D. destruct l as [|j l]; [discriminate|]. injection H1 as _ ->. exists l. split; auto.
              inversion R; subst. unfold in_range64. now rewrite L1.
Qed.

(** ** the positions seen by the loops *)
Lemma fp_list_wf f d : v1_wf f ->
  fp_list (fp_fingerprint (v1_fp f) d) =
    if v1_bit_size f =? 0 then (if v1_n_hash f =? 0 then [] else [Panic]) else map Ok (v1_positions f d).
Proof.
  intro W. rewrite (w1_fp f W). destruct (N.eqb_spec (v1_bit_size f) 0) as [E|E].
  - rewrite E. apply fp_list_zero_m.
  - apply fp_list_spec; [apply W|auto].
Qed.
Lemma fp_list_no_err f d : v1_wf f -> no_err (fp_list (fp_fingerprint (v1_fp f) d)).
Proof.
  intros W e H. rewrite fp_list_wf in H by auto. destruct (v1_bit_size f =? 0).
  - destruct (v1_n_hash f =? 0); [destruct H|destruct H as [H|[]]; discriminate].
  - apply in_map_iff in H as (x & H & _). discriminate.
Qed.
Lemma map_Ok_inj (a b : list N) : map (@Ok N) a = map Ok b -> a = b.
Proof. revert b. induction a; destruct b; cbn; intro H; try discriminate; auto. injection H as -> H. f_equal. auto. Qed.
Lemma positions_nil f d : v1_positions f d = [] <-> v1_n_hash f = 0.
Proof.
  unfold v1_positions. pose proof (dcso_positions_length (v1_n_hash f) (v1_bit_size f) d) as L. split; intro H.
  - rewrite H in L. cbn in L. lia.
  - rewrite H. reflexivity.
Qed.
Lemma fp_list_Ok_inv f d l : v1_wf f -> fp_list (fp_fingerprint (v1_fp f) d) = map Ok l -> l = v1_positions f d.
Proof.
  intros W H. rewrite fp_list_wf in H by auto. destruct (v1_bit_size f =? 0).
  - destruct (N.eqb_spec (v1_n_hash f) 0).
    + destruct l; [|discriminate]. symmetry. now apply positions_nil.
    + destruct l; discriminate.
  - symmetry. now apply map_Ok_inj.
Qed.
Lemma fp_list_usable f d : v1_wf f -> v1_usable f ->
  fp_list (fp_fingerprint (v1_fp f) d) = map Ok (v1_positions f d) /\ in_range64 (v1_bitset f) (v1_positions f d).
Proof.
  intros W [U1 U2]. rewrite fp_list_wf by auto. destruct (N.eqb_spec (v1_bit_size f) 0) as [E|E].
  - destruct (N.eqb_spec (v1_n_hash f) 0) as [H|H]; [|destruct (U2 H); auto].
    replace (v1_positions f d) with (@nil N) by (symmetry; now apply positions_nil). split; [reflexivity|constructor].
  - split; auto. apply Forall_forall. intros x Hx. apply dcso_positions_lt in Hx; auto. lia.
Qed.

Lemma fp_list_good f d : v1_wf f -> (v1_n_hash f <> 0 -> v1_bit_size f <> 0) -> fp_list (fp_fingerprint (v1_fp f) d) = map Ok (v1_positions f d).
Proof.
  intros W U2. rewrite fp_list_wf by auto. destruct (N.eqb_spec (v1_bit_size f) 0) as [E|E]; auto.
  destruct (N.eqb_spec (v1_n_hash f) 0) as [H|H]; [|destruct (U2 H); auto].
  replace (v1_positions f d) with (@nil N) by (symmetry; now apply positions_nil). reflexivity.
Qed.

(** ** insert *)
Lemma v1_frame_refl f : v1_same_frame f f. Proof. repeat split. Qed.
Lemma v1_frame_trans f g h : v1_same_frame f g -> v1_same_frame g h -> v1_same_frame f h.
Proof. intros (A&B&C&D&E&F&G) (A'&B'&C'&D'&E'&F'&G'). repeat split; congruence. Qed.
Lemma v1_frame_sym f g : v1_same_frame f g -> v1_same_frame g f.
Proof. intros (A&B&C&D&E&F&G). repeat split; congruence. Qed.
Lemma set_bits_wf f b c : v1_wf f -> len b = len (v1_bitset f) -> words_ok 64 b -> c < two64 -> v1_wf (v1_set_bits f b c).
Proof. intros [] L B C. constructor; cbn; auto. congruence. Qed.
Lemma set_bits_frame f b c : len b = len (v1_bitset f) -> v1_same_frame f (v1_set_bits f b c).
Proof. intro. repeat split; auto. Qed.
Lemma v1_eta f : v1_set_bits f (v1_bitset f) (v1_count f) = f. Proof. destruct f; reflexivity. Qed.

Record v1_insert_effect (pr : profile) (f : v1) (d : list byte) (g : v1) (r : outcome bool) : Prop := {
  i1_frame : v1_same_frame f g;
  i1_data : v1_data g = v1_data f;
  i1_wf : v1_wf g;
  i1_mono : forall i, v1_bit f i = true -> v1_bit g i = true;
  i1_cases : match r with
    | Ok new => v1_capacity f <> 0 /\ in_range64 (v1_bitset f) (v1_positions f d) /\ (v1_n_hash f <> 0 -> v1_bit_size f <> 0) /\
                new = negb (v1_covered f d) /\ (new = true -> v1_count f < v1_capacity f) /\
                (forall i, v1_bit g i = v1_bit f i || existsb (N.eqb i) (v1_positions f d)) /\
                (new = false -> g = f) /\ (new = true -> v1_count g = v1_count f + 1)
    | Err e => e = TooManyEntries /\ g = f /\ (v1_capacity f = 0 \/ v1_capacity f <= v1_count f /\ v1_covered f d = false)
    | Panic => ~ (in_range64 (v1_bitset f) (v1_positions f d) /\ (v1_n_hash f <> 0 -> v1_bit_size f <> 0))
    end
}.

Lemma v1_insert_sem pr f d g r : v1_wf f -> v1_insert_bytes pr f d = (g, r) -> v1_insert_effect pr f d g r.
Proof.
  intros W E. unfold v1_insert_bytes in E. destruct (N.eqb_spec (v1_capacity f) 0) as [Z|Z].
  { apply pair_inj in E as [<- <-]. constructor; auto using v1_frame_refl. }
  cbv zeta in E. set (full := v1_capacity f <=? v1_count f) in *.
  destruct (v1_insert_loop pr full (v1_bitset f) false (fp_list (fp_fingerprint (v1_fp f) d))) as [bits q] eqn:Q.
  pose proof (v1_loop_sem _ _ _ _ _ _ _ (fp_list_no_err f d W) Q) as [A B C D].
  pose proof (w1_bits f W) as Wb. pose proof (w1_count f W) as Wc.
  assert (Wf1 : v1_wf (v1_set_bits f bits (v1_count f))) by (apply set_bits_wf; auto).
  assert (Fr1 : v1_same_frame f (v1_set_bits f bits (v1_count f))) by (now apply set_bits_frame).
  destruct q as [new|e|].
  - destruct D as (l & Hl & R & Hn & Bt & Id & Fl). apply fp_list_Ok_inv in Hl as Hl'; auto. subst l.
    assert (NB : v1_n_hash f <> 0 -> v1_bit_size f <> 0).
    { intros NH BS. rewrite fp_list_wf in Hl by auto. rewrite BS in Hl. cbn [N.eqb] in Hl.
      destruct (N.eqb_spec (v1_n_hash f) 0); [contradiction|]. destruct (v1_positions f d); discriminate. }
    cbn [orb] in Hn. change (forallb (bit 64 (v1_bitset f)) (v1_positions f d)) with (v1_covered f d) in *.
    destruct (v1_covered f d) eqn:CV; cbn [negb] in Hn; subst new.
    + rewrite (Id eq_refl), v1_eta in *. apply pair_inj in E as [<- <-]. constructor; auto.
      split; auto. split; auto. split; auto. split; [now rewrite CV|]. split; [discriminate|]. split; [exact Bt|]. split; [auto|discriminate].
    + assert (Hc : v1_count f < v1_capacity f). { destruct full eqn:FU; [now specialize (Fl eq_refl)|]. unfold full in FU. now apply N.leb_gt in FU. }
      rewrite checked_add_small in E by (pose proof (w1_capacity f W); lia).
      apply pair_inj in E as [<- <-]. constructor; auto.
      * apply set_bits_wf; auto. pose proof (w1_capacity f W). lia.
      * split; auto. split; auto. split; auto. split; [now rewrite CV|]. split; auto. split; [exact Bt|]. split; [discriminate|auto].
  - destruct D as (-> & Fu & -> & i & Hi & Hb). rewrite v1_eta in *. apply pair_inj in E as [<- <-]. constructor; auto.
    split; auto. split; auto. right. split; [now apply N.leb_le|].
    rewrite fp_list_wf in Hi by auto. destruct (v1_bit_size f =? 0); [destruct (v1_n_hash f =? 0); [destruct Hi|destruct Hi as [?|[]]; discriminate]|].
    apply in_map_iff in Hi as (x & X & Hx). injection X as ->. unfold v1_covered. destruct (forallb (v1_bit f) (v1_positions f d)) eqn:CV; auto.
    rewrite forallb_forall in CV. specialize (CV i Hx). unfold v1_bit in CV. congruence.
  - apply pair_inj in E as [<- <-]. constructor; auto. intros [R NB]. apply D. exists (v1_positions f d). split; auto. now apply fp_list_good.
Qed.

(** ** contains *)
Lemma v1_contains_loop_spec l : forall b, in_range64 b l -> v1_contains_loop b (map Ok l) = Ok (forallb (bit 64 b) l).
Proof.
  induction l as [|i l IH]; intros b R; cbn [v1_contains_loop map forallb]; auto. inversion R as [|? ? Hi Hl]; subst.
  rewrite v1_get_spec. apply N.ltb_lt in Hi. rewrite Hi. cbn [obind]. destruct (bit 64 b i); cbn [andb]; auto.
Qed.
Definition v1_present (f : v1) (d : list byte) : Prop :=
  v1_bitset f <> [] /\ in_range64 (v1_bitset f) (v1_positions f d) /\ (v1_n_hash f <> 0 -> v1_bit_size f <> 0) /\ v1_covered f d = true.
Lemma v1_contains_sem f d : v1_wf f -> v1_usable f ->
  v1_contains_bytes f d = Ok (match v1_bitset f with [] => false | _ => v1_covered f d end).
Proof.
  intros W U. destruct (fp_list_usable f d W U) as [E R]. unfold v1_contains_bytes. rewrite E.
  destruct (v1_bitset f) eqn:B; auto. rewrite <- B in *. rewrite v1_contains_loop_spec by auto. reflexivity.
Qed.
Lemma v1_contains_loop_true b l : v1_contains_loop b l = Ok true -> exists p, l = map Ok p /\ in_range64 b p /\ forallb (bit 64 b) p = true.
Proof.
  induction l as [|x l IH]; cbn [v1_contains_loop]; intro H.
  - exists []. repeat split. constructor.
  - destruct x as [i|e|]; try discriminate. rewrite v1_get_spec in H. destruct (N.ltb_spec i (64 * len b)); [|discriminate]. cbn [obind] in H.
    destruct (bit 64 b i) eqn:B; [|discriminate]. destruct (IH H) as (p & -> & R & F). exists (i :: p). split; [reflexivity|]. split; [constructor; auto|].
    cbn. now rewrite B.
Qed.
Lemma v1_contains_true f d : v1_wf f -> (v1_contains_bytes f d = Ok true <-> v1_present f d).
Proof.
  intro W. unfold v1_contains_bytes, v1_present. destruct (v1_bitset f) as [|b0 bs] eqn:B.
  - split; [discriminate|]. intros (H & _). congruence.
  - rewrite <- B. split.
    + intro H. apply v1_contains_loop_true in H as (p & Hp & R & F). pose proof (fp_list_Ok_inv f d p W Hp). subst p.
      repeat split; auto; [congruence|]. intros NH BS. rewrite fp_list_wf in Hp by auto. rewrite BS in Hp. cbn [N.eqb] in Hp.
      destruct (N.eqb_spec (v1_n_hash f) 0); [contradiction|]. destruct (v1_positions f d); discriminate.
    + intros (_ & R & NB & C). rewrite fp_list_wf by auto. destruct (N.eqb_spec (v1_bit_size f) 0) as [E|E].
      * destruct (N.eqb_spec (v1_n_hash f) 0) as [N0|N0]; [reflexivity|]. destruct (NB N0 E).
      * rewrite v1_contains_loop_spec by auto. f_equal. exact C.
Qed.
Lemma v1_contains_bool f d : v1_wf f -> v1_usable f -> v1_contains_bytes f d = Ok true \/ v1_contains_bytes f d = Ok false.
Proof. intros W U. rewrite v1_contains_sem by auto. destruct (v1_bitset f); auto. destruct (v1_covered f d); auto. Qed.

(** Monotonicity. *)
Lemma v1_frame_positions f g d : v1_same_frame f g -> v1_positions g d = v1_positions f d.
Proof. intros (_&_&_&A&B&_). unfold v1_positions. now rewrite A, B. Qed.
Lemma v1_present_mono f g d : v1_same_frame f g -> (forall i, v1_bit f i = true -> v1_bit g i = true) -> v1_present f d -> v1_present g d.
Proof.
  intros F M (A & B & C & D). pose proof (v1_frame_positions f g d F) as P. destruct F as (_&_&_&Fn&Fb&_&Fl). unfold v1_present, v1_covered, in_range64. rewrite P, Fn, Fb, Fl.
  split; [|split; [exact B|split; [exact C|]]].
  - intro H. rewrite H in Fl. cbn in Fl. destruct (v1_bitset f); [auto|discriminate].
  - unfold v1_covered in D. rewrite forallb_forall in D |- *. auto.
Qed.
Lemma v1_insert_present pr f d g b : v1_wf f -> v1_bitset f <> [] -> v1_insert_bytes pr f d = (g, Ok b) -> v1_present g d.
Proof.
  intros W NE E. apply v1_insert_sem in E as [F _ Wg M (C & R & NB & _ & _ & Bt & _)]; auto.
  pose proof (v1_frame_positions f g d F) as P. destruct F as (_&_&_&Fn&Fb&_&Fl). unfold v1_present, v1_covered, in_range64. rewrite P, Fn, Fb, Fl.
  split; [|split; [exact R|split; [exact NB|]]].
  - intro H. rewrite H in Fl. cbn in Fl. destruct (v1_bitset f); [auto|discriminate].
  - apply forallb_forall. intros i Hi. rewrite Bt. apply orb_true_intro. right. apply existsb_exists. exists i. split; auto. apply N.eqb_refl.
Qed.
Lemma v1_insert_usable pr f d g r : v1_wf f -> v1_usable f -> v1_insert_bytes pr f d = (g, r) -> r <> Panic.
Proof. intros W U E ->. apply v1_insert_sem in E as [_ _ _ _ C]; auto. apply C. split; [now apply fp_list_usable|apply U]. Qed.
