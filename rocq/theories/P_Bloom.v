(** The version-independent filter: effect of every operation on its bits. *)
From Coq Require Import Lia.
From Verif Require Import M_Bloom Spec_Bits Spec_Hash Spec_V2 Spec_V2Hist Spec_V1 Spec_Bloom P_Base P_BitSet P_V2 P_V2Sem P_V2Codec P_V2Merge P_V2Hist P_V2Props P_V2More
  P_V1 P_V1Size P_V1Codec P_V1Hist P_V1More P_Fpp P_Codec Prop_Codec.
Open Scope N_scope.

Lemma bf_frame_refl f : bf_same_frame f f.
Proof. destruct f; [apply v1_frame_refl|apply frame_refl]. Qed.
Lemma bf_frame_trans f g h : bf_same_frame f g -> bf_same_frame g h -> bf_same_frame f h.
Proof. destruct f, g, h; try contradiction; [apply v1_frame_trans|apply frame_trans]. Qed.
Lemma bf_frame_sym f g : bf_same_frame f g -> bf_same_frame g f.
Proof. destruct f, g; try contradiction; [apply v1_frame_sym|apply frame_sym]. Qed.
Lemma bf_frame_capacity f g : bf_same_frame f g -> bf_capacity g = bf_capacity f.
Proof. destruct f, g; try contradiction; cbn; [intros (_&E&_); exact E|intros (_&_&_&E&_); exact E]. Qed.
Lemma bf_frame_has_bits f g : bf_same_frame f g -> bf_has_bits f -> bf_has_bits g.
Proof. destruct f, g; try contradiction; cbn; [intros (_&_&_&_&E&_); now rewrite E|auto]. Qed.
Lemma bf_frame_spots wy f g d s : bf_same_frame f g -> (bf_spots wy g d s <-> bf_spots wy f d s).
Proof.
  destruct f as [f|f], g as [g|g]; try contradiction; cbn [bf_same_frame]; intro F; destruct s as [b i|i]; cbn [bf_spots]; try tauto.
  - now rewrite (v1_frame_positions _ _ d F).
  - now rewrite (frame_bucket_of _ _ _ F), (frame_positions wy _ _ _ F).
  - now rewrite (frame_cache_nil _ _ F), (frame_cache_of _ _ _ F).
Qed.
Lemma bf_frame_usable f g : bf_same_frame f g -> bf_usable f -> bf_usable g.
Proof.
  destruct f, g; try contradiction; cbn.
  - intros (_&_&_&A&B&_&C). unfold v1_usable. now rewrite A, B, C.
  - intros (_&_&_&A&_&_&B&_). unfold v2_usable. now rewrite A, B.
Qed.

(** ** Insertion *)
Lemma eqb_In i l : existsb (N.eqb i) l = true <-> In i l.
Proof.
  rewrite existsb_exists. split.
  - intros (x & H & E). apply N.eqb_eq in E. now subst x.
  - intro H. exists i. split; [exact H|apply N.eqb_refl].
Qed.
Lemma empty_false (l : list N) : negb (bs_is_empty l) = true <-> l <> [].
Proof. destruct l; cbn; split; congruence. Qed.

Record bf_insert_effect (pr : profile) (wy : hasher) (f : bloom) (d : list byte) (g : bloom) (r : outcome bool) : Prop := {
  ib_frame : bf_same_frame f g;
  ib_wf : bf_wf g;
  ib_data : bf_data g = bf_data f;
  ib_mono : forall s, bf_spot f s = true -> bf_spot g s = true;
  ib_cases : match r with
    | Ok b => bf_capacity f <> 0 /\ (forall s, bf_spot g s = true <-> bf_spot f s = true \/ bf_spots wy f d s) /\
              bf_count_estimate g = (if b then w64 (bf_count_estimate f + 1) else bf_count_estimate f) /\
              (b = true -> bf_count_estimate f <> bf_capacity f) /\
              (b = false <-> forall k i, bf_spots wy f d (Spot k i) -> bf_spot f (Spot k i) = true)
    | Err e => e = TooManyEntries /\ g = f /\ (bf_capacity f = 0 \/ bf_capacity f <= bf_count_estimate f)
    | Panic => True
    end
}.
Lemma bf_insert_sem pr wy f d g r : bf_wf f -> bytes_ok d -> bf_insert_bytes pr wy f d = (g, r) -> bf_insert_effect pr wy f d g r.
Proof.
  intros W Hd E. destruct f as [f|f]; cbn [bf_insert_bytes bf_wf] in E, W.
  - destruct (v1_insert_bytes pr f d) as [g' r'] eqn:I. apply pair_inj in E as [<- <-]. pose proof (v1_insert_sem _ _ _ _ _ W I) as [F D Wg M C].
    constructor; [exact F|exact Wg|exact D| |].
    + intros [b i|i]; cbn [bf_spot]; [|discriminate]. rewrite !andb_true_iff. intros [A B]. auto.
    + destruct r' as [b|e|]; [| |exact Logic.I]; cbn [bf_capacity bf_count_estimate].
      * destruct C as (C1 & C2 & C3 & C4 & C5 & C6 & C7 & C8). split; [exact C1|]. split.
        { intros [k i|i]; cbn [bf_spot bf_spots]; [|split; [discriminate|intros [H|H]; [discriminate|contradiction]]].
          rewrite C6, !andb_true_iff, orb_true_iff, eqb_In, N.eqb_eq. tauto. }
        split. { unfold v1_count_estimate. destruct b; [|now rewrite C7]. rewrite C8 by reflexivity. specialize (C5 eq_refl).
          pose proof (w1_capacity _ W) as Wc. unfold w64. rewrite N.mod_small; [reflexivity|lia]. }
        split. { intros ->. specialize (C5 eq_refl). unfold v1_count_estimate. lia. }
        rewrite C4, Bool.negb_false_iff. unfold v1_covered. rewrite forallb_forall. cbn [bf_spots bf_spot]. split.
        { intros H k i [-> Hi]. rewrite (H i Hi). reflexivity. }
        { intros H i Hi. exact (H 0 i (conj eq_refl Hi)). }
      * destruct C as (-> & -> & C). split; [reflexivity|]. split; [reflexivity|]. unfold v1_count_estimate. tauto.
  - destruct (v2_insert_bytes pr wy f d) as [g' r'] eqn:I. apply pair_inj in E as [<- <-]. unfold v2_insert_bytes in I.
    destruct (v2_insert_any _ _ _ _ _ _ W (Hd : key_ok (KSlice d)) I) as (Wg & (F & M1 & M2) & D & _).
    constructor; [exact F|exact Wg|exact D| |].
    + intros [b i|i]; cbn [bf_spot]; auto.
    + unfold v2_insert in I. destruct (key_init wy (KSlice d) Hd) as [Hi Hl].
      destruct (N.eq_dec (v2_capacity f) 0) as [Z|Z].
      { rewrite v2_insert_iter_cap0 in I by assumption. apply pair_inj in I as [<- <-]. cbn. auto. }
      destruct (N.eq_dec (len (v2_buckets f)) 0) as [Zb|Zb].
      { rewrite v2_insert_iter_nobucket in I by assumption. apply pair_inj in I as [<- <-]. exact Logic.I. }
      pose proof (v2_insert_iter_sem _ _ _ _ _ _ W Hi Hl Z Zb I) as [_ _ _ C]. rewrite build_h1 in C.
      destruct r' as [b|e|]; [| |exact Logic.I]; cbn [bf_capacity bf_count_estimate]; unfold v2_count_estimate.
      * destruct C as (C1 & C2 & (C3 & C3') & C4 & C5). split; [exact Z|]. split.
        { intros [k i|i]; cbn [bf_spot bf_spots].
          - rewrite C3, orb_true_iff, andb_true_iff, eqb_In, N.eqb_eq. tauto.
          - rewrite C3', orb_true_iff, andb_true_iff, empty_false, N.eqb_eq. tauto. }
        split. { destruct b; [now rewrite C5|]. now rewrite (proj2 (C4 eq_refl)). }
        split; [exact C2|]. rewrite C1, Bool.negb_false_iff. unfold v2_covered. rewrite forallb_forall. cbn [bf_spots bf_spot]. split.
        { intros H k i [-> Hj]. exact (H i Hj). }
        { intros H i Hj. exact (H _ i (conj eq_refl Hj)). }
      * destruct C as (-> & -> & C & _). split; [reflexivity|]. split; [reflexivity|]. right. lia.
Qed.

(** ** Membership *)
Lemma bf_contains_sem wy f d : bf_wf f -> bytes_ok d ->
  (bf_contains_bytes wy f d = Ok true <->
   match f with
   | V1 f => v1_bitset f <> [] /\ in_range64 (v1_bitset f) (v1_positions f d) /\ (v1_n_hash f <> 0 -> v1_bit_size f <> 0)
   | V2 f => v2_capacity f <> 0 /\ len (v2_buckets f) <> 0
   end /\ forall s, bf_spots wy f d s -> bf_spot f s = true).
Proof.
  intros W Hd. destruct f as [f|f]; cbn [bf_contains_bytes bf_wf] in *.
  - rewrite v1_contains_true by exact W. unfold v1_present, v1_covered. rewrite forallb_forall. split.
    + intros (A & B & C & D). split; [auto|]. intros [k i|i]; cbn [bf_spots bf_spot]; [|contradiction]. intros [-> Hi]. now rewrite D.
    + intros ((A & B & C) & D). split; [exact A|]. split; [exact B|]. split; [exact C|]. intros i Hi. exact (D (Spot 0 i) (conj eq_refl Hi)).
  - unfold v2_contains_bytes. rewrite contains_present by assumption. unfold v2_present. rewrite cache_hit_alt, orb_true_iff. unfold v2_covered. rewrite forallb_forall. split.
    + intros (A & B & C & D). split; [auto|]. intros [k i|i]; cbn [bf_spots bf_spot].
      * intros [-> Hi]. now apply D.
      * intros [Hn ->]. destruct C as [C|C]; [|exact C]. apply empty_false in Hn. rewrite C in Hn. discriminate.
    + intros ((A & B) & D). split; [exact A|]. split; [exact B|]. split; [|intros i Hi; exact (D (Spot _ i) (conj eq_refl Hi))].
      destruct (bs_is_empty (v2_index_cache f)) eqn:Q; [now left|right]. apply (D (CacheSpot _)). cbn [bf_spots]. split; [|reflexivity].
      apply empty_false. now rewrite Q.
Qed.
(** More bits, more members. *)
Lemma bf_contains_mono wy f g d : bf_wf f -> bf_wf g -> bytes_ok d -> bf_same_frame f g -> (forall s, bf_spot f s = true -> bf_spot g s = true) ->
  bf_contains_bytes wy f d = Ok true -> bf_contains_bytes wy g d = Ok true.
Proof.
  intros Wf Wg Hd F M. rewrite !bf_contains_sem by assumption. intros [A B]. split.
  - destruct f as [f|f], g as [g|g]; try contradiction; cbn [bf_same_frame] in F.
    + destruct A as (A1 & A2 & A3). rewrite (v1_frame_positions _ _ d F). destruct F as (_&_&_&Fn&Fb&_&Fl). rewrite Fn, Fb. unfold in_range64 in *. rewrite Fl.
      split; [|auto]. intro Z. apply A1. apply len_0. rewrite <- Fl, Z. reflexivity.
    + destruct F as (_&_&_&Fc&_&_&Fl&_). now rewrite Fc, Fl.
  - intros s Hs. apply M, B. now rewrite <- (bf_frame_spots wy f g d s F).
Qed.
(** What an insertion answers Ok for is contained. *)
Lemma bf_insert_contains pr wy f d g b : bf_wf f -> bytes_ok d -> bf_has_bits f -> bf_insert_bytes pr wy f d = (g, Ok b) -> bf_contains_bytes wy g d = Ok true.
Proof.
  intros W Hd HB E. destruct f as [f|f]; cbn [bf_insert_bytes bf_wf bf_has_bits] in *.
  - destruct (v1_insert_bytes pr f d) as [g' r'] eqn:I. apply pair_inj in E as [<- ->]. cbn [bf_contains_bytes]. apply v1_contains_true; [exact (i1_wf _ _ _ _ _ (v1_insert_sem _ _ _ _ _ W I))|].
    apply (v1_insert_present pr f d g' b); auto. intro Z. pose proof (w1_len _ W) as Wl. rewrite Z in Wl. change (len []) with 0 in Wl.
    pose proof (u64_size_pos _ (w1_bit_size _ W) HB). lia.
  - destruct (v2_insert_bytes pr wy f d) as [g' r'] eqn:I. apply pair_inj in E as [<- ->]. unfold v2_insert_bytes in I. cbn [bf_contains_bytes].
    destruct (v2_insert_any _ _ _ _ _ _ W (Hd : key_ok (KSlice d)) I) as (Wg & _ & _ & P & _). unfold v2_contains_bytes. apply contains_present; [exact Wg|exact Hd|].
    exact (P b eq_refl).
Qed.
(** No panic on usable filters with a count in range. *)
Lemma bf_insert_no_panic pr wy f d : bf_wf f -> bf_usable f -> bytes_ok d -> pr = Release \/ bf_count_estimate f < u64_max -> snd (bf_insert_bytes pr wy f d) <> Panic.
Proof.
  intros W U Hd Q. destruct f as [f|f]; cbn [bf_insert_bytes bf_wf bf_usable bf_count_estimate] in *.
  - destruct (v1_insert_bytes pr f d) as [g' r'] eqn:I. exact (v1_insert_usable _ _ _ _ _ W U I).
  - destruct (v2_insert_bytes pr wy f d) as [g' r'] eqn:I. cbn [snd]. unfold v2_insert_bytes, v2_insert in I. destruct (key_init wy (KSlice d) Hd) as [Hi Hl].
    destruct (N.eq_dec (v2_capacity f) 0) as [Z|Z].
    { rewrite v2_insert_iter_cap0 in I by assumption. apply pair_inj in I as [<- <-]. discriminate. }
    pose proof (v2_insert_iter_sem _ _ _ _ _ _ W Hi Hl Z (U Z) I) as [_ _ _ C]. intros ->. destruct C as (-> & C & _). unfold v2_count_estimate in Q.
    destruct Q as [Q|Q]; [discriminate|lia].
Qed.

(** ** Same bits *)
Lemma bf_spots_ext f g : bf_wf f -> bf_wf g -> bf_same_frame f g -> (forall s, bf_spot g s = true <-> bf_spot f s = true) -> bf_same_content f g.
Proof.
  intros Wf Wg F H. destruct f as [f|f], g as [g|g]; try contradiction; cbn [bf_wf bf_same_frame bf_same_content] in *.
  - split; [exact F|]. symmetry. apply v1_bits_ext; auto. { symmetry. apply F. } intro i. specialize (H (Spot 0 i)). cbn in H. apply Bool.eq_true_iff_eq. tauto.
  - apply same_content_bits; auto.
    + intros b i. specialize (H (Spot b i)). cbn in H. apply Bool.eq_true_iff_eq. tauto.
    + intro i. specialize (H (CacheSpot i)). cbn in H. apply Bool.eq_true_iff_eq. tauto.
Qed.
Lemma bf_content_spots f g : bf_same_content f g -> forall s, bf_spot g s = bf_spot f s.
Proof.
  destruct f as [f|f], g as [g|g]; try contradiction; cbn [bf_same_content].
  - intros [_ E] [b i|i]; cbn; [|reflexivity]. unfold v1_bit. now rewrite E.
  - intros (_ & E1 & E2) [b i|i]; cbn; [unfold v2_bit; now rewrite E1|unfold v2_cbit; now rewrite E2].
Qed.
Lemma bf_content_frame f g : bf_same_content f g -> bf_same_frame f g.
Proof. destruct f, g; try contradiction; [intros [H _]; exact H|intros [H _]; exact H]. Qed.
Lemma bf_content_contains wy f g d : bf_wf f -> bf_wf g -> bytes_ok d -> bf_same_content f g ->
  (bf_contains_bytes wy g d = Ok true <-> bf_contains_bytes wy f d = Ok true).
Proof.
  intros Wf Wg Hd C. pose proof (bf_content_frame _ _ C) as F. pose proof (bf_content_spots _ _ C) as S. split; apply bf_contains_mono; auto.
  - now apply bf_frame_sym.
  - intros s Hs. now rewrite <- S.
  - intros s Hs. now rewrite S.
Qed.

(** ** Union *)
Lemma bf_union_sem pr L a b g r : bf_wf a -> bf_wf b -> bf_union_merge pr L a b = (g, r) ->
  match r with
  | Ok _ => bf_same_frame a g /\ bf_wf g /\ bf_data g = bf_data a /\ bf_has_same_params a b = Ok true /\ forall s, bf_spot g s = bf_spot a s || bf_spot b s
  | Err e => e = Merge /\ g = a /\ bf_has_same_params a b = Ok false
  | Panic => pr = Debug /\ bf_version a = 2 /\ bf_has_same_params a b = Ok true
  end.
Proof.
  intros Wa Wb E. unfold bf_union_merge in E. destruct a as [a|a], b as [b|b]; cbn in E.
  2,3: apply pair_inj in E as [<- <-]; split; [reflexivity|]; split; reflexivity.
  - cbn [bf_wf] in *. change (bf_has_same_params (V1 a) (V1 b)) with (Ok (v1_has_same_params a b)). destruct (v1_has_same_params a b) eqn:P.
    2:{ apply pair_inj in E as [<- <-]. split; [reflexivity|]. split; reflexivity. }
    destruct (v1_union_merge L a b) as [g' r'] eqn:U. apply pair_inj in E as [<- <-]. destruct (v1_union_sem _ _ _ _ _ Wa Wb U) as [(Q & _)|(_ & -> & F)]; [congruence|].
    destruct F as [F1 F2 F3 F4 _]. split; [exact F1|]. split; [exact F3|]. split; [exact F2|]. split; [reflexivity|]. intros [k i|i]; cbn [bf_spot]; [|reflexivity].
    rewrite F4. destruct (k =? 0); reflexivity.
  - cbn [bf_wf] in *. change (bf_has_same_params (V2 a) (V2 b)) with (Ok (v2_has_same_params a b)). destruct (v2_has_same_params a b) eqn:P.
    2:{ apply pair_inj in E as [<- <-]. split; [reflexivity|]. split; reflexivity. }
    destruct (v2_union_merge pr L a b) as [g' r'] eqn:U. apply pair_inj in E as [<- <-]. rewrite v2_union_merge_op in U.
    destruct (v2_merge_sem _ _ _ _ _ _ _ Wa Wb U) as [(Q & _)|(_ & F)]; [congruence|]. destruct F as [F1 F2 F3 F4 F5 F6]. destruct r' as [u|e|]; [|contradiction|].
    + split; [exact F1|]. split; [exact F3|]. split; [exact F2|]. split; [reflexivity|]. intros [k i|i]; cbn [bf_spot]; auto.
    + split; [apply F6|]. split; reflexivity.
Qed.
(** Two filters of the same frame can be merged, unless they are v1 filters whose fpp is NaN. *)
Definition bf_fpp_real (f : bloom) : Prop := match f with V1 f => fpp_eqb (v1_fpp f) (v1_fpp f) = true | V2 _ => True end.
Lemma bf_frame_params a b : bf_wf a -> bf_wf b -> bf_fpp_real a -> bf_same_frame a b -> bf_has_same_params a b = Ok true.
Proof.
  intros Wa Wb R F. destruct a as [a|a], b as [b|b]; try contradiction; unfold bf_has_same_params; cbn [bf_version N.eqb Pos.eqb negb]; f_equal; cbn [bf_same_frame bf_wf bf_fpp_real] in *.
  - apply v1_same_params_iff. destruct F as (F1 & F2 & F3 & F4 & F5 & _ & F6). unfold v1_same_shape. rewrite F3. intuition auto.
  - now apply same_params_wf.
Qed.
Lemma bf_union_frame pr L a b g r : bf_wf a -> bf_wf b -> bf_fpp_real a -> bf_same_frame a b -> bf_union_merge pr L a b = (g, r) ->
  r = Ok tt \/ (r = Panic /\ pr = Debug /\ bf_version a = 2).
Proof.
  intros Wa Wb R F E. pose proof (bf_union_sem _ _ _ _ _ _ Wa Wb E) as S. pose proof (bf_frame_params _ _ Wa Wb R F) as P.
  destruct r as [[]|e|]; [now left| |right; split; [reflexivity|]; split; apply S]. destruct S as (_ & _ & Q). congruence.
Qed.

(** ** Histories *)
Lemma bf_make_inv pr L v cap fpp opt f : bf_with_version_capacity_opt pr L v cap fpp opt = Ok f ->
  match f with V1 f => v = 1 /\ v1_with_capacity L cap fpp = Ok f | V2 f => v = 2 /\ v2_make pr L cap fpp opt = Ok f end.
Proof.
  unfold bf_with_version_capacity_opt. destruct (N.eqb_spec v 1) as [V|V].
  - intro E. apply obind_Ok_inv in E as (x & E & H). apply Ok_inj in H. subst f. auto.
  - destruct (N.eqb_spec v 2) as [V2|V2]; [|discriminate]. intro E. apply obind_Ok_inv in E as (x & E & H). apply Ok_inj in H. subst f. auto.
Qed.
Definition bf_hist_as (wy : hasher) (L : libm) (f : bloom) (K : list byte -> Prop) : Prop :=
  match f with
  | V1 f => exists K', v1_hist L f K' /\ forall d, K d -> K' d
  | V2 f => exists K', v2_hist wy L f K' /\ forall d, K d -> K' (KSlice d)
  end.
Lemma bf_hist_inv wy L f K : bf_hist wy L f K -> bf_hist_as wy L f K /\ (forall d, K d -> bytes_ok d).
Proof.
  induction 1 as [pr v cap fpp opt f Hc Hf E|pr content f Hb Hs E|pr f K d g b H [IH B] Hd E|pr f K d g r H [IH B] Hd E Hr|f K H [IH B]|pr a b Ka Kb g Ha [IHa Ba] Hb [IHb Bb] E
                 |pr a b Ka Kb g r Ha [IHa Ba] Hb [IHb Bb] E Hr|pr f K g H [IH B] E].
  - split; [|contradiction]. apply bf_make_inv in E. destruct f as [f|f]; destruct E as [_ E]; (exists (fun _ => False); split; [|intros ? []]).
    + exact (h1_make L cap fpp f Hc Hf E). + exact (vh_make wy L pr cap fpp opt f Hc Hf E).
  - split; [|contradiction]. apply bf_ok_inv in E. destruct f as [f|f]; exists (fun _ => False); (split; [|intros ? []]).
    + eapply h1_load; [exact Hb|exact E]. + eapply vh_load; [exact Hb|exact Hs|exact E].
  - split; [|intros x [->|Hx]; auto]. destruct f as [f|f]; cbn [bf_insert_bytes] in E; destruct IH as (K' & Hh & S).
    + destruct (v1_insert_bytes pr f d) as [g' r'] eqn:I. apply pair_inj in E as [<- ->]. exists (fun x => x = d \/ K' x). split; [econstructor; eassumption|].
      intros x [->|Hx]; auto.
    + destruct (v2_insert_bytes pr wy f d) as [g' r'] eqn:I. apply pair_inj in E as [<- ->]. exists (fun x => x = KSlice d \/ K' x). split; [exact (vh_insert wy L pr f K' (KSlice d) g' b Hh Hd I)|].
      intros x [->|Hx]; auto.
  - split; [|exact B]. destruct f as [f|f]; cbn [bf_insert_bytes] in E; destruct IH as (K' & Hh & S).
    + destruct (v1_insert_bytes pr f d) as [g' r'] eqn:I. apply pair_inj in E as [<- ->]. exists K'. split; [|exact S]. eapply h1_insert_fail; eassumption.
    + destruct (v2_insert_bytes pr wy f d) as [g' r'] eqn:I. apply pair_inj in E as [<- ->]. exists K'. split; [|exact S]. exact (vh_insert_fail wy L pr f K' (KSlice d) g' r Hh Hd I Hr).
  - split; [|contradiction]. destruct f as [f|f]; destruct IH as (K' & Hh & S); exists (fun _ => False); (split; [econstructor; exact Hh|intros ? []]).
  - split; [|intros x [Hx|Hx]; auto]. unfold bf_union_merge in E. destruct a as [a|a], b as [b|b]; cbn in E; try (apply pair_inj in E as [_ E]; discriminate E);
      destruct IHa as (Ka' & Hha & Sa); destruct IHb as (Kb' & Hhb & Sb).
    + destruct (v1_has_same_params a b); [|apply pair_inj in E as [_ E]; discriminate E].
      destruct (v1_union_merge L a b) as [g' r'] eqn:U. apply pair_inj in E as [<- ->]. exists (fun x => Ka' x \/ Kb' x). split; [econstructor; eassumption|]. intros x [Hx|Hx]; auto.
    + destruct (v2_has_same_params a b); [|apply pair_inj in E as [_ E]; discriminate E].
      destruct (v2_union_merge pr L a b) as [g' r'] eqn:U. apply pair_inj in E as [<- ->]. exists (fun x => Ka' x \/ Kb' x). split; [econstructor; eassumption|]. intros x [Hx|Hx]; auto.
  - split; [|exact Ba]. unfold bf_union_merge in E. destruct a as [a|a], b as [b|b]; cbn in E; try (apply pair_inj in E as [<- _]; exact IHa);
      destruct IHa as (Ka' & Hha & Sa); destruct IHb as (Kb' & Hhb & Sb).
    + destruct (v1_has_same_params a b); [|apply pair_inj in E as [<- _]; exists Ka'; auto].
      destruct (v1_union_merge L a b) as [g' r'] eqn:U. apply pair_inj in E as [<- ->]. exists Ka'. split; [eapply h1_union_fail; eassumption|exact Sa].
    + destruct (v2_has_same_params a b); [|apply pair_inj in E as [<- _]; exists Ka'; auto].
      destruct (v2_union_merge pr L a b) as [g' r'] eqn:U. apply pair_inj in E as [<- ->]. exists Ka'. split; [eapply vh_union_fail; eassumption|exact Sa].
  - split; [|exact B]. apply bf_ok_inv in E. destruct f as [f|f]; destruct IH as (K' & Hh & S).
    + assert (Wf : v1_wf f) by exact (v1_hist_wf _ _ _ Hh). assert (Q := bf_ok_v1 _ _ _ _ (v1_roundtrip pr f Wf)).
      destruct g as [g|g]; [exists K'; split; [eapply h1_reload; [exact Hh|exact E]|exact S]|].
      exfalso. unfold bf_write, bf_write_calls in E. change (concat (v1_write_calls f)) with (v1_write f) in E. apply bf_ok_v2 in E. rewrite E in Q. discriminate Q.
    + assert (Wf : v2_wf f) by exact (hist_wf _ _ _ _ Hh). assert (Q := bf_ok_v2 _ _ _ _ (v2_roundtrip pr f Wf)).
      destruct g as [g|g]; [|exists K'; split; [eapply vh_reload; [exact Hh|exact E]|exact S]].
      exfalso. unfold bf_write, bf_write_calls in E. change (concat (v2_write_calls f)) with (v2_write f) in E. apply bf_ok_v1 in E. rewrite E in Q. discriminate Q.
Qed.
Lemma bf_hist_wf wy L f K : bf_hist wy L f K -> bf_wf f.
Proof.
  intro H. apply bf_hist_inv in H as [H _]. destruct f as [f|f]; destruct H as (K' & H & _); [exact (v1_hist_wf _ _ _ H)|exact (hist_wf _ _ _ _ H)].
Qed.
Lemma bf_reach_wf wy L f : bf_reach wy L f -> bf_wf f.
Proof. intros [K H]. exact (bf_hist_wf _ _ _ _ H). Qed.
Lemma bf_hist_contains wy L f K d : bf_hist wy L f K -> K d -> bf_has_bits f -> bf_contains_bytes wy f d = Ok true.
Proof.
  intros H Hd HB. apply bf_hist_inv in H as [H _]. destruct f as [f|f]; destruct H as (K' & H & S); cbn [bf_contains_bytes].
  - exact (v1_hist_contains _ _ _ _ H (S d Hd) HB).
  - exact (hist_contains _ _ _ _ _ H (S d Hd)).
Qed.
Lemma bf_load_wf pr content f : bytes_ok content -> file_size_ok content -> bf_from_reader pr content = Ok f -> bf_wf f.
Proof.
  intros B S E. apply bf_ok_inv in E. destruct f as [f|f]; [exact (v1_load_wf _ _ _ B E)|exact (load_wf _ _ _ B S E)].
Qed.

(** ** Runs of insertions *)
Lemma inserts_app pr wy f a g b h : inserts pr wy f a g -> inserts pr wy g b h -> inserts pr wy f (a ++ b) h.
Proof. induction 1; [auto|]. intro H'. cbn. econstructor; [eassumption|auto]. Qed.
Lemma inserts_app_inv pr wy a : forall f b h, inserts pr wy f (a ++ b) h -> exists g, inserts pr wy f a g /\ inserts pr wy g b h.
Proof.
  induction a as [|x a IH]; intros f b h H; [exists f; split; [constructor|exact H]|]. cbn in H. inversion H as [|f' d g b' ds h' E H']; subst.
  destruct (IH _ _ _ H') as (g' & A & B). exists g'. split; [econstructor; eassumption|exact B].
Qed.
Lemma inserts_det pr wy f ds g : inserts pr wy f ds g -> forall h, inserts pr wy f ds h -> h = g.
Proof. induction 1 as [|f d g b ds h E H IH]; intros k I; inversion I as [|f' d' g' b' ds' h' E' I']; subst; [reflexivity|]. apply IH. rewrite E in E'. apply pair_inj in E' as [-> _]. exact I'. Qed.
Lemma inserts_sem pr wy f ds g : bf_wf f -> Forall bytes_ok ds -> inserts pr wy f ds g ->
  bf_same_frame f g /\ bf_wf g /\ bf_data g = bf_data f /\ (forall s, bf_spot g s = true <-> bf_spot f s = true \/ exists d, In d ds /\ bf_spots wy f d s).
Proof.
  intros W B H. revert W B. induction H as [f|f d g b ds h E H IH]; intros W B.
  - split; [apply bf_frame_refl|]. split; [exact W|]. split; [reflexivity|]. intro s. split; [auto|]. intros [H|(d & [] & _)]. exact H.
  - inversion B as [|? ? Bd Bs]; subst. pose proof (bf_insert_sem _ _ _ _ _ _ W Bd E) as [F Wg D M (_ & C & _)]. destruct (IH Wg Bs) as (F' & Wh & D' & C').
    split; [exact (bf_frame_trans _ _ _ F F')|]. split; [exact Wh|]. split; [congruence|]. intro s. rewrite C', C. split.
    + intros [[H1|H1]|(x & Hx & Hs)]; [now left|right; exists d; split; [now left|exact H1]|right; exists x; split; [now right|]]. now rewrite <- (bf_frame_spots wy f g x s F).
    + intros [H1|(x & [->|Hx] & Hs)]; [now left; left|left; now right|right; exists x; split; [exact Hx|]]. now rewrite (bf_frame_spots wy f g x s F).
Qed.
Lemma inserts_contains pr wy f ds g d : bf_wf f -> Forall bytes_ok ds -> bf_has_bits f -> inserts pr wy f ds g -> In d ds -> bf_contains_bytes wy g d = Ok true.
Proof.
  intros W B HB H. revert W B HB. induction H as [f|f x g b ds h E H IH]; intros W B HB Hd; [contradiction|]. inversion B as [|? ? Bd Bs]; subst.
  pose proof (bf_insert_sem _ _ _ _ _ _ W Bd E) as [F Wg D M _]. destruct (inserts_sem _ _ _ _ _ Wg Bs H) as (F' & Wh & _ & C').
  destruct Hd as [->|Hd]; [|apply IH; auto; exact (bf_frame_has_bits _ _ F HB)].
  apply (bf_contains_mono wy g h); auto. { intros s Hs. apply C'. now left. } exact (bf_insert_contains _ _ _ _ _ _ W Bd HB E).
Qed.
Lemma inserts_hist pr wy L f ds g K : bf_hist wy L f K -> Forall bytes_ok ds -> inserts pr wy f ds g -> exists K', bf_hist wy L g K' /\ forall d, K d \/ In d ds -> K' d.
Proof.
  intros H B I. revert K H B. induction I as [f|f d g b ds h E I IH]; intros K H B.
  - exists K. split; [exact H|]. intros d [Hd|[]]. exact Hd.
  - inversion B as [|? ? Bd Bs]; subst. destruct (IH _ (bh_insert _ _ _ _ _ _ _ _ H Bd E) Bs) as (K' & H' & S). exists K'. split; [exact H'|].
    intros x [Hx|[->|Hx]]; apply S; auto.
Qed.
Lemma bf_kept_inv wy L f : bf_kept wy L f -> match f with V1 f => exists K, v1_kept L f K | V2 f => exists K C, v2_kept wy L f K C end.
Proof.
  induction 1 as [pr v cap fpp opt f Hc Hf E|pr f d g b H IH Hd E|pr f d g e H IH Hd E|f H IH|pr a b g Ha IHa Hb IHb E|pr f g H IH E].
  - apply bf_make_inv in E. destruct f as [f|f]; destruct E as [_ E].
    + exists (fun _ => False). exact (k1_make L cap fpp f Hc Hf E).
    + exists (fun _ => False), (fun _ => False). exact (vk_make wy L pr cap fpp opt f Hc Hf E).
  - destruct f as [f|f]; cbn [bf_insert_bytes] in E.
    + destruct IH as (K & IH). destruct (v1_insert_bytes pr f d) as [g' r'] eqn:I. apply pair_inj in E as [<- ->]. eexists. exact (k1_insert _ _ _ _ _ _ _ IH I).
    + destruct IH as (K & C & IH). destruct (v2_insert_bytes pr wy f d) as [g' r'] eqn:I. apply pair_inj in E as [<- ->]. eexists. eexists.
      exact (vk_insert wy L pr f K C (KSlice d) g' b IH Hd I).
  - destruct f as [f|f]; cbn [bf_insert_bytes] in E.
    + destruct IH as (K & IH). destruct (v1_insert_bytes pr f d) as [g' r'] eqn:I. apply pair_inj in E as [<- ->]. eexists. exact (k1_insert_err _ _ _ _ _ _ _ IH I).
    + destruct IH as (K & C & IH). destruct (v2_insert_bytes pr wy f d) as [g' r'] eqn:I. apply pair_inj in E as [<- ->]. eexists. eexists.
      exact (vk_insert_err wy L pr f K C (KSlice d) g' e IH Hd I).
  - destruct f as [f|f]; cbn [bf_clear].
    + destruct IH as (K & IH). eexists. exact (k1_clear _ _ _ IH).
    + destruct IH as (K & C & IH). eexists. eexists. exact (vk_clear _ _ _ _ _ IH).
  - unfold bf_union_merge in E. destruct a as [a|a], b as [b|b]; cbn in E; try (apply pair_inj in E as [_ E]; discriminate E).
    + destruct IHa as (Ka & IHa). destruct IHb as (Kb & IHb). destruct (v1_has_same_params a b); [|apply pair_inj in E as [_ E]; discriminate E].
      destruct (v1_union_merge L a b) as [g' r'] eqn:U. apply pair_inj in E as [<- ->]. eexists. exact (k1_union _ _ _ _ _ _ IHa IHb U).
    + destruct IHa as (Ka & Ca & IHa). destruct IHb as (Kb & Cb & IHb). destruct (v2_has_same_params a b); [|apply pair_inj in E as [_ E]; discriminate E].
      destruct (v2_union_merge pr L a b) as [g' r'] eqn:U. apply pair_inj in E as [<- ->]. eexists. eexists. exact (vk_union _ _ _ _ _ _ _ _ _ _ IHa IHb U).
  - destruct f as [f|f].
    + destruct IH as (K & IH). rewrite (proj2 (C16_v1_built pr L f K IH)) in E. apply Ok_inj in E. subst g. exists K. exact IH.
    + destruct IH as (K & C & IH). rewrite (proj2 (C16_v2_built pr wy L f K C IH)) in E. apply Ok_inj in E. subst g. exists K, C. exact IH.
Qed.
Lemma bf_kept_wf wy L f : bf_kept wy L f -> bf_wf f.
Proof.
  intro H. apply bf_kept_inv in H. destruct f as [f|f]; [destruct H as (K & H); exact (proj1 (v1_kept_inv _ _ _ H))|destruct H as (K & C & H); exact (proj1 (v2_kept_inv _ _ _ _ _ H))].
Qed.
Lemma bf_kept_roundtrip pr wy L f : bf_kept wy L f -> bf_from_reader pr (bf_write f) = Ok f.
Proof.
  intro H. apply bf_kept_inv in H. destruct f as [f|f].
  - destruct H as (K & H). exact (proj2 (C16_v1_built pr L f K H)).
  - destruct H as (K & C & H). exact (proj2 (C16_v2_built pr wy L f K C H)).
Qed.
Lemma fpp_range_real p : p < two64 -> fpp_in_range p = true -> fpp_eqb p p = true.
Proof. intros A B. rewrite fpp_eqb_range by assumption. apply N.eqb_refl. Qed.
