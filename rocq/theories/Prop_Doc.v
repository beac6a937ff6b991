(** C109: preparing entries once and inserting them later; the examples of the documentation, with every hash function. *)
From Coq Require Import Lia String.
From Verif Require Import M_Base M_Hash M_Util M_Float M_V1 M_V2 M_Bloom M_RefLibm Spec_Bits Spec_Hash Spec_V2 Spec_V2Hist Spec_Bloom Spec_Libm P_Base P_V2Sem P_V2Hist P_V2Props P_Geom P_Create Prop_Hash Ex_Base Prop_Macro.
Open Scope N_scope.

(** The loop of v2.rs:446-449. contains_iter must answer true: the example only unwraps its answer. *)
Fixpoint insert_prepared (pr : profile) (wy : hasher) (f : v2) (prep : list index_iter) : outcome v2 :=
  match prep with
  | [] => Ok f
  | p :: r =>
    let '(g, x) := v2_insert_iter pr wy f p in
    let? _ := unwrap x in
    let? found := unwrap (v2_contains_iter wy g p) in
    if found : bool then insert_prepared pr wy g r else Panic
  end.

Lemma insert_room pr wy f k : v2_wf f -> v2_usable f -> key_ok k -> v2_count f < v2_capacity f -> v2_capacity f < two64 ->
  exists g b, v2_insert pr wy f k = (g, Ok b) /\ v2_wf g /\ v2_same_frame f g /\ v2_count g <= v2_count f + 1.
Proof.
  intros W U Hk Hc Cap. destruct (v2_insert pr wy f k) as [g r] eqn:E. destruct (key_init wy k Hk) as [Hi Hh].
  assert (C0 : v2_capacity f <> 0) by lia.
  pose proof (v2_insert_iter_sem pr wy f _ g r W Hi Hh C0 (U C0) E) as S. pose proof (ie_cases _ _ _ _ _ _ S) as H. change u64_max with 18446744073709551615 in H. change two64 with 18446744073709551616 in Cap.
  destruct r as [b|e|].
  - exists g, b. split; [reflexivity|]. split; [exact (ie_wf _ _ _ _ _ _ S)|]. split; [exact (ie_frame _ _ _ _ _ _ S)|].
    destruct H as (_ & _ & _ & Hf & Ht). destruct b; [rewrite (Ht eq_refl)|destruct (Hf eq_refl) as [_ ->]; lia].
    unfold w64. apply N.mod_le. discriminate.
  - exfalso. destruct H as (_ & _ & H & _). lia.
  - exfalso. destruct H as (_ & H & _). lia.
Qed.

(** Any number of keys up to the room left: the loop succeeds, every prepared key is found as soon as it is inserted and
    all of them are found at the end, through the filter and through the prepared iterators, with what was there before. *)
Theorem C109_prepared pr wy L ks : forall f K, v2_hist wy L f K -> v2_usable f -> v2_capacity f < two64 -> Forall key_ok ks -> v2_count f + len ks <= v2_capacity f ->
  exists g, insert_prepared pr wy f (map (v2_build_index_iter wy) ks) = Ok g /\ v2_same_frame f g /\ v2_count g <= v2_count f + len ks /\
    forall k, K k \/ In k ks -> v2_contains wy g k = Ok true /\ v2_contains_iter wy g (v2_build_index_iter wy k) = Ok true.
Proof.
  assert (IT : forall f k K, v2_hist wy L f K -> K k -> v2_contains wy f k = Ok true /\ v2_contains_iter wy f (v2_build_index_iter wy k) = Ok true).
  { intros f k K Hh Hk. pose proof (hist_contains wy L f K k Hh Hk) as E. split; [exact E|]. unfold v2_contains, unwrap in E. destruct (v2_contains_iter _ _ _); [injection E as ->; reflexivity|discriminate|discriminate]. }
  induction ks as [|k ks IH]; intros f K Hh U Cap Hks Hc.
  - exists f. split; [reflexivity|]. split; [apply frame_refl|]. split; [unfold len; cbn; lia|]. intros k [Hk|[]]. exact (IT f k K Hh Hk).
  - pose proof (Forall_inv Hks) as Hk. apply Forall_inv_tail in Hks. assert (EL : len (k :: ks) = len ks + 1) by (unfold len; cbn [length]; lia). rewrite EL in *.
    destruct (v2_hist_inv wy L f K Hh) as [W _].
    destruct (insert_room pr wy f k W U Hk ltac:(lia) Cap) as (g & b & E & Wg & Fr & Cg).
    pose proof (vh_insert wy L pr f K k g b Hh Hk E) as Hg. pose proof Fr as (F1 & F2 & F3 & F4 & F5 & F6).
    assert (Cgf : v2_capacity g = v2_capacity f) by (clear - Fr; unfold v2_same_frame in Fr; intuition congruence).
    assert (Lgf : len (v2_buckets g) = len (v2_buckets f)) by (clear - Fr; unfold v2_same_frame in Fr; intuition congruence).
    destruct (IH g _ Hg) as (g' & E' & Fr' & C' & In').
    { unfold v2_usable. rewrite Cgf, Lgf. exact U. } { rewrite Cgf. exact Cap. } { exact Hks. } { rewrite Cgf. lia. }
    exists g'. cbn [map insert_prepared]. unfold v2_insert in E. rewrite E. cbn [unwrap obind].
    destruct (IT g k _ Hg (or_introl eq_refl)) as [_ ->]. cbn [unwrap obind].
    split; [exact E'|]. split; [exact (frame_trans _ _ _ Fr Fr')|]. split; [lia|].
    intros x [Hx|[<-|Hx]]; apply In'; auto.
Qed.

(** The example of v2.rs:437-450, with any capacity, any number of keys up to it and keys of any type. *)
Theorem C109_prepared_new pr wy L cap p ks : libm_ln2_sq L -> libm_ln_range L -> fpp_in_range p = true -> p < two64 -> cap < 9007199254740992 -> Forall key_ok ks -> len ks <= cap ->
  exists f g, v2_with_capacity pr L cap p = Ok f /\ insert_prepared pr wy f (map (v2_build_index_iter wy) ks) = Ok g /\ v2_count g <= len ks /\
    forall k, In k ks -> v2_contains wy g k = Ok true.
Proof.
  intros H1 H2 Hp Hp' Hc Hks Hl. destruct (make_succeeds pr L cap p ONone H1 H2 Hp Hc) as [f E].
  assert (Hc' : cap < two64) by (change two64 with 18446744073709551616; lia).
  assert (EB : bf_with_version_capacity_opt pr L 2 cap p ONone = Ok (V2 f)) by (unfold bf_with_version_capacity_opt; change (2 =? 1) with false; change (2 =? 2) with true; cbn match; rewrite E; reflexivity).
  pose proof (fresh_usable pr L 2 cap p ONone (V2 f) H1 H2 Hc' EB) as U. destruct (fresh_facts wy pr L 2 cap p ONone (V2 f) Hc' Hp' EB) as (_ & _ & Cap & Cnt & _).
  cbn [bf_usable bf_capacity] in U, Cap. change (v2_count f = 0) in Cnt.
  destruct (C109_prepared pr wy L ks f _ (vh_make wy L pr cap p ONone f Hc' Hp' E) U) as (g & Eg & _ & Cg & In').
  { rewrite Cap. exact Hc'. } { exact Hks. } { rewrite Cap, Cnt. lia. }
  exists f, g. split; [exact E|]. split; [exact Eg|]. split; [rewrite Cnt in Cg; exact Cg|]. intros k Hk. exact (proj1 (In' k (or_intror Hk))).
Qed.

(** The other examples: a filter of the generic interface with any capacity but 0 holds one entry, in one or several calls. *)
Lemma one_entry pr wy L cap p d : libm_ln2_sq L -> libm_ln_range L -> fpp_in_range p = true -> p < two64 -> 1 <= cap -> cap < 9007199254740992 -> bytes_ok d ->
  exists f g r, bf_with_capacity pr L cap p = Ok f /\ bf_insert_bytes pr wy f d = (g, Ok r) /\ bf_contains_bytes wy g d = Ok true.
Proof.
  intros H1 H2 Hp Hp' H0 Hc Hd. assert (F : Forall bytes_ok [d]) by (constructor; [exact Hd|constructor]).
  destruct (C71_macro_ok pr wy L cap p [d] [d] H1 H2 Hp Hp' Hc F (fun _ h => h)) as (g & E & _); [unfold len; cbn; lia|].
  assert (Hc' : cap < two64) by (change two64 with 18446744073709551616; lia).
  destruct (C71_macro_result pr wy L cap p [d] g Hc' Hp' F E) as (_ & _ & _ & _ & _ & _ & In').
  unfold bloom_macro in E. destruct (bf_with_capacity pr L cap p) as [f|e|]; [|discriminate|discriminate]. cbn [unwrap obind bloom_insert_all] in E.
  destruct (bf_insert_bytes pr wy f d) as [g' r] eqn:I. destruct r as [r|e|]; [|discriminate|discriminate]. cbn [unwrap obind] in E. injection E as ->.
  exists f, g, r. split; [reflexivity|]. split; [exact I|]. apply In'. left. reflexivity.
Qed.

(** 0.1 and 0.001. *)
Definition tenth : f64_bits := 4591870180066957722.
Definition thousandth : f64_bits := 4562254508917369340.
Definition says (s : string) : list byte := map (fun c => N.of_nat (Ascii.nat_of_ascii c)) (list_ascii_of_string s).
Definition ints (n : nat) : list key := map (fun i => KInt 4 (N.of_nat i)) (seq 0 n).
Lemma says_ok s : bytes_ok (says s).
Proof. unfold says. apply Forall_forall. intros x H. apply in_map_iff in H as (c & <- & _). pose proof (Ascii.nat_ascii_bounded c). lia. Qed.

(** bloom.rs:121-128, 189-196, 431-437, 440-446 and v2.rs:437-450: none of the examples panics and every assertion holds, whatever
    the values of the hash function, in both builds and with every libm of the trusted base. *)
Theorem C109_documented pr wy L : libm_ln2_sq L -> libm_ln_range L ->
  (exists f, params_try_into_v2 pr L (params_new 1000 tenth) = Ok f) /\
  (exists f g r, bf_with_capacity pr L 1042 tenth = Ok f /\ bf_insert_bytes pr wy f (says "toto") = (g, Ok r) /\ bf_contains_bytes wy g (says "toto") = Ok true) /\
  (exists f g r, bloom_macro pr wy L 100 tenth [] = Ok f /\ bf_insert_bytes pr wy f (says "hello") = (g, Ok r) /\ bf_contains_bytes wy g (says "hello") = Ok true) /\
  (exists f, bloom_macro pr wy L 100 tenth [says "hello"; says "world"] = Ok f /\ bf_contains_bytes wy f (says "hello") = Ok true /\ bf_contains_bytes wy f (says "world") = Ok true) /\
  (exists f g, v2_with_capacity pr L 10000 thousandth = Ok f /\ insert_prepared pr wy f (map (v2_build_index_iter wy) (ints 1000)) = Ok g /\ forall k, In k (ints 1000) -> v2_contains wy g k = Ok true).
Proof.
  intros H1 H2. assert (T : fpp_in_range tenth = true) by (vm_compute; reflexivity). assert (T' : tenth < two64) by reflexivity.
  split; [exact (make_succeeds pr L 1000 tenth ONone H1 H2 T eq_refl)|].
  split; [exact (one_entry pr wy L 1042 tenth (says "toto") H1 H2 T T' ltac:(discriminate) eq_refl (says_ok _))|]. split; [|split].
  - destruct (one_entry pr wy L 100 tenth (says "hello") H1 H2 T T' ltac:(discriminate) eq_refl (says_ok _)) as (f & g & r & E & I & C).
    exists f, g, r. split; [unfold bloom_macro; rewrite E; reflexivity|auto].
  - set (ds := [says "hello"; says "world"]). assert (F : Forall bytes_ok ds) by (repeat constructor; apply says_ok).
    destruct (C71_macro_ok pr wy L 100 tenth ds ds H1 H2 T T' eq_refl F (fun _ h => h)) as (f & E & _); [discriminate|].
    destruct (C71_macro_result pr wy L 100 tenth ds f eq_refl T' F E) as (_ & _ & _ & _ & _ & _ & In'). exists f. split; [exact E|].
    split; apply In'; [left|right; left]; reflexivity.
  - assert (E : len (ints 1000) = 1000) by (unfold len, ints; rewrite map_length, seq_length; reflexivity).
    destruct (C109_prepared_new pr wy L 10000 thousandth (ints 1000) H1 H2 ltac:(vm_compute; reflexivity) eq_refl eq_refl) as (f & g & Ef & Eg & _ & In').
    { unfold ints. apply Forall_forall. intros x H. apply in_map_iff in H as (i & <- & _). exact I. } { rewrite E. discriminate. }
    exists f, g. auto.
Qed.
Print Assumptions C109_prepared.
Print Assumptions C109_prepared_new.
Print Assumptions C109_documented.

(** A filter of four entries; the loop over a fifth one is refused. *)
Example C109_example : exists g, insert_prepared Release ex_wy fn0 (map (v2_build_index_iter ex_wy) (ints 4)) = Ok g /\ v2_count g <= 4 /\ forall k, In k (ints 4) -> v2_contains ex_wy g k = Ok true.
Proof.
  destruct (C109_prepared Release ex_wy ref_libm (ints 4) fn0 _ (fn0_hist _)) as (g & E & _ & C & I0).
  { unfold v2_usable. intros _. vm_compute. discriminate. } { reflexivity. } { repeat constructor. } { vm_compute. discriminate. }
  exists g. split; [exact E|]. split; [exact C|]. intros k Hk. exact (proj1 (I0 k (or_intror Hk))).
Qed.
Succeed Definition full_test : match insert_prepared Release ex_wy fn0 (map (v2_build_index_iter ex_wy) (ints 4)) with
  | Ok g => (v2_count g =? 4) && match insert_prepared Release ex_wy g (map (v2_build_index_iter ex_wy) (ints 4)) with Ok h => v2_count h =? 4 | _ => false end | _ => false end = true := ltac:(vm_compute; reflexivity).
Succeed Definition refused_test : match insert_prepared Release ex_wy fn0 (map (v2_build_index_iter ex_wy) (ints 5)) with Panic => true | _ => false end = true := ltac:(vm_compute; reflexivity).
