(** C103: the v1 filter and the DCSO bloom library, through their files. *)
From Coq Require Import Lia.
From Verif Require Import M_V1 Spec_Bits Spec_Hash Spec_V1 Spec_Dcso.
From Verif Require Import P_Base P_BitSet P_V1 P_V1Codec P_V1More P_Mix.
From Verif Require Import P_IO Prop_Codec Ex_Base Ex_V1 M_RefLibm.
Open Scope N_scope.

(** The same filter in the two programs. *)
Record twin (d : dcso) (f : v1) : Prop := {
  tw_n : dc_n d = v1_capacity f; tw_p : dc_p d = v1_fpp f; tw_k : dc_k d = v1_n_hash f; tw_m : dc_m d = v1_bit_size f;
  tw_N : dc_N d = v1_count f; tw_v : dc_v d = v1_bitset f; tw_data : dc_data d = v1_data f; tw_wf : v1_wf f
}.

(** ** Words of a file *)
Lemma skipn_skipn {A} a : forall b (l : list A), skipn a (skipn b l) = skipn (b + a) l.
Proof. induction b as [|b IH]; intros [|x l]; try reflexivity; [now rewrite !skipn_nil|]. exact (IH l). Qed.
Lemma word_of_le i l : word i l = of_le (firstn 8 (skipn (8 * i) l)).
Proof. reflexivity. Qed.
Lemma word_S i l : word (S i) l = word i (skipn 8 l).
Proof. unfold word. rewrite skipn_skipn. do 3 f_equal. lia. Qed.
Lemma eight_le x : eight x = le_bytes 8 x.
Proof.
  unfold eight. cbn [seq map le_bytes N.of_nat Pos.of_succ_nat Pos.succ]. rewrite !N.div_div by discriminate. rewrite N.pow_0_r, N.div_1_r. reflexivity.
Qed.
Lemma shift6 {A} (g : nat -> A) n : forall k, map g (seq (6 + k) n) = map (fun i => g (6 + i)%nat) (seq k n).
Proof. induction n as [|n IH]; intro k; [reflexivity|]. cbn [seq map]. f_equal. replace (S (6 + k)) with (6 + S k)%nat by lia. apply IH. Qed.
Lemma first8 w (t : list N) : firstn 8 (le_bytes 8 w ++ t) = le_bytes 8 w.
Proof. reflexivity. Qed.
Lemma skip8 w (t : list N) : skipn 8 (le_bytes 8 w ++ t) = t.
Proof. reflexivity. Qed.
Lemma words_read ws t : words_ok 64 ws -> map (fun i => word i (concat (map (le_bytes 8) ws) ++ t)) (seq 0 (length ws)) = ws.
Proof.
  induction ws as [|w ws IH]; intro W; [reflexivity|]. apply Forall_cons_iff in W as [W0 W]. cbn [length seq map concat]. rewrite <- app_assoc.
  f_equal.
  - unfold word. change (8 * 0)%nat with 0%nat. change (of_le (firstn 8 (le_bytes 8 w ++ concat (map (le_bytes 8) ws) ++ t)) = w). rewrite first8. exact (le8_rt w W0).
  - rewrite <- seq_shift, map_map. rewrite <- (IH W) at 2. apply map_ext. intro i. now rewrite word_S, skip8.
Qed.
Lemma words_split n : forall l, bytes_ok l -> (8 * n <= length l)%nat ->
  l = concat (map (le_bytes 8) (map (fun i => word i l) (seq 0 n))) ++ skipn (8 * n) l /\ words_ok 64 (map (fun i => word i l) (seq 0 n)).
Proof.
  induction n as [|n IH]; intros l B H; [split; [reflexivity|constructor]|].
  pose proof B as B'. rewrite <- (firstn_skipn 8 l) in B'. apply Forall_app in B' as [B1 B2]. assert (L8 : length (firstn 8 l) = 8%nat) by (rewrite firstn_length; lia).
  destruct (IH (skipn 8 l) B2) as [E W]; [rewrite skipn_length; lia|].
  assert (M : map (fun i => word i l) (seq 0 (S n)) = of_le (firstn 8 l) :: map (fun i => word i (skipn 8 l)) (seq 0 n)).
  { cbn [seq map]. f_equal. rewrite <- seq_shift, map_map. apply map_ext. intro i. apply word_S. }
  rewrite M. cbn [map concat]. split.
  - rewrite <- L8 at 1. rewrite (le_bytes_of_le (firstn 8 l) B1). rewrite <- app_assoc. rewrite <- (firstn_skipn 8 l) at 1. f_equal. rewrite E at 1. do 1 f_equal. rewrite skipn_skipn. f_equal. lia.
  - constructor; [exact (of_le8_lt _ B1 L8)|exact W].
Qed.

(** The words of a file in order. *)
Definition made (fw : N) (d : dcso) : list byte := concat (map (le_bytes 8) ([fw; dc_n d; dc_p d; dc_k d; dc_m d; dc_N d] ++ dc_v d)) ++ dc_data d.
Record sound (d : dcso) : Prop := {
  so_head : words_ok 64 [dc_n d; dc_p d; dc_k d; dc_m d; dc_N d]; so_v : words_ok 64 (dc_v d); so_len : len (dc_v d) = dcso_words (dc_m d)
}.
Lemma made_length fw d : length (made fw d) = (48 + 8 * length (dc_v d) + length (dc_data d))%nat.
Proof. unfold made. rewrite app_length. pose proof (len_words ([fw; dc_n d; dc_p d; dc_k d; dc_m d; dc_N d] ++ dc_v d)) as E. unfold len in E. rewrite app_length in E. cbn [length] in E. lia. Qed.
Lemma read_made fw d : sound d -> fw < two64 -> fw mod 256 = 1 -> dcso_read (made fw d) = Some d.
Proof.
  intros [H V L] F F1. pose proof (made_length fw d) as Len.
  assert (W : words_ok 64 ([fw; dc_n d; dc_p d; dc_k d; dc_m d; dc_N d] ++ dc_v d)) by (apply Forall_app; split; [constructor; [exact F|exact H]|exact V]).
  pose proof (words_read _ (dc_data d) W) as R. fold (made fw d) in R. rewrite app_length in R. change (length [fw; dc_n d; dc_p d; dc_k d; dc_m d; dc_N d]) with 6%nat in R.
  rewrite seq_app, map_app in R. cbn [seq map app] in R. change (0 + 6)%nat with 6%nat in R.
  injection R as R0 R1 R2 R3 R4 R5 R6.
  unfold dcso_read. rewrite R0, R1, R2, R3, R4, R5, F1. replace (length (made fw d) <? 48)%nat with false by (symmetry; apply Nat.ltb_ge; lia). cbn [orb negb N.eqb Pos.eqb].
  rewrite <- L. replace (N.to_nat (len (dc_v d))) with (length (dc_v d)) by (unfold len; lia).
  replace (length (made fw d) <? 48 + 8 * length (dc_v d))%nat with false by (symmetry; apply Nat.ltb_ge; lia).
  replace (map (fun i => word (6 + i) (made fw d)) (seq 0 (length (dc_v d)))) with (dc_v d).
  2:{ rewrite <- R6 at 1. exact (shift6 (fun i => word i (made fw d)) (length (dc_v d)) 0). }
  replace (skipn (48 + 8 * length (dc_v d)) (made fw d)) with (dc_data d); [destruct d; reflexivity|].
  unfold made. rewrite skipn_app, skipn_all2; cbn [app].
  2:{ pose proof (len_words ([fw; dc_n d; dc_p d; dc_k d; dc_m d; dc_N d] ++ dc_v d)) as E. unfold len in E. rewrite app_length in E. cbn [length app] in E |- *. lia. }
  pose proof (len_words ([fw; dc_n d; dc_p d; dc_k d; dc_m d; dc_N d] ++ dc_v d)) as E. unfold len in E. rewrite app_length in E. cbn [length app] in E |- *.
  match goal with |- _ = skipn ?k _ => replace k with 0%nat by lia end. reflexivity.
Qed.
Lemma read_inv content d : bytes_ok content -> dcso_read content = Some d ->
  exists fw, content = made fw d /\ sound d /\ fw < two64 /\ fw mod 256 = 1 /\ bytes_ok (dc_data d).
Proof.
  intros B E. unfold dcso_read in E. destruct (Nat.ltb_spec (length content) 48) as [|H48]; [discriminate|]. cbn [orb] in E.
  destruct (N.eqb_spec (word 0 content mod 256) 1) as [F|]; [|discriminate]. cbn [negb] in E.
  set (M := N.to_nat (dcso_words (word 4 content))) in E. destruct (Nat.ltb_spec (length content) (48 + 8 * M)) as [|HM]; [discriminate|]. injection E as <-.
  destruct (words_split (6 + M) content B) as [S W]; [lia|]. exists (word 0 content).
  assert (Q : map (fun i => word i content) (seq 0 (6 + M)) = [word 0 content; word 1 content; word 2 content; word 3 content; word 4 content; word 5 content] ++ map (fun i => word (6 + i) content) (seq 0 M)).
  { rewrite seq_app, map_app. cbn [seq map app]. do 6 f_equal. exact (shift6 (fun i => word i content) M 0). }
  rewrite Q in S, W. pose proof W as W'. apply Forall_app in W' as [W1 W2]. apply Forall_cons_iff in W1 as [W0 W1].
  split; [|split; [|split; [exact W0|split; [exact F|]]]].
  - unfold made. cbn [dc_n dc_p dc_k dc_m dc_N dc_v dc_data]. fold M. replace (8 * (6 + M))%nat with (48 + 8 * M)%nat in S by lia. exact S.
  - constructor; cbn [dc_n dc_p dc_k dc_m dc_N dc_v dc_data]; [exact W1|exact W2|]. unfold len. rewrite map_length, seq_length. unfold M. apply N2Nat.id.
  - cbn [dc_data]. unfold bytes_ok in *. rewrite <- (firstn_skipn (48 + 8 * M) content) in B. now apply Forall_app in B as [_ B].
Qed.
Lemma write_made d : dcso_write d = made 1 d.
Proof. unfold dcso_write, made. do 2 f_equal. apply map_ext, eight_le. Qed.
Lemma image_made fb f d : twin d f -> length fb = 8%nat -> bytes_ok fb -> v1_image fb f = made (of_le fb) d.
Proof.
  intros [E1 E2 E3 E4 E5 E6 E7 _] L B. unfold v1_image, made. rewrite E1, E2, E3, E4, E5, E6, E7. cbn [app map concat]. assert (Q : le_bytes 8 (of_le fb) = fb) by (rewrite <- L; apply le_bytes_of_le, B). rewrite Q. now rewrite <- !app_assoc.
Qed.
Definition dcso_of (f : v1) : dcso :=
  {| dc_n := v1_capacity f; dc_p := v1_fpp f; dc_k := v1_n_hash f; dc_m := v1_bit_size f; dc_N := v1_count f; dc_v := v1_bitset f; dc_data := v1_data f |}.
Lemma twin_of f : v1_wf f -> twin (dcso_of f) f.
Proof. intro W. constructor; auto. Qed.
Lemma twin_sound d f : twin d f -> sound d.
Proof.
  intros [E1 E2 E3 E4 E5 E6 E7 W]. constructor; [|rewrite E6; apply (w1_bits f W)|rewrite E6, E4; exact (w1_len f W)].
  rewrite E1, E2, E3, E4, E5. repeat apply Forall_cons; [apply (w1_capacity f W)|apply (w1_fpp f W)|apply (w1_n_hash f W)|apply (w1_bit_size f W)|apply (w1_count f W)|constructor].
Qed.

(** ** Reading and writing *)
Lemma level_bytes o : opt_to_u8 o < 4.
Proof. destruct o; reflexivity. Qed.
Lemma level_some b : b < 4 -> exists o, opt_to_u8 o = b.
Proof. intro H. destruct b as [|[[]|[]|]]; try lia; [now exists ONone|now exists OBest|now exists OSpeed|now exists OSpace]. Qed.
Lemma flag_word v o r : bytes_ok (v :: o :: r) -> length r = 6%nat -> of_le (v :: o :: r) < two64 /\ of_le (v :: o :: r) mod 256 = v.
Proof.
  intros B L. split; [apply of_le8_lt; [exact B|cbn [length]; now rewrite L]|]. cbn [of_le]. apply Forall_cons_iff in B as [B _]. rewrite N.mul_comm, N.mod_add by discriminate. now apply N.mod_small.
Qed.
(** A file is loaded if and only if the other library reads it and its second byte is one of the four levels; the two
    programs then hold the same filter. *)
Theorem C103_read pr content : bytes_ok content ->
  (forall f, v1_from_reader pr content = Ok f <-> (exists d, dcso_read content = Some d /\ twin d f) /\
     content = fl_version (v1_flags f) :: opt_to_u8 (fl_opt (v1_flags f)) :: fl_reserved (v1_flags f) ++ skipn 8 content) /\
  (forall d, dcso_read content = Some d -> ((exists f, v1_from_reader pr content = Ok f) <-> nth 1 content 0 < 4)).
Proof.
  intro B.
  assert (S1 : forall f, v1_from_reader pr content = Ok f -> (exists d, dcso_read content = Some d /\ twin d f) /\
     content = fl_version (v1_flags f) :: opt_to_u8 (fl_opt (v1_flags f)) :: fl_reserved (v1_flags f) ++ skipn 8 content).
  { intros f E. pose proof (v1_load_sound _ _ _ B E) as V. pose proof (v1_load_wf _ _ _ B E) as W. pose proof (f1_bytes _ _ V) as C. split.
    - exists (dcso_of f). split; [|now apply twin_of]. pose proof (f1_reserved _ _ V) as R.
      assert (BB : bytes_ok (fl_version (v1_flags f) :: opt_to_u8 (fl_opt (v1_flags f)) :: fl_reserved (v1_flags f))) by (rewrite C in B; unfold v1_image in B; now apply Forall_app in B as [B _]).
      rewrite (image_made _ f (dcso_of f) (twin_of f W)) in C; [|cbn [length]; now rewrite R|exact BB]. rewrite C.
      destruct (flag_word _ _ _ BB R) as [H1 H2]. apply read_made; [apply (twin_sound _ f), twin_of, W|exact H1|]. rewrite H2. apply (f1_version _ _ V).
    - rewrite C at 1. unfold v1_image. cbn [app]. do 3 f_equal. rewrite C. unfold v1_image. pose proof (f1_reserved _ _ V) as R.
      destruct (fl_reserved (v1_flags f)) as [|b2 [|b3 [|b4 [|b5 [|b6 [|b7 [|]]]]]]]; try discriminate R. reflexivity. }
  assert (S2 : forall d v o r, dcso_read content = Some d -> content = v :: opt_to_u8 o :: r ++ skipn 8 content -> exists f,
     v1_from_reader pr content = Ok f /\ twin d f).
  { intros d v o r E C. destruct (read_inv _ _ B E) as (fw & M & [Hh Hv Hl] & F & F1 & Bd).
    assert (C8 : firstn 8 content = le_bytes 8 fw) by (rewrite M; unfold made; cbn [app map concat]; rewrite <- !app_assoc; apply first8).
    set (f := {| v1_flags := {| fl_version := 1; fl_opt := o; fl_reserved := skipn 2 (firstn 8 content) |}; v1_bitset := dc_v d; v1_capacity := dc_n d; v1_fpp := dc_p d;
        v1_n_hash := dc_k d; v1_bit_size := dc_m d; v1_count := dc_N d; v1_data := dc_data d; v1_fp := fp_new (dc_k d) (dc_m d) |}).
    exists f. repeat apply Forall_cons_iff in Hh as [? Hh].
    assert (V : v1_file content f).
    { constructor; cbn [f v1_flags v1_bitset v1_capacity v1_fpp v1_n_hash v1_bit_size v1_count v1_data v1_fp fl_version fl_opt fl_reserved]; auto.
      2:{ rewrite C8. reflexivity. }
      assert (H8 : le_bytes 8 fw = 1 :: opt_to_u8 o :: skipn 2 (firstn 8 content)).
      { rewrite C8. cbn [le_bytes skipn]. rewrite F1. f_equal. f_equal. rewrite C in C8. cbn [firstn le_bytes] in C8. injection C8 as _ C8 _. now symmetry. }
      rewrite M at 1. unfold v1_image, made. cbn [f v1_flags v1_bitset v1_capacity v1_fpp v1_n_hash v1_bit_size v1_count v1_data fl_version fl_opt fl_reserved].
      rewrite <- H8. cbn [app map concat]. now rewrite <- !app_assoc. }
    pose proof (v1_load_complete pr _ _ V) as L. split; [exact L|]. constructor; try reflexivity. exact (v1_load_wf _ _ _ B L). }
  split.
  - intro f. split; [apply S1|]. intros ((d & E & T) & C). destruct (S2 d _ _ _ E C) as (g & G & T'). rewrite G. f_equal.
    destruct (S1 g G) as (_ & C'). pose proof (v1_load_sound _ _ _ B G) as V. pose proof (f1_fp _ _ V) as Fg. pose proof (w1_fp f (tw_wf _ _ T)) as Ff.
    assert (Fl : v1_flags g = v1_flags f).
    { rewrite C in C' at 1. pose proof (f1_reserved _ _ V) as Rg. pose proof (w1_reserved f (tw_wf _ _ T)) as [Rf _].
      injection C' as C1 C2 C3. apply app_inv_len in C3 as [C3 _]; [|now rewrite Rg]. apply opt_to_u8_inj in C2. destruct (v1_flags f), (v1_flags g). cbn in *. congruence. }
    destruct T as [E1 E2 E3 E4 E5 E6 E7 _], T' as [D1 D2 D3 D4 D5 D6 D7 _]. destruct f, g. cbn in *. congruence.
  - intros d E. split.
    + intros (f & G). destruct (S1 f G) as (_ & C). rewrite C. cbn [nth]. apply level_bytes.
    + intro H. destruct (level_some _ H) as (o & O). destruct (read_inv _ _ B E) as (fw & M & _).
      assert (L2 : (8 <= length content)%nat) by (rewrite M, made_length; lia).
      destruct content as [|b0 [|b1 l]]; cbn [length] in L2; try lia. cbn [nth] in O.
      destruct (S2 d b0 o (firstn 6 l) E) as (f & G & _); [|now exists f]. rewrite O. do 2 f_equal. cbn [skipn]. symmetry. apply firstn_skipn.
Qed.
Print Assumptions C103_read.
(** The two programs write the same file, and each reads back what the other wrote. *)
Theorem C103_write pr d f : twin d f ->
  v1_write f = dcso_write d /\ dcso_read (v1_write f) = Some d /\ exists g, v1_from_reader pr (dcso_write d) = Ok g /\ twin d g /\ v1_flags g = flags_new 1.
Proof.
  intro T. pose proof (tw_wf _ _ T) as W. assert (E : v1_write f = dcso_write d). { rewrite v1_write_image, write_made. apply (image_made [1; 0; 0; 0; 0; 0; 0; 0]); [exact T|reflexivity|repeat apply Forall_cons; try reflexivity; constructor]. }
  split; [exact E|]. split; [rewrite E, write_made; apply read_made; [exact (twin_sound _ _ T)|reflexivity|reflexivity]|].
  exists (v1_canon f). rewrite <- E. split; [exact (v1_roundtrip pr f W)|]. split; [|reflexivity]. destruct T as [E1 E2 E3 E4 E5 E6 E7 _]. constructor; auto. now apply v1_canon_wf.
Qed.
Print Assumptions C103_write.

(** ** Queries *)
Definition go {A} (o : option A) : outcome A := match o with Some x => Ok x | None => Panic end.
Lemma word_at (v : list N) i : nth_error v (N.to_nat (i / 64)) = None <-> 64 * len v <= i.
Proof.
  change (getN v (i / 64) = None <-> 64 * len v <= i). rewrite getN_None. generalize (len v). intro n. clear. split; intro H.
  - apply N.le_trans with (64 * (i / 64)); [now apply N.mul_le_mono_l|]. now apply N.mul_div_le.
  - now apply N.div_le_lower_bound.
Qed.
Lemma all_loop v l : v1_contains_loop v (map Ok l) = go (dcso_all v l).
Proof.
  induction l as [|i l IH]; [reflexivity|]. cbn [map v1_contains_loop dcso_all]. rewrite v1_get_spec. unfold bit.
  destruct (N.ltb_spec i (64 * len v)) as [H|H].
  - destruct (nth_error v (N.to_nat (i / 64))) as [w|] eqn:E; [|apply word_at in E; lia]. cbn [obind]. destruct (N.testbit w (i mod 64)); [exact IH|reflexivity].
  - apply word_at in H. now rewrite H.
Qed.
(** Every query gets the same answer, or the same crash, in the two programs, as long as the filter has bits. *)
Theorem C103_check d f x : twin d f -> dc_m d <> 0 -> v1_contains_bytes f x = go (dcso_check d x).
Proof.
  intros T M. pose proof (tw_wf _ _ T) as W. pose proof T as [E1 E2 E3 E4 E5 E6 E7 _]. unfold v1_contains_bytes, dcso_check, dcso_divides. apply N.eqb_neq in M. rewrite M. cbn [negb]. rewrite Bool.orb_true_r.
  rewrite (fp_list_wf f x W). rewrite <- E4, M. rewrite all_loop. unfold v1_positions. rewrite <- E3, <- E4, <- E6.
  destruct (dc_v d) eqn:V; [|reflexivity]. exfalso. symmetry in E6. apply (v1_nil_iff f W) in E6. rewrite <- E4 in E6. now apply N.eqb_neq in M.
Qed.
Print Assumptions C103_check.

(** ** Insertions *)
Lemma upd_splice {A} (x : A) n : forall l, (n < length l)%nat -> firstn n l ++ x :: skipn (S n) l = upd l n x.
Proof. induction n as [|n IH]; intros [|y l] H; cbn [length] in H; try lia; [reflexivity|]. cbn [firstn app upd]. f_equal. exact (IH l ltac:(lia)). Qed.
Lemma mark_one v i w : words_ok 64 v -> nth_error v (N.to_nat (i / 64)) = Some w ->
  let v' := firstn (N.to_nat (i / 64)) v ++ N.setbit w (i mod 64) :: skipn (S (N.to_nat (i / 64))) v in
  len v' = len v /\ words_ok 64 v' /\ (forall j, bit 64 v' j = bit 64 v j || (j =? i)) /\ bit 64 v i = N.testbit w (i mod 64) /\ i < 64 * len v.
Proof.
  intros W E v'. assert (H : (N.to_nat (i / 64) < length v)%nat) by (apply nth_error_Some; congruence).
  assert (S : v' = setN v (i / 64) (N.lor w (N.shiftl 1 (i mod 64)))). { unfold v', setN. rewrite upd_splice by exact H. now rewrite N.setbit_spec', N.shiftl_1_l. }
  rewrite S. split; [apply setN_len|]. split; [|split; [|split]].
  - apply Forall_setN; [exact W|]. apply lor_lt; [exact (proj1 (Forall_forall _ _) W w (nth_error_In _ _ E))|]. rewrite N.shiftl_1_l. apply N.pow_lt_mono_r; [reflexivity|]. now apply N.mod_lt.
  - intro j. now apply bit_set.
  - rewrite bit_getN. unfold getN. now rewrite E.
  - destruct (N.lt_ge_cases i (64 * len v)) as [L|L]; [exact L|]. apply word_at in L. congruence.
Qed.
Lemma mark_sem l : forall v new, words_ok 64 v ->
  (in_range64 v l -> exists v', dcso_mark v l new = Some (v', new || negb (forallb (bit 64 v) l)) /\ len v' = len v /\ words_ok 64 v' /\
     forall j, bit 64 v' j = bit 64 v j || existsb (N.eqb j) l) /\ (dcso_mark v l new <> None -> in_range64 v l).
Proof.
  induction l as [|i l IH]; intros v new W.
  { split; [|intros _; constructor]. intros _. exists v. cbn. rewrite Bool.orb_false_r. repeat split; auto. intro j. now rewrite Bool.orb_false_r. }
  cbn [dcso_mark forallb existsb]. destruct (nth_error v (N.to_nat (i / 64))) as [w|] eqn:E.
  2:{ split; [|congruence]. intro R. apply Forall_cons_iff in R as [R _]. apply word_at in E. lia. }
  destruct (mark_one v i w W E) as (L & W' & Bt & Bi & Ri). set (v' := firstn _ v ++ _) in *. clearbody v'. destruct (IH v' (new || negb (N.testbit w (i mod 64))) W') as [I1 I2].
  assert (RR : in_range64 v' l <-> in_range64 v (i :: l)). { unfold in_range64. rewrite Forall_cons_iff, L. tauto. }
  split; [|intro X; apply RR, I2, X]. intro R. destruct (I1 (proj2 RR R)) as (v2 & M & L2 & W2 & B2). exists v2. rewrite M. split; [|split; [congruence|split; [exact W2|]]].
  - do 2 f_equal. rewrite Bi. destruct (N.testbit w (i mod 64)); cbn [negb andb]; [|now rewrite !Bool.orb_true_r]. rewrite Bool.orb_false_r. do 2 f_equal.
    clear - Bt Bi. induction l as [|k l IH]; [reflexivity|]. cbn [forallb]. rewrite IH, Bt. destruct (N.eqb_spec k i) as [->|]; [now rewrite Bi|now rewrite Bool.orb_false_r].
  - intro j. rewrite B2, Bt. now rewrite <- Bool.orb_assoc.
Qed.
Lemma add_ok pr d f x g b : twin d f -> v1_insert_bytes pr f x = (g, Ok b) ->
  exists d', dcso_add d x = Some d' /\ twin d' g /\ dc_n d' = dc_n d /\ dc_N d' = dc_N d + N.b2n b /\ v1_flags g = v1_flags f.
Proof.
  intros T I. pose proof (tw_wf _ _ T) as W. pose proof T as [E1 E2 E3 E4 E5 E6 E7 _]. pose proof (v1_insert_sem _ _ _ _ _ W I) as S.
  assert (P : dcso_positions (dc_k d) (dc_m d) x = v1_positions f x) by (unfold v1_positions; congruence).
  destruct (mark_sem (v1_positions f x) (v1_bitset f) false (w1_bits f W)) as [M1 M2].
  unfold dcso_add. rewrite P, E6. pose proof (i1_cases _ _ _ _ _ S) as (C0 & R & D' & Nb & Cap & Bt & Eq0 & Eq1).
  assert (D : dcso_divides d = true).
  { unfold dcso_divides. rewrite E3, E4. destruct (N.eqb_spec (v1_n_hash f) 0), (N.eqb_spec (v1_bit_size f) 0); cbn; try reflexivity. tauto. }
  rewrite D. destruct (M1 R) as (v' & -> & L & W' & B').
  change (forallb (bit 64 (v1_bitset f)) (v1_positions f x)) with (v1_covered f x). cbn [orb]. rewrite <- Nb.
  pose proof (i1_frame _ _ _ _ _ S) as (F1 & F2 & F3 & F4 & F5 & F6 & F7). eexists. split; [reflexivity|].
  assert (V : v' = v1_bitset g). { apply (bit_ext 64); [discriminate|exact W'|apply (w1_bits g (i1_wf _ _ _ _ _ S))|congruence|]. intros i _. rewrite B'. symmetry. exact (Bt i). }
  assert (N0 : (if b then (dc_N d + 1) mod 2 ^ 64 else dc_N d) = v1_count g /\ v1_count g = dc_N d + N.b2n b).
  { destruct b; cbn [N.b2n]; [|rewrite (Eq0 eq_refl); split; lia]. rewrite (Eq1 eq_refl), E5. split; [|reflexivity]. apply N.mod_small. pose proof (w1_capacity f W). specialize (Cap eq_refl). change (2 ^ 64) with two64. lia. }
  destruct N0 as [N0 N1].
  split; [|split; [reflexivity|split; [|exact F1]]]; [|cbn [dc_N dcso_with]; congruence].
  constructor; cbn [dcso_with dc_n dc_p dc_k dc_m dc_N dc_v dc_data]; try congruence; [rewrite E7; symmetry; apply (i1_data _ _ _ _ _ S)|apply (i1_wf _ _ _ _ _ S)].
Qed.
(** Insertion below the capacity: the same filter afterwards, or the same crash. *)
Theorem C103_add pr d f x : twin d f -> dc_N d < dc_n d ->
  match dcso_add d x with
  | Some d' => exists g b, v1_insert_bytes pr f x = (g, Ok b) /\ twin d' g /\ dc_n d' = dc_n d /\ dc_N d' = dc_N d + N.b2n b /\ v1_flags g = v1_flags f
  | None => snd (v1_insert_bytes pr f x) = Panic
  end.
Proof.
  intros T C. pose proof (tw_wf _ _ T) as W. pose proof T as [E1 E2 E3 E4 E5 E6 E7 _]. destruct (v1_insert_bytes pr f x) as [g r] eqn:I. pose proof (v1_insert_sem _ _ _ _ _ W I) as S.
  pose proof (i1_cases _ _ _ _ _ S) as CC. destruct r as [b|e|].
  - destruct (add_ok _ _ _ _ _ _ T I) as (d' & -> & Q). exists g, b. split; [reflexivity|exact Q].
  - destruct CC as (_ & _ & [C0|[C0 _]]); lia.
  - assert (P : dcso_positions (dc_k d) (dc_m d) x = v1_positions f x) by (unfold v1_positions; congruence).
    unfold dcso_add. rewrite P, E6. destruct (dcso_divides d) eqn:D; [|reflexivity].
    destruct (mark_sem (v1_positions f x) (v1_bitset f) false (w1_bits f W)) as [_ M2].
    destruct (dcso_mark (v1_bitset f) (v1_positions f x) false) as [[v' n']|] eqn:Mk; [|reflexivity].
    exfalso. apply CC. split; [apply M2; congruence|]. unfold dcso_divides in D. rewrite E3, E4 in D.
    destruct (N.eqb_spec (v1_n_hash f) 0), (N.eqb_spec (v1_bit_size f) 0); try discriminate D; tauto.
Qed.
Print Assumptions C103_add.

(** ** Working in turns on one file *)
Inductive tool := Go | Poppy (pr : profile).
Fixpoint poppy_adds (pr : profile) (f : v1) (xs : list (list byte)) : option v1 :=
  match xs with [] => Some f | x :: r => match v1_insert_bytes pr f x with (g, Ok _) => poppy_adds pr g r | _ => None end end.
(** One turn: load the file, insert values, save; [None] when a step fails. *)
Definition turn (t : tool) (content : list byte) (xs : list (list byte)) : option (list byte) :=
  match t with
  | Go => match dcso_read content with Some d => option_map dcso_write (dcso_adds d xs) | None => None end
  | Poppy pr => match v1_from_reader pr content with Ok f => option_map v1_write (poppy_adds pr f xs) | _ => None end
  end.
Fixpoint turns (content : list byte) (l : list (tool * list (list byte))) : option (list byte) :=
  match l with [] => Some content | (t, xs) :: r => match turn t content xs with Some c => turns c r | None => None end end.
Definition values (l : list (tool * list (list byte))) : N := sumN (map (fun s => len (snd s)) l).

Lemma adds_ok pr xs : forall d f g, twin d f -> poppy_adds pr f xs = Some g -> exists d', dcso_adds d xs = Some d' /\ twin d' g.
Proof.
  induction xs as [|x xs IH]; intros d f g T E; [injection E as <-; exists d; now split|]. cbn [poppy_adds dcso_adds] in *.
  destruct (v1_insert_bytes pr f x) as [h r] eqn:I. destruct r as [b| |]; try discriminate E. destruct (add_ok _ _ _ _ _ _ T I) as (d' & -> & T' & _). exact (IH _ _ _ T' E).
Qed.
Lemma adds_below pr xs : forall d f, twin d f -> dc_N d + len xs <= dc_n d ->
  match dcso_adds d xs with
  | Some d' => exists g, poppy_adds pr f xs = Some g /\ twin d' g /\ dc_n d' = dc_n d /\ dc_N d' <= dc_N d + len xs
  | None => poppy_adds pr f xs = None
  end.
Proof.
  induction xs as [|x xs IH]; intros d f T H; [exists f; split; [reflexivity|split; [exact T|split; [reflexivity|lia]]]|]. cbn [poppy_adds dcso_adds]. rewrite len_cons in *.
  pose proof (C103_add pr d f x T ltac:(lia)) as A. destruct (dcso_add d x) as [d'|].
  - destruct A as (g & b & -> & T' & Hn & HN & _). assert (b2 : N.b2n b <= 1) by (destruct b; cbn; lia). specialize (IH d' g T' ltac:(lia)). destruct (dcso_adds d' xs) as [d2|]; [|exact IH].
    destruct IH as (h & E & T2 & Hn2 & HN2). exists h. split; [exact E|]. split; [exact T2|]. split; [congruence|lia].
  - destruct (v1_insert_bytes pr f x) as [g r]. cbn [snd] in A. subst r. reflexivity.
Qed.
Lemma write_bytes d f : twin d f -> bytes_ok (dcso_write d) /\ nth 1 (dcso_write d) 0 < 4 /\ dcso_read (dcso_write d) = Some d.
Proof. intro T. destruct (C103_write Debug d f T) as (E & R & _). rewrite <- E. split; [exact (v1_write_bytes _ (tw_wf _ _ T))|]. split; [reflexivity|exact R]. Qed.

(** What a mixed session produced, the DCSO library produces alone. *)
Theorem C103_alone content l out : bytes_ok content -> turns content l = Some out -> turns content (map (fun s => (Go, snd s)) l) = Some out.
Proof.
  revert content. induction l as [|[t xs] l IH]; intros content B E; [exact E|]. cbn [turns map snd] in *.
  destruct (turn t content xs) as [c|] eqn:T; [|discriminate].
  assert (Q : turn Go content xs = Some c /\ bytes_ok c).
  { destruct t as [|pr].
    - split; [exact T|]. cbn [turn] in T. destruct (dcso_read content) as [d|] eqn:R; [|discriminate]. destruct (dcso_adds d xs) as [d'|] eqn:A; [|discriminate]. injection T as <-.
      destruct (read_inv _ _ B R) as (_ & _ & _ & _ & _ & Bd). assert (DD : dc_data d' = dc_data d).
      { clear - A. revert d A. induction xs as [|x xs IH]; intros d A; [now injection A as <-|]. cbn [dcso_adds] in A. destruct (dcso_add d x) as [d1|] eqn:A1; [|discriminate]. rewrite (IH d1 A). unfold dcso_add in A1.
        destruct (dcso_divides d); [|discriminate]. destruct (dcso_mark _ _ _) as [[v n]|]; [|discriminate]. now injection A1 as <-. }
      rewrite write_made. unfold made. apply Forall_app. split; [|now rewrite DD]. apply v1_bytes_concat.
    - cbn [turn] in *. destruct (v1_from_reader pr content) as [f| |] eqn:V; try discriminate. destruct (poppy_adds pr f xs) as [g|] eqn:A; [|discriminate]. injection T as <-.
      destruct (proj1 (proj1 (C103_read pr content B) f) V) as ((d & -> & T) & _). destruct (adds_ok _ _ _ _ _ T A) as (d' & -> & T'). cbn [option_map].
      destruct (C103_write pr d' g T') as (W & _). split; [now rewrite W|exact (v1_write_bytes _ (tw_wf _ _ T'))]. }
  destruct Q as [-> Bc]. exact (IH c Bc E).
Qed.
Print Assumptions C103_alone.
(** While the values fit the capacity it does not matter which program takes which turn. *)
Theorem C103_interchange content d l l' : bytes_ok content -> dcso_read content = Some d -> nth 1 content 0 < 4 -> dc_N d + values l <= dc_n d ->
  map snd l = map snd l' -> turns content l = turns content l'.
Proof.
  intros B R Lv H M.
  assert (G : forall l content d, bytes_ok content -> dcso_read content = Some d -> nth 1 content 0 < 4 -> dc_N d + values l <= dc_n d -> turns content l = turns content (map (fun s => (Go, snd s)) l)).
  { clear. induction l as [|[t xs] l IH]; intros content d B R Lv H; [reflexivity|]. change (values ((t, xs) :: l)) with (len xs + values l) in H. cbn [turns map snd].
    destruct (proj2 (proj2 (C103_read Debug content B) d R) Lv) as (f0 & V0).
    assert (Q : turn t content xs = turn Go content xs /\ forall c, turn Go content xs = Some c -> bytes_ok c /\ nth 1 c 0 < 4 /\ exists d', dcso_read c = Some d' /\ dc_N d' + values l <= dc_n d').
    { assert (K : forall pr, turn (Poppy pr) content xs = turn Go content xs /\ forall c, turn Go content xs = Some c -> bytes_ok c /\ nth 1 c 0 < 4 /\ exists d', dcso_read c = Some d' /\ dc_N d' + values l <= dc_n d').
      { intro pr. destruct (proj2 (proj2 (C103_read pr content B) d R) Lv) as (f & V). destruct (proj1 (proj1 (C103_read pr content B) f) V) as ((d1 & R1 & T) & _).
        assert (d1 = d) by congruence. subst d1. cbn [turn]. rewrite V, R. assert (Hx : dc_N d + len xs <= dc_n d) by (clear - H; lia). pose proof (adds_below pr xs d f T Hx) as A. destruct (dcso_adds d xs) as [d'|].
        - destruct A as (g & -> & T' & Hn & HN). cbn [option_map]. destruct (C103_write pr d' g T') as (W & _). split; [now rewrite W|]. intros c E. injection E as <-. destruct (write_bytes d' g T') as (B' & L' & R').
          split; [exact B'|]. split; [exact L'|]. exists d'. split; [exact R'|lia].
        - rewrite A. split; [reflexivity|discriminate]. }
      destruct t as [|pr]; [split; [reflexivity|exact (proj2 (K Debug))]|exact (K pr)]. }
    destruct Q as [-> Q]. destruct (turn Go content xs) as [c|]; [|reflexivity]. destruct (Q c eq_refl) as (Bc & Lc & d' & Rc & Hc). exact (IH c d' Bc Rc Lc Hc). }
  assert (H' : values l' = values l). { unfold values. rewrite <- (map_map snd len l), <- (map_map snd len l'). now rewrite M. }
  rewrite <- H' in H. rewrite (G l' content d B R Lv H). rewrite H' in H. rewrite (G l content d B R Lv H). f_equal. rewrite <- (map_map snd (fun x => (Go, x)) l), <- (map_map snd (fun x => (Go, x)) l'). now rewrite M.
Qed.
Print Assumptions C103_interchange.

(** ** No insertion is lost *)
Lemma all_true v l : dcso_all v l = Some true <-> in_range64 v l /\ forallb (bit 64 v) l = true.
Proof.
  induction l as [|i l IH]; [split; [split; [constructor|reflexivity]|reflexivity]|]. cbn [dcso_all forallb]. unfold in_range64 in *. rewrite Forall_cons_iff, Bool.andb_true_iff. unfold bit at 1.
  destruct (nth_error v (N.to_nat (i / 64))) as [w|] eqn:E.
  - assert (H : i < 64 * len v) by (destruct (N.lt_ge_cases i (64 * len v)) as [L|L]; [exact L|apply word_at in L; congruence]).
    destruct (N.testbit w (i mod 64)); [tauto|]. split; [discriminate|]. intros (_ & X & _). discriminate X.
  - split; [discriminate|]. intros ((H & _) & _). apply word_at in E. lia.
Qed.
(** [d'] has the parameters of [d] and at least its bits. *)
Definition grown (d d' : dcso) : Prop :=
  dc_n d' = dc_n d /\ dc_p d' = dc_p d /\ dc_k d' = dc_k d /\ dc_m d' = dc_m d /\ dc_data d' = dc_data d /\ len (dc_v d') = len (dc_v d) /\
  forall i, bit 64 (dc_v d) i = true -> bit 64 (dc_v d') i = true.
Lemma grown_refl d : grown d d.
Proof. unfold grown. intuition. Qed.
Lemma grown_trans a b c : grown a b -> grown b c -> grown a c.
Proof. intros (A1 & A2 & A3 & A4 & A5 & A6 & A7) (B1 & B2 & B3 & B4 & B5 & B6 & B7). unfold grown. repeat (split; [congruence|]). auto. Qed.
Lemma check_grown d d' x : grown d d' -> dcso_check d x = Some true -> dcso_check d' x = Some true.
Proof.
  intros (A1 & A2 & A3 & A4 & A5 & A6 & A7). unfold dcso_check, dcso_divides. rewrite A3, A4. destruct (_ || _); [|discriminate]. rewrite !all_true. intros [R F]. split.
  - unfold in_range64 in *. now rewrite A6.
  - rewrite forallb_forall in *. intros i Hi. apply A7, F, Hi.
Qed.
Lemma add_sem d x d' : sound d -> dcso_add d x = Some d' -> sound d' /\ grown d d' /\ dcso_check d' x = Some true.
Proof.
  intros [Hh Hv Hl] E. unfold dcso_add in E. destruct (dcso_divides d) eqn:D; [|discriminate]. destruct (mark_sem (dcso_positions (dc_k d) (dc_m d) x) (dc_v d) false Hv) as [M1 M2].
  destruct (dcso_mark (dc_v d) _ false) as [[v new]|] eqn:Mk; [|discriminate]. assert (R : in_range64 (dc_v d) (dcso_positions (dc_k d) (dc_m d) x)) by (apply M2; discriminate).
  destruct (M1 R) as (v' & Q & L & W & B). injection Q as -> _. injection E as <-. split; [|split].
  - constructor; cbn [dcso_with dc_n dc_p dc_k dc_m dc_N dc_v]; [|exact W|congruence]. repeat apply Forall_cons_iff in Hh as [? Hh]. repeat (apply Forall_cons; [assumption|]). apply Forall_cons; [|constructor].
    destruct new; [now apply N.mod_lt|assumption].
  - unfold grown. cbn [dcso_with dc_n dc_p dc_k dc_m dc_v dc_data]. repeat (split; [first [reflexivity|congruence]|]). intros i Hi. now rewrite B, Hi.
  - unfold dcso_check. change (dcso_divides (dcso_with d v' _)) with (dcso_divides d). rewrite D. cbn [dcso_with dc_k dc_m dc_v]. apply all_true. split; [unfold in_range64 in *; now rewrite L|].
    apply forallb_forall. intros i Hi. rewrite B. apply Bool.orb_true_iff. right. apply existsb_exists. exists i. split; [exact Hi|apply N.eqb_refl].
Qed.
Lemma adds_sem xs : forall d d', sound d -> dcso_adds d xs = Some d' -> sound d' /\ grown d d' /\ forall x, In x xs -> dcso_check d' x = Some true.
Proof.
  induction xs as [|x xs IH]; intros d d' S E; [injection E as <-; split; [exact S|split; [apply grown_refl|intros x []]]|]. cbn [dcso_adds] in E. destruct (dcso_add d x) as [d1|] eqn:A; [|discriminate].
  destruct (add_sem _ _ _ S A) as (S1 & G1 & C1). destruct (IH _ _ S1 E) as (S2 & G2 & C2). split; [exact S2|]. split; [exact (grown_trans _ _ _ G1 G2)|].
  intros y [<-|Hy]; [exact (check_grown _ _ _ G2 C1)|exact (C2 y Hy)].
Qed.
Lemma turns_go (l : list (tool * list (list byte))) : forall content out d, sound d -> bytes_ok (dc_data d) -> dcso_read content = Some d -> turns content (map (fun s => (Go, snd s)) l) = Some out -> l <> [] ->
  exists d', out = dcso_write d' /\ sound d' /\ bytes_ok (dc_data d') /\ grown d d' /\ forall x, In x (concat (map snd l)) -> dcso_check d' x = Some true.
Proof.
  induction l as [|[t xs] l IH]; intros content out d S B R E H; [congruence|]. cbn [map snd turns turn concat] in *. rewrite R in E. destruct (dcso_adds d xs) as [d1|] eqn:A; [|discriminate]. cbn [option_map] in E.
  destruct (adds_sem _ _ _ S A) as (S1 & G1 & C1). assert (B1 : bytes_ok (dc_data d1)) by (destruct G1 as (_ & _ & _ & _ & -> & _); exact B).
  destruct l as [|s l].
  - injection E as <-. exists d1. cbn [map concat]. rewrite app_nil_r. split; [reflexivity|]. split; [exact S1|]. split; [exact B1|]. split; [exact G1|exact C1].
  - assert (R1 : dcso_read (dcso_write d1) = Some d1) by (rewrite write_made; now apply read_made). destruct (IH _ _ d1 S1 B1 R1 E ltac:(discriminate)) as (d2 & -> & S2 & B2 & G2 & C2).
    exists d2. split; [reflexivity|]. split; [exact S2|]. split; [exact B2|]. split; [exact (grown_trans _ _ _ G1 G2)|]. intros x Hx. apply in_app_or in Hx as [Hx|Hx]; [exact (check_grown _ _ _ G2 (C1 x Hx))|exact (C2 x Hx)].
Qed.
(** Every value inserted by either program in some turn is found by both in the last file. *)
Theorem C103_kept content l out x : bytes_ok content -> turns content l = Some out -> In x (concat (map snd l)) ->
  exists d, dcso_read out = Some d /\ dcso_check d x = Some true /\
    forall pr, exists f, v1_from_reader pr out = Ok f /\ twin d f /\ (dc_m d <> 0 -> v1_contains_bytes f x = Ok true).
Proof.
  intros B E Hx. pose proof (C103_alone _ _ _ B E) as A. assert (Nl : l <> []) by (intros ->; exact Hx).
  destruct (dcso_read content) as [d|] eqn:R. 2:{ destruct l as [|[t xs] l]; [congruence|]. cbn [map snd turns turn] in A. rewrite R in A. discriminate. }
  destruct (read_inv _ _ B R) as (_ & _ & S & _ & _ & Bd). destruct (turns_go _ _ _ d S Bd R A Nl) as (d' & -> & S' & Bd' & _ & C). exists d'.
  assert (R' : dcso_read (dcso_write d') = Some d') by (rewrite write_made; now apply read_made). split; [exact R'|]. split; [exact (C x Hx)|]. intro pr.
  assert (Bo : bytes_ok (dcso_write d')) by (rewrite write_made; unfold made; apply Forall_app; split; [apply v1_bytes_concat|exact Bd']).
  destruct (proj2 (proj2 (C103_read pr _ Bo) d' R') eq_refl) as (f & V). destruct (proj1 (proj1 (C103_read pr _ Bo) f) V) as ((d1 & R1 & T) & _). assert (d1 = d') by congruence. subst d1.
  exists f. split; [exact V|]. split; [exact T|]. intro M. rewrite (C103_check d' f x T M), (C x Hx). reflexivity.
Qed.
Print Assumptions C103_kept.

(** ** Unions *)
Theorem C103_join L a b f g : twin a f -> twin b g -> v1_flags f = v1_flags g -> dc_n a = dc_n b -> fpp_eqb (dc_p a) (dc_p b) = true -> dc_k a = dc_k b -> dc_m a = dc_m b ->
  exists h, v1_union_merge L f g = (h, Ok tt) /\ v1_bitset h = dcso_join_bits a b.
Proof.
  intros [E1 E2 E3 E4 E5 E6 E7 W] [D1 D2 D3 D4 D5 D6 D7 V] F Hn Hp Hk Hm. destruct (v1_union_merge L f g) as [h r] eqn:U. exists h.
  assert (LL : len (v1_bitset f) = len (v1_bitset g)) by (rewrite (w1_len f W), (w1_len g V); congruence).
  assert (P : v1_has_same_params f g = true) by (apply v1_same_params_iff; unfold v1_same_shape; repeat (split; [congruence|]); congruence).
  unfold v1_union_merge in U. rewrite P in U. cbn [negb] in U.
  assert (Z : zip_with N.lor (v1_bitset f) (v1_bitset g) = Ok (dcso_join_bits a b)).
  { unfold dcso_join_bits. rewrite E6, D6. clear - LL. revert LL. generalize (v1_bitset f), (v1_bitset g). clear. induction l as [|x l IH]; intros [|y m] H; try (rewrite ?len_cons in H; cbn in H; lia); [reflexivity|].
    cbn [zip_with combine map fst snd]. rewrite !len_cons in H. rewrite (IH m ltac:(lia)). reflexivity. }
  rewrite Z in U. injection U as <- <-. split; reflexivity.
Qed.
Print Assumptions C103_join.

(** ** Where the programs differ *)
(** At the capacity a new value is accepted by the other library and refused here. *)
Theorem C103_full pr d f x d' : twin d f -> dc_n d <= dc_N d -> dcso_add d x = Some d' -> dcso_check d x <> Some true -> v1_insert_bytes pr f x = (f, Err TooManyEntries).
Proof.
  intros T H A C. pose proof (tw_wf _ _ T) as W. pose proof T as [E1 E2 E3 E4 E5 E6 E7 _]. destruct (v1_insert_bytes pr f x) as [g r] eqn:I. pose proof (v1_insert_sem _ _ _ _ _ W I) as S. pose proof (i1_cases _ _ _ _ _ S) as CC.
  assert (P : dcso_positions (dc_k d) (dc_m d) x = v1_positions f x) by (unfold v1_positions; congruence).
  unfold dcso_add in A. unfold dcso_check in C. destruct (dcso_divides d) eqn:D; [|discriminate]. rewrite P, E6 in A, C. destruct (mark_sem (v1_positions f x) (v1_bitset f) false (w1_bits f W)) as [_ M2].
  destruct (dcso_mark _ _ _) as [[v n]|]; [|discriminate]. assert (R : in_range64 (v1_bitset f) (v1_positions f x)) by (apply M2; discriminate).
  assert (Cv : v1_covered f x = false). { destruct (v1_covered f x) eqn:Q; [|reflexivity]. exfalso. apply C, all_true. now split. }
  destruct r as [b|e|].
  - destruct CC as (_ & _ & _ & Nb & Cap & _). rewrite Cv in Nb. subst b. specialize (Cap eq_refl). lia.
  - destruct CC as (-> & -> & _). reflexivity.
  - exfalso. apply CC. split; [exact R|]. unfold dcso_divides in D. rewrite E3, E4 in D. destruct (N.eqb_spec (v1_n_hash f) 0), (N.eqb_spec (v1_bit_size f) 0); try discriminate D; tauto.
Qed.
Print Assumptions C103_full.
(** A filter without bits: nothing is found here; the other library finds everything, or crashes. *)
Theorem C103_no_bits d f x : twin d f -> dc_m d = 0 -> v1_contains_bytes f x = Ok false /\ dcso_check d x = if dc_k d =? 0 then Some true else None.
Proof.
  intros T M. pose proof (tw_wf _ _ T) as W. pose proof T as [E1 E2 E3 E4 E5 E6 E7 _]. split.
  - unfold v1_contains_bytes. rewrite (proj2 (v1_nil_iff f W)) by congruence. reflexivity.
  - unfold dcso_check, dcso_divides. rewrite M. destruct (N.eqb_spec (dc_k d) 0) as [K|K]; [|reflexivity]. rewrite K. reflexivity.
Qed.
Print Assumptions C103_no_bits.

(** Three turns on the file of an empty filter of capacity 4, in two orders of the programs; a full filter; one without bits. *)
Definition d0 : dcso := {| dc_n := 4; dc_p := p001; dc_k := 7; dc_m := 38; dc_N := 0; dc_v := [0]; dc_data := [200; 1] |}.
Definition three : list (tool * list (list byte)) := [(Poppy Debug, [da]); (Go, [db; da]); (Poppy Release, [dc])].
Definition three' : list (tool * list (list byte)) := [(Go, [da]); (Poppy Release, [db; da]); (Go, [dc])].
Definition d3 : dcso := match dcso_adds d0 [da; db; dc] with Some d => d | None => d0 end.
Example C103_example : bytes_ok (dcso_write d0) /\ dcso_read (dcso_write d0) = Some d0 /\ twin d0 (v1_set_data e0 [200; 1]) /\ dc_N d0 + values three <= dc_n d0 /\ map snd three = map snd three' /\
  turns (dcso_write d0) three = Some (dcso_write d3) /\ turns (dcso_write d0) three' = Some (dcso_write d3) /\ dc_N d3 = 3 /\
  map (dcso_check d3) [da; db; dc; [9; 9; 9]] = [Some true; Some true; Some true; Some false].
Proof.
  split; [small_bytes|]. split; [vm_compute; reflexivity|]. split.
  { constructor; try reflexivity. apply v1_set_data_wf; [|repeat constructor]. apply (v1_created_wf ref_libm 4 p001); [reflexivity|reflexivity|]. apply v1_make_created. vm_compute. reflexivity. }
  split; [vm_compute; discriminate|]. split; [reflexivity|]. split; [vm_compute; reflexivity|]. split; [vm_compute; reflexivity|]. split; vm_compute; reflexivity.
Qed.
Definition full2 : dcso := dcso_of q2.
Example C103_differences : twin full2 q2 /\ dc_n full2 <= dc_N full2 /\ dcso_check full2 dc = Some false /\ option_map dc_N (dcso_add full2 dc) = Some 3 /\
  let nine := 1 :: 9 :: skipn 2 (dcso_write d0) in dcso_read nine = Some d0 /\ v1_from_reader Debug nine = Err (OptLevelError 9).
Proof.
  split; [apply twin_of|]. { refine (i1_wf _ _ _ _ _ (v1_insert_sem _ _ _ _ _ _ q2_eq)). refine (i1_wf _ _ _ _ _ (v1_insert_sem _ _ _ _ _ _ q1_eq)). apply (v1_created_wf ref_libm 2 p001); [reflexivity|reflexivity|]. apply v1_make_created. exact q0_eq. }
  split; [vm_compute; discriminate|]. split; [vm_compute; reflexivity|]. split; [vm_compute; reflexivity|]. split; vm_compute; reflexivity.
Qed.
