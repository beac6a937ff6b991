(** C110: which strings of the program are text. *)
From Coq Require Import Lia Reals Lra.
From Verif Require Import M_Base M_Lines M_Cli M_Bench Spec_Bits Spec_Lines Spec_Cli Spec_Bench Spec_Rate Spec_BenchAvg P_Base P_Lines P_Rate P_CountAvg P_Bench Ex_Base Ex_V1 Prop_Bench Prop_BenchAvg.
Open Scope N_scope.

(** ** Lines are text *)
Lemma chomp_cases seg : seg = chomp seg \/ seg = chomp seg ++ [LF] \/ seg = chomp seg ++ [CR; LF].
Proof.
  unfold chomp. rewrite <- (rev_involutive seg). destruct (rev seg) as [|x r]; [now left|]. rewrite rev_involutive. destruct (N.eqb_spec x LF) as [->|Nx]; [|now left].
  destruct r as [|y r]; [right; left; reflexivity|]. destruct (N.eqb_spec y CR) as [->|Ny]; right; [right|left]; cbn [rev]; rewrite <- ?app_assoc; reflexivity.
Qed.
(** What std's lines() yields is text, whatever the bytes read; this is all that insert, check, create and bench take from files and standard input. *)
Theorem C110_lines s e : In (Some e) (lines s) -> utf8 e.
Proof.
  intro H. rewrite lines_map in H. apply in_map_iff in H as (seg & E & _). unfold line_of in E. destruct (utf8_valid seg) eqn:V; [|discriminate]. injection E as <-. apply utf8_valid_iff in V.
  destruct (chomp_cases seg) as [<-|[Q|Q]]; [exact V| |]; rewrite Q in V; [exact (proj1 (utf8_split LF _ [] eq_refl V))|exact (proj1 (utf8_split CR _ [LF] eq_refl V))].
Qed.
Lemma entries_from pr wyh limit l : forall size marked es, bench_entries pr wyh limit size marked l = Ok es -> forall e, In e es -> In (Some e) l.
Proof.
  induction l as [|[line|] l IH]; intros size marked es E e He; cbn [bench_entries] in E; [injection E as <-; contradiction| |discriminate].
  destruct (bz_cmp _ _); cbv zeta in E; try (injection E as <-; contradiction);
    (destruct (existsb _ marked); [right; exact (IH _ _ _ E e He)|]; destruct (checked_add pr size (len line)) as [n|x|]; try discriminate; cbn [obind] in E;
     match type of E with context [bench_entries ?a ?b ?c ?d ?m ?x] => destruct (bench_entries a b c d m x) as [es'| |] eqn:E' end; try discriminate; cbn [obind] in E; injection E as <-; destruct He as [<-|He]; [now left|right; exact (IH _ _ _ E' e He)]).
Qed.
Theorem C110_entries pr wyh limit stdin es : bench_entries pr wyh limit 0 [] (lines stdin) = Ok es -> Forall utf8 es.
Proof. intro E. apply Forall_forall. intros e He. exact (C110_lines stdin e (entries_from _ _ _ _ _ _ _ E e He)). Qed.

(** ** Few byte strings are text *)
(** The share of the byte strings of length [n] that are text. *)
Definition text_share (n : nat) : R := avg_seq 256 n [] (fun s => ind (utf8_valid (map N.of_nat s))).
Open Scope R_scope.
Definition on_head (p : nat -> bool) (g : list nat -> R) (s : list nat) : R := match s with a :: r => ind (p a) * g r | [] => 0 end.
Definition weight (p : nat -> bool) : R := INR (cnt 256 p) / 256.
Lemma inr256 : INR 256 = 256. Proof. rewrite INR_IZR_INZ. reflexivity. Qed.
Lemma head_avg p g n : forall l, avg_seq 256 (S n) l (on_head p g) = weight p * avg_seq 256 n l g.
Proof.
  induction n as [|n IH]; intro l.
  - cbn [avg_seq on_head]. rewrite (avg_ext 256 _ (fun i => g l * ind (p i))) by (intros; ring). rewrite avg_scal, cnt_avg. rewrite inr256. unfold weight. ring.
  - change (avg 256 (fun i => avg_seq 256 (S n) (i :: l) (on_head p g)) = weight p * avg_seq 256 (S n) l g). rewrite (avg_ext 256 _ (fun i => weight p * avg_seq 256 n (i :: l) g)) by (intros; apply IH). rewrite avg_scal. reflexivity.
Qed.
Lemma head_none p g : avg_seq 256 0 [] (on_head p g) = 0. Proof. reflexivity. Qed.
Definition between (lo hi a : nat) : bool := Nat.leb lo a && Nat.leb a hi.
Lemma weight_between lo hi : weight (between lo hi) = INR (cnt 256 (between lo hi)) / 256. Proof. reflexivity. Qed.
Definition valid (s : list nat) : R := ind (utf8_valid (map N.of_nat s)).
Definition cont_then (g : list nat -> R) := on_head (between 128 191) g.
Definition bound (s : list nat) : R :=
  on_head (between 0 127) valid s + on_head (between 194 223) (cont_then valid) s + on_head (between 224 239) (cont_then (cont_then valid)) s + on_head (between 240 244) (cont_then (cont_then (cont_then valid))) s.
Lemma ind_pos b : 0 <= ind b. Proof. destruct b; cbn; lra. Qed.
Lemma head_pos p g s : (forall r, 0 <= g r) -> 0 <= on_head p g s.
Proof. intro H. destruct s as [|a r]; cbn; [lra|]. pose proof (ind_pos (p a)). specialize (H r). nra. Qed.
Lemma valid_pos s : 0 <= valid s. Proof. apply ind_pos. Qed.
Lemma btw lo hi a : (N.of_nat lo <= N.of_nat a)%N -> (N.of_nat a <= N.of_nat hi)%N -> between lo hi a = true.
Proof. intros A B. unfold between. apply Bool.andb_true_iff. split; apply Nat.leb_le; lia. Qed.
Lemma valid_bound s : s <> [] -> valid s <= bound s.
Proof.
  intro Ns. assert (P : 0 <= on_head (between 0 127) valid s /\ 0 <= on_head (between 194 223) (cont_then valid) s /\ 0 <= on_head (between 224 239) (cont_then (cont_then valid)) s /\ 0 <= on_head (between 240 244) (cont_then (cont_then (cont_then valid))) s)
    by (unfold cont_then; repeat split; repeat (apply head_pos; intro); apply valid_pos).
  destruct P as (P1 & P2 & P3 & P4). unfold bound. destruct (utf8_valid (map N.of_nat s)) eqn:V; [|assert (valid s = 0) as -> by (unfold valid; rewrite V; reflexivity); lra].
  assert (E1 : valid s = 1) by (unfold valid; rewrite V; reflexivity). rewrite E1. apply utf8_valid_iff in V as (cs & F & E). destruct F as [|c cs Hc F]; [destruct s; [now contradiction Ns|discriminate]|]. cbn [concat] in E.
  assert (VR : forall r, map N.of_nat r = concat cs -> valid r = 1). { intros r Hr. unfold valid. rewrite Hr. assert (utf8_valid (concat cs) = true) as -> by (apply utf8_valid_iff; exists cs; auto). reflexivity. }
  assert (ST : forall lo hi g a n r, a = N.of_nat n -> (N.of_nat lo <= a <= N.of_nat hi)%N -> g r = 1 -> on_head (between lo hi) g (n :: r) = 1). { intros lo hi g a n r -> [A B] G. cbn [on_head]. rewrite (btw _ _ _ A B), G. cbn. ring. }
  Ltac uncons s x X E := destruct s as [|x s]; [discriminate E|]; cbn [map] in E; injection E as X E; symmetry in X.
  destruct Hc as [a Ha|a b Ha Hb|b c Hb Hd|a b c Ha Hb Hd|b c Hb Hd|a b c Ha Hb Hd|b c d Hb Hd He|a b c d Ha Hb Hd He|b c d Hb Hd He]; cbn [app] in E.
  - uncons s x1 X1 E. rewrite (ST 0%nat 127%nat valid _ _ s X1); [lra|lia|auto].
  - uncons s x1 X1 E. uncons s x2 X2 E. rewrite (ST 194%nat 223%nat (cont_then valid) _ _ _ X1); [lra|lia|]. unfold cont_then. apply (ST _ _ _ _ _ _ X2); [lia|auto].
  - uncons s x1 X1 E. uncons s x2 X2 E. uncons s x3 X3 E. rewrite (ST 224%nat 239%nat (cont_then (cont_then valid)) _ _ _ X1); [lra|lia|]. unfold cont_then. apply (ST _ _ _ _ _ _ X2); [lia|]. apply (ST _ _ _ _ _ _ X3); [lia|auto].
  - uncons s x1 X1 E. uncons s x2 X2 E. uncons s x3 X3 E. rewrite (ST 224%nat 239%nat (cont_then (cont_then valid)) _ _ _ X1); [lra|lia|]. unfold cont_then. apply (ST _ _ _ _ _ _ X2); [lia|]. apply (ST _ _ _ _ _ _ X3); [lia|auto].
  - uncons s x1 X1 E. uncons s x2 X2 E. uncons s x3 X3 E. rewrite (ST 224%nat 239%nat (cont_then (cont_then valid)) _ _ _ X1); [lra|lia|]. unfold cont_then. apply (ST _ _ _ _ _ _ X2); [lia|]. apply (ST _ _ _ _ _ _ X3); [lia|auto].
  - uncons s x1 X1 E. uncons s x2 X2 E. uncons s x3 X3 E. rewrite (ST 224%nat 239%nat (cont_then (cont_then valid)) _ _ _ X1); [lra|lia|]. unfold cont_then. apply (ST _ _ _ _ _ _ X2); [lia|]. apply (ST _ _ _ _ _ _ X3); [lia|auto].
  - uncons s x1 X1 E. uncons s x2 X2 E. uncons s x3 X3 E. uncons s x4 X4 E. rewrite (ST 240%nat 244%nat (cont_then (cont_then (cont_then valid))) _ _ _ X1); [lra|lia|]. unfold cont_then. apply (ST _ _ _ _ _ _ X2); [lia|]. apply (ST _ _ _ _ _ _ X3); [lia|]. apply (ST _ _ _ _ _ _ X4); [lia|auto].
  - uncons s x1 X1 E. uncons s x2 X2 E. uncons s x3 X3 E. uncons s x4 X4 E. rewrite (ST 240%nat 244%nat (cont_then (cont_then (cont_then valid))) _ _ _ X1); [lra|lia|]. unfold cont_then. apply (ST _ _ _ _ _ _ X2); [lia|]. apply (ST _ _ _ _ _ _ X3); [lia|]. apply (ST _ _ _ _ _ _ X4); [lia|auto].
  - uncons s x1 X1 E. uncons s x2 X2 E. uncons s x3 X3 E. uncons s x4 X4 E. rewrite (ST 240%nat 244%nat (cont_then (cont_then (cont_then valid))) _ _ _ X1); [lra|lia|]. unfold cont_then. apply (ST _ _ _ _ _ _ X2); [lia|]. apply (ST _ _ _ _ _ _ X3); [lia|]. apply (ST _ _ _ _ _ _ X4); [lia|auto].
Qed.
Lemma share_step n : text_share (S n) <= avg_seq 256 (S n) [] bound.
Proof. apply seq_le; [constructor|]. intros s _ L. apply valid_bound. destruct s; [discriminate|discriminate]. Qed.
(** [back n k]: the share for [k] bytes less, 0 if there are not so many. *)
Definition back (n k : nat) : R := if Nat.leb k n then text_share (n - k) else 0.
Definition w_ascii : R := 128 / 256. Definition w_two : R := 30 / 256. Definition w_three : R := 16 / 256. Definition w_four : R := 5 / 256. Definition w_cont : R := 64 / 256.
Lemma weigh lo hi k : cnt 256 (between lo hi) = Z.to_nat k -> (0 <= k)%Z -> weight (between lo hi) = IZR k / 256.
Proof. intros H K. unfold weight. rewrite H, INR_IZR_INZ, Z2Nat.id by exact K. reflexivity. Qed.
Lemma share_recurrence n : text_share (S n) <= w_ascii * back n 0 + w_two * (w_cont * back n 1) + w_three * (w_cont * (w_cont * back n 2)) + w_four * (w_cont * (w_cont * (w_cont * back n 3))).
Proof.
  eapply Rle_trans; [apply share_step|]. apply Req_le. unfold bound. rewrite !seq_plus, !head_avg.
  assert (C : forall m g, avg_seq 256 m [] (cont_then g) = w_cont * match m with O => 0 | S k => avg_seq 256 k [] g end).
  { intros m g. destruct m as [|k]; [cbn; ring|]. unfold cont_then. rewrite head_avg, (weigh 128 191 64) by (reflexivity || lia). reflexivity. }
  rewrite (weigh 0 127 128), (weigh 194 223 30), (weigh 224 239 16), (weigh 240 244 5) by (reflexivity || lia). fold w_ascii w_two w_three w_four. rewrite !C.
  f_equal; [f_equal; [f_equal|]|].
  - unfold back. cbn [Nat.leb]. rewrite Nat.sub_0_r. reflexivity.
  - f_equal. destruct n as [|n]; [reflexivity|]. unfold back. cbn [Nat.leb Nat.sub]. rewrite Nat.sub_0_r. reflexivity.
  - f_equal. destruct n as [|n]; [unfold back; cbn; ring|]. rewrite C. destruct n as [|n]; [unfold back; cbn; ring|]. unfold back. cbn [Nat.leb Nat.sub]. rewrite Nat.sub_0_r. reflexivity.
  - f_equal. destruct n as [|n]; [unfold back; cbn; ring|]. rewrite C. destruct n as [|n]; [unfold back; cbn; ring|]. rewrite C. destruct n as [|n]; [unfold back; cbn; ring|]. unfold back. cbn [Nat.leb Nat.sub]. rewrite Nat.sub_0_r. reflexivity.
Qed.
(** A byte string of [n] bytes is text with probability at most (4/7)^n: one in ten thousand already for 17 bytes. *)
Theorem C110_share n : 0 <= text_share n <= (4 / 7) ^ n.
Proof.
  split; [unfold text_share; rewrite <- (seq_const 256 n 0 ltac:(lia) []); apply seq_le; [constructor|]; intros; apply ind_pos|].
  induction n as [n IH] using lt_wf_ind. destruct n as [|n]; [cbn; lra|]. eapply Rle_trans; [apply share_recurrence|].
  assert (B : forall k, back n k <= (4 / 7) ^ n * (7 / 4) ^ k).
  { intro k. unfold back. destruct (Nat.leb_spec k n) as [H|H]; [|apply Rmult_le_pos; apply pow_le; lra]. eapply Rle_trans; [apply IH; lia|]. replace n with ((n - k) + k)%nat at 2 by lia. rewrite pow_add, Rmult_assoc, <- Rpow_mult_distr. replace (4 / 7 * (7 / 4)) with 1 by field. rewrite pow1. lra. }
  pose proof (B 0%nat) as B0. pose proof (B 1%nat) as B1. pose proof (B 2%nat) as B2. pose proof (B 3%nat) as B3. clear B IH.
  change ((4 / 7) ^ S n) with (4 / 7 * (4 / 7) ^ n). assert (T : 0 <= (4 / 7) ^ n) by (apply pow_le; lra). set (t := (4 / 7) ^ n) in *. clearbody t. cbn [pow] in *. unfold w_ascii, w_two, w_three, w_four, w_cont. lra.
Qed.
Close Scope R_scope.

(** ** Mutated lines *)
(** Mutated lines that are still text. *)
Definition n_text (d : draws) (test : list (list byte)) (c : N) : N := len (filter (fun x => fst x && utf8_valid (snd x)) (mutate_lines d c 0 test)).
Theorem C110_mutated test c : c < 10 -> Forall bytes_ok test ->
  (avg_draws test (fun ds => INR (N.to_nat (n_text (drawn ds) test c))) <= IZR (Z.of_N (10 * (c + 1))) / 101 * sumR (map (fun e => (4 / 7) ^ length e) test))%R.
Proof.
  intros Hc B. rewrite (draws_ext test _ (fun ds => total (fun d e => ind (fst (one_line c d e) && utf8_valid (snd (one_line c d e)))) ds test)) by (intros ds F; exact (count_lines c (fun x => fst x && utf8_valid (snd x)) ds test F)).
  rewrite draws_total.
  assert (G : forall e, bytes_ok e -> (avg 101 (fun x => avg_seq 256 (length e) [] (fun k => ind (fst (one_line c (x, k) e) && utf8_valid (snd (one_line c (x, k) e))))) <= IZR (Z.of_N (10 * (c + 1))) / 101 * (4 / 7) ^ length e)%R).
  { intros e Be. eapply Rle_trans; [|apply Rmult_le_compat_l; [|exact (proj2 (C110_share (length e)))]].
    2:{ apply Rmult_le_pos; [apply (IZR_le 0); lia|lra]. }
    apply Req_le. rewrite <- (roll_avg c _ Hc). apply avg_ext. intros x _. unfold one_line. cbn [fst snd]. destruct (_ <? _); cbn [fst snd andb ind]; [|apply seq_const; lia].
    pose proof (seq_xor (fun s => ind (utf8_valid (map N.of_nat s))) (length e) (map N.to_nat e) [] [] (map_length _ _) ltac:(apply Forall_map; revert Be; apply Forall_impl; intros a Ha; lia)) as X. rewrite app_nil_r in X. exact X. }
  induction B as [|e r Be Br IH]; [cbn; lra|]. cbn [map sumR fold_right]. fold (sumR (map (fun e => avg 101 (fun x => avg_seq 256 (length e) [] (fun k => ind (fst (one_line c (x, k) e) && utf8_valid (snd (one_line c (x, k) e)))))) r)).
  fold (sumR (map (fun e => (4 / 7) ^ length e)%R r)). pose proof (G e Be) as Ge. rewrite Rmult_plus_distr_l. apply Rplus_le_compat; [exact Ge|exact IH].
Qed.
(** Full statement: every String of the program is text. Any line but the empty one can be mutated into a string that is not. *)
Lemma not_text r : ~ utf8 (255 :: r).
Proof. intro U. apply utf8_valid_iff in U. destruct r as [|b [|c [|d r]]]; discriminate U. Qed.
Theorem C110_each e : bytes_ok e -> e <> [] -> exists k, (forall j, k j < 256) /\ ~ utf8 (xor_bytes k 0 e).
Proof.
  intros B Ne. destruct e as [|b r]; [now contradiction Ne|]. pose proof (Forall_inv B) as Hb. exists (fun _ => N.lxor b 255). split; [intros _; apply lxor_256; [exact Hb|reflexivity]|]. cbn [xor_bytes].
  rewrite <- N.lxor_assoc, N.lxor_nilpotent, N.lxor_0_l. apply not_text.
Qed.
Theorem C110_refuted : exists pr wyh limit stdin es d, draws_ok d /\ (forall c i, dr_roll d c i <= 100) /\ utf8 stdin /\ bench_entries pr wyh limit 0 [] (lines stdin) = Ok es /\
  exists x, In x (mutate_lines d 0 0 es) /\ ~ utf8 (snd x).
Proof.
  exists Release, (fun l => len l), (bz_from_bytes 100), [97; 10], [[97]], {| dr_roll := fun _ _ => 0; dr_key := fun _ _ _ => 158 |}. split; [intros c i j; reflexivity|]. split; [intros c i; discriminate|].
  split; [apply utf8_valid_iff; reflexivity|]. split; [vm_compute; reflexivity|]. exists (true, [255]). split; [now left|]. apply not_text.
Qed.
Print Assumptions C110_lines.
Print Assumptions C110_entries.
Print Assumptions C110_share.
Print Assumptions C110_mutated.
Print Assumptions C110_each.
Print Assumptions C110_refuted.
(** With 64 hexadecimal digits per line, at most one mutated line in 10^15 is text; and the share is exactly one half for one byte. *)
Example C110_example : (text_share 1 = / 2 /\ text_share 64 <= / 1000000000000000)%R /\ In (Some [195; 169]) (lines [195; 169; 13; 10; 255]) /\ In None (lines [195; 169; 13; 10; 255]).
Proof.
  split; [split|split; vm_compute; auto].
  - unfold text_share. cbn [avg_seq]. rewrite (avg_ext 256 _ (fun i => ind (between 0 127 i))).
    + rewrite cnt_avg, inr256. replace (INR (cnt 256 (between 0 127))) with 128%R by (rewrite INR_IZR_INZ; reflexivity). lra.
    + intros i Hi. f_equal. cbn [app map utf8_valid]. unfold between. destruct (N.ltb_spec (N.of_nat i) 128) as [H|H]; [symmetry|]; destruct (Nat.leb_spec i 127); cbn; lia || reflexivity.
  - eapply Rle_trans; [exact (proj2 (C110_share 64))|].
    apply (Rmult_le_reg_r (7 ^ 64)%R); [apply pow_lt; lra|]. rewrite <- Rpow_mult_distr. replace (4 / 7 * 7)%R with 4%R by field. change 4%R with (IZR 4). change 7%R with (IZR 7). rewrite !pow_IZR.
    apply (Rmult_le_reg_l 1000000000000000); [lra|]. rewrite <- Rmult_assoc, Rinv_r, Rmult_1_l, <- mult_IZR by lra. apply IZR_le. vm_compute. discriminate.
Qed.
