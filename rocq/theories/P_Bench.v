(** Lemmas about the statistics and the bench command. *)
From Coq Require Import Lia Reals Lra.
From Verif Require Import M_Bench Spec_Bits Spec_Real Spec_Cli Spec_Bench P_Base.
From Flocq Require Import Core BinarySingleNaN Ulp.
From Verif Require Import P_Float P_FloatDiv P_V2 P_Real P_Stats P_V2Size.
Open Scope N_scope.

(** ** Counters *)
Definition stats_of (fp tp tn fn : N) : stats :=
  {| st_fp := f_of_u64 fp; st_tp := f_of_u64 tp; st_tn := f_of_u64 tn; st_fn := f_of_u64 fn; st_total := fp + tp + tn + fn |}.
Lemma stats_new_of : stats_new = stats_of 0 0 0 0. Proof. reflexivity. Qed.
Definition exact_max : N := 9007199254740992.
Lemma inc_of pr fp tp tn fn e : fp <= exact_max -> tp <= exact_max -> tn <= exact_max -> fn <= exact_max ->
  (match e with EvFp => fp | EvTp => tp | EvTn => tn | EvFn => fn end) < exact_max ->
  stats_inc pr (stats_of fp tp tn fn) e = Ok (match e with EvFp => stats_of (fp + 1) tp tn fn | EvTp => stats_of fp (tp + 1) tn fn | EvTn => stats_of fp tp (tn + 1) fn | EvFn => stats_of fp tp tn (fn + 1) end).
Proof.
  unfold exact_max. intros A B C D H. unfold stats_inc. cbn [stats_of st_total st_fp st_tp st_tn st_fn]. unfold checked_add. cbv zeta. rewrite (proj2 (N.ltb_lt _ _)) by (unfold two64; lia). cbn [obind].
  destruct e; unfold f_one; rewrite add_count by lia; unfold stats_of; do 2 f_equal; lia.
Qed.
Lemma run_of pr es : forall fp tp tn fn, fp + counted EvFp es <= exact_max -> tp + counted EvTp es <= exact_max -> tn + counted EvTn es <= exact_max -> fn + counted EvFn es <= exact_max ->
  stats_run pr (stats_of fp tp tn fn) es = Ok (stats_of (fp + counted EvFp es) (tp + counted EvTp es) (tn + counted EvTn es) (fn + counted EvFn es)).
Proof.
  induction es as [|e es IH]; intros fp tp tn fn A B C D.
  - cbn [stats_run]. change (counted EvFp []) with 0. change (counted EvTp []) with 0. change (counted EvTn []) with 0. change (counted EvFn []) with 0. now rewrite !N.add_0_r.
  - cbn [stats_run]. unfold counted in *. cbn [filter] in *.
    destruct e; cbn [same_event] in *; rewrite ?len_cons in *; (rewrite inc_of by (unfold exact_max in *; lia)); cbn [obind]; rewrite IH by lia; do 2 f_equal; lia.
Qed.
Lemma counted_le e es : counted e es <= len es.
Proof. unfold counted. induction es as [|x es IH]; [reflexivity|]. cbn [filter]. destruct (same_event e x); rewrite ?len_cons; lia. Qed.

(** ** Measuring *)
Definition event_of (wy : hasher) (b : bloom) (x : bool * list byte) : stat_event := if contained wy b (snd x) then EvFp else EvTn.
Lemma measure_run pr wy b ml : forall s s', bench_measure pr wy b s ml = Ok s' -> stats_run pr s (map (event_of wy b) (filter fst ml)) = Ok s'.
Proof.
  induction ml as [|[m e] ml IH]; intros s s' E; cbn [bench_measure] in E; [exact E|]. cbn [filter fst].
  destruct (bf_contains_bytes wy b e) as [r| |] eqn:C; cbn [obind] in E; try discriminate E. destruct m; cbn [obind] in E.
  - cbn [map stats_run]. assert (V : event_of wy b (true, e) = if r then EvFp else EvTn) by (unfold event_of, contained; cbn [snd]; rewrite C; now destruct r). rewrite V.
    destruct (stats_inc pr s _) as [s1| |]; cbn [obind] in *; try discriminate E. now apply IH.
  - now apply IH.
Qed.
Lemma run_measure pr wy b ml : (forall x, In x ml -> exists r, bf_contains_bytes wy b (snd x) = Ok r) ->
  forall s, bench_measure pr wy b s ml = stats_run pr s (map (event_of wy b) (filter fst ml)).
Proof.
  induction ml as [|[m e] ml IH]; intros T s; cbn [bench_measure filter fst]; [reflexivity|].
  destruct (T (m, e) (or_introl eq_refl)) as (r & C). cbn [snd] in C. rewrite C. cbn [obind]. destruct m; cbn [obind].
  - cbn [map stats_run]. assert (V : event_of wy b (true, e) = if r then EvFp else EvTn) by (unfold event_of, contained; cbn [snd]; rewrite C; now destruct r). rewrite V.
    destruct (stats_inc pr s _) as [s1| |]; cbn [obind]; try reflexivity. apply IH. intros x Hx. apply T. now right.
  - apply IH. intros x Hx. apply T. now right.
Qed.
Lemma events_fp wy b ml : counted EvFp (map (event_of wy b) (filter fst ml)) = len (filter (fun x => fst x && contained wy b (snd x)) ml).
Proof.
  unfold counted. induction ml as [|[m e] ml IH]; [reflexivity|]. cbn [filter fst snd andb]. destruct m; cbn [map filter andb]; [|exact IH]. change (event_of wy b (true, e)) with (if contained wy b e then EvFp else EvTn). destruct (contained wy b e); cbn [same_event]; rewrite ?len_cons; now rewrite IH.
Qed.
Lemma events_all wy b ml : counted EvFp (map (event_of wy b) (filter fst ml)) + counted EvTn (map (event_of wy b) (filter fst ml)) = len (filter fst ml) /\
  counted EvTp (map (event_of wy b) (filter fst ml)) = 0 /\ counted EvFn (map (event_of wy b) (filter fst ml)) = 0.
Proof.
  unfold counted. induction (filter fst ml) as [|[m e] l IH]; [now repeat split|]. destruct IH as (A & B & C). cbn [map filter]. change (event_of wy b (m, e)) with (if contained wy b e then EvFp else EvTn). destruct (contained wy b e); cbn [same_event]; rewrite ?len_cons; (split; [lia|split; assumption]).
Qed.
Lemma getN_nil {A} i : getN (@nil A) i = None.
Proof. apply getN_None. apply N.le_0_l. Qed.
Lemma getN_cons_0 {A} (x : A) l : getN (x :: l) 0 = Some x. Proof. reflexivity. Qed.
Lemma getN_cons_S {A} (x : A) l i : getN (x :: l) (i + 1) = getN l i.
Proof. unfold getN. now replace (N.to_nat (i + 1)) with (S (N.to_nat i)) by lia. Qed.
Lemma mutate_nth d c l : forall i0 i e, getN l i = Some e -> getN (mutate_lines d c i0 l) i = Some (if dr_roll d c (i0 + i) <? 10 * (c + 1) then (true, xor_bytes (dr_key d c (i0 + i)) 0 e) else (false, e)).
Proof.
  induction l as [|x l IH]; intros i0 i e H; [now rewrite getN_nil in H|]. cbn [mutate_lines]. destruct (N.eq_dec i 0) as [->|Ni].
  - rewrite getN_cons_0 in H. rewrite getN_cons_0. injection H as ->. now rewrite N.add_0_r.
  - assert (exists p, i = p + 1) as [p ->] by (exists (N.pred i); lia). rewrite getN_cons_S in H. rewrite getN_cons_S. rewrite (IH _ _ _ H). now replace (i0 + 1 + p) with (i0 + (p + 1)) by lia.
Qed.
Lemma mutate_len d c l : forall i0, len (mutate_lines d c i0 l) = len l.
Proof. induction l as [|x l IH]; intro i0; [reflexivity|]. cbn [mutate_lines]. rewrite !len_cons. now rewrite IH. Qed.
Lemma xor_nth k l : forall j0 j b, getN l j = Some b -> getN (xor_bytes k j0 l) j = Some (N.lxor b (k (j0 + j))).
Proof.
  induction l as [|x l IH]; intros j0 j b H; [now rewrite getN_nil in H|]. cbn [xor_bytes]. destruct (N.eq_dec j 0) as [->|Nj].
  - rewrite getN_cons_0 in H. rewrite getN_cons_0. injection H as ->. now rewrite N.add_0_r.
  - assert (exists p, j = p + 1) as [p ->] by (exists (N.pred j); lia). rewrite getN_cons_S in H. rewrite getN_cons_S. rewrite (IH _ _ _ H). now replace (j0 + 1 + p) with (j0 + (p + 1)) by lia.
Qed.
Lemma xor_len k l : forall j, len (xor_bytes k j l) = len l.
Proof. induction l as [|x l IH]; intro j; [reflexivity|]. cbn [xor_bytes]. rewrite !len_cons. now rewrite IH. Qed.
Lemma lxor_byte a b : a < 256 -> b < 256 -> N.lxor a b < 256.
Proof.
  intros A B. destruct (N.eq_dec (N.lxor a b) 0) as [->|Nz]; [reflexivity|]. apply N.log2_lt_pow2 with (b := 8); [lia|]. apply N.le_lt_trans with (1 := N.log2_lxor a b).
  destruct (N.eq_dec a 0) as [->|Na], (N.eq_dec b 0) as [->|Nb]; cbn [N.log2]; try (apply N.max_lub_lt); try (apply N.log2_lt_pow2; [lia|assumption]); reflexivity.
Qed.
Lemma xor_bytes_ok k l : (forall j, k j < 256) -> bytes_ok l -> forall j, bytes_ok (xor_bytes k j l).
Proof. intros K B. induction B as [|x l Hx B IH]; intro j; constructor; [apply lxor_byte; auto|apply IH]. Qed.
Lemma mutate_bytes d c l : draws_ok d -> Forall bytes_ok l -> forall i, Forall bytes_ok (map snd (mutate_lines d c i l)).
Proof.
  intros K B. induction B as [|x l Hx B IH]; intro i; [constructor|]. cbn [mutate_lines map]. constructor; [|apply IH]. destruct (_ <? _); cbn [snd]; [|exact Hx]. apply xor_bytes_ok; [intro; apply K|exact Hx].
Qed.

(** ** Rates *)
Open Scope R_scope.
Lemma rate_value fp tp tn fn : (fp + tn <= exact_max)%N -> (0 < fp + tn)%N -> fval (stats_fp_rate (stats_of fp tp tn fn)) (rnd (ratio fp (fp + tn))).
Proof. unfold exact_max. intros H P. unfold stats_fp_rate. cbn [stats_of st_fp st_tn]. rewrite add_count by lia. rewrite (N.add_comm tn fp). apply ratio_value; lia. Qed.
Lemma rate_nan fp tp tn fn : (fp + tn = 0)%N -> stats_fp_rate (stats_of fp tp tn fn) = S754_nan.
Proof. intro H. assert (fp = 0%N) as -> by lia. assert (tn = 0%N) as -> by lia. reflexivity. Qed.
Lemma ratio_bounds a b : (a <= b)%N -> (0 < b)%N -> 0 <= ratio a b <= 1.
Proof.
  intros H Hb. assert (P : 0 < IZR (Z.of_N b)) by (apply IZR_lt; lia). unfold ratio. split; [apply Rmult_le_pos; [apply IZR_le; lia|apply Rlt_le, Rinv_0_lt_compat, P]|].
  apply Rmult_le_reg_r with (IZR (Z.of_N b)); [exact P|]. unfold Rdiv. rewrite Rmult_assoc, Rinv_l, Rmult_1_l, Rmult_1_r by lra. apply IZR_le. lia.
Qed.
Lemma ratio_pos a b : (0 < a)%N -> (0 < b)%N -> (b <= exact_max)%N -> bpow radix2 (-53) <= ratio a b.
Proof.
  unfold exact_max. intros H Hb Hm. assert (P : 0 < IZR (Z.of_N b)) by (apply IZR_lt; lia). unfold ratio. apply Rmult_le_reg_r with (IZR (Z.of_N b)); [exact P|].
  unfold Rdiv. rewrite Rmult_assoc, Rinv_l, Rmult_1_r by lra. apply Rle_trans with 1; [|apply IZR_le; lia].
  apply Rle_trans with (bpow radix2 (-53) * bpow radix2 53); [apply Rmult_le_compat_l; [apply bpow_ge_0|]|]. rewrite IZR_bpow by lia. apply IZR_le. change (2 ^ 53)%Z with 9007199254740992%Z. lia.
  rewrite <- bpow_plus. cbn. lra.
Qed.
Lemma rnd_ratio a b : (a <= b)%N -> (0 < b)%N -> (b <= exact_max)%N -> Rabs (rnd (ratio a b) - ratio a b) <= bpow radix2 (-53) * ratio a b /\ 0 <= rnd (ratio a b) <= 1 /\ (rnd (ratio a b) = 0 <-> a = 0%N).
Proof.
  intros H Hb Hm. pose proof (ratio_bounds a b H Hb) as [R0 R1]. assert (B : 0 <= rnd (ratio a b) <= 1).
  { pose proof (rnd_le _ _ R0) as A. pose proof (rnd_le _ _ R1) as B. rewrite rnd_0 in A. rewrite (rnd_format 1) in B by (apply (format_int 1); lia). lra. }
  destruct (N.eq_dec a 0) as [->|Na].
  - assert (E : ratio 0 b = 0) by (unfold ratio, Rdiv; cbn [Z.of_N]; apply Rmult_0_l). rewrite E, rnd_0 in *. split; [rewrite Rminus_0_r, Rabs_R0; lra|]. split; [lra|tauto].
  - pose proof (ratio_pos a b ltac:(lia) Hb Hm) as RP. assert (S : bpow radix2 (-1000) <= ratio a b) by (apply Rle_trans with (2 := RP); apply bpow_le; lia).
    split; [|split; [exact B|]].
    + pose proof (rnd_rel (ratio a b)) as Q. unfold eps in Q. rewrite (Rabs_pos_eq (ratio a b)) in Q by exact R0. exact (Q S).
    + split; [|intro; contradiction]. intro Z. exfalso. pose proof (rnd_pos _ S) as P. rewrite Z in P. pose proof (bpow_gt_0 radix2 (-1000)). lra.
Qed.

(** ** Averages *)
Lemma rnd_abs k x : (-1000 <= k)%Z -> Rabs x <= bpow radix2 k -> Rabs (rnd x - x) <= bpow radix2 (k - 53).
Proof.
  intros Hk H. unfold rnd. apply Rle_trans with (/ 2 * ulp radix2 fx x); [apply error_le_half_ulp; typeclasses eauto|].
  apply Rle_trans with (/ 2 * ulp radix2 fx (bpow radix2 k)).
  - apply Rmult_le_compat_l; [lra|]. apply ulp_le; [typeclasses eauto|typeclasses eauto|]. rewrite (Rabs_pos_eq (bpow radix2 k)) by apply bpow_ge_0. exact H.
  - rewrite ulp_bpow. replace (fx (k + 1)) with (k - 52)%Z by (unfold SpecFloat.fexp, SpecFloat.emin; lia). replace (k - 52)%Z with (1 + (k - 53))%Z by lia. rewrite bpow_plus. change (bpow radix2 1) with 2. lra.
Qed.
Lemma rnd_bound k x : (-1000 <= k)%Z -> Rabs x <= bpow radix2 k -> Rabs (rnd x) <= bpow radix2 k.
Proof.
  intros Hk H. pose proof (format_scale (IZR 1 * bpow radix2 (-1000)) (k + 1000)) as F. assert (Fk : format (bpow radix2 k)).
  { replace (bpow radix2 k) with (IZR 1 * bpow radix2 (-1000) * bpow radix2 (k + 1000)). apply F; [apply format_spec; lia|lia]. rewrite Rmult_1_l, <- bpow_plus. f_equal. lia. }
  assert (Fn : format (- bpow radix2 k)) by (apply generic_format_opp; exact Fk). apply Rabs_le_inv in H. apply Rabs_le. split; [rewrite <- (rnd_format _ Fn)|rewrite <- (rnd_format _ Fk)]; apply rnd_le; lra.
Qed.
Definition unit_val (a : spec_float) (x : R) : Prop := fval a x /\ 0 <= x <= 1.
Definition delta : R := 3 * bpow radix2 (-50).
Lemma delta_small : 0 < delta <= / 10000.
Proof.
  unfold delta. pose proof (bpow_gt_0 radix2 (-50)). split; [lra|]. assert (bpow radix2 (-50) <= bpow radix2 (-20)) by (apply bpow_le; lia). assert (E : bpow radix2 (-20) = / 1048576) by reflexivity. rewrite E in *. lra.
Qed.
Lemma bpow_int k : (0 <= k)%Z -> bpow radix2 k = IZR (2 ^ k). Proof. exact (IZR_bpow k). Qed.
Lemma mean_step M m i x a : fval M m -> -1 <= m <= 2 -> unit_val a x -> 1 <= IZR (Z.of_N i) -> (i <= exact_max)%N ->
  exists m', fval (f_add M (f_div (f_sub a M) (f_of_u64 i))) m' /\ Rabs (m' - (m + (x - m) / IZR (Z.of_N i))) <= delta.
Proof.
  intros Fm Hm [Fx Hx] I1 Im. set (n := IZR (Z.of_N i)) in *. assert (B3 : bpow radix2 3 = 8) by reflexivity. assert (big : forall r, Rabs r <= bpow radix2 3 -> Rabs r <= bpow radix2 1023) by (intros r H; apply Rle_trans with (1 := H); apply bpow_le; lia).
  assert (A1 : Rabs (x - m) <= bpow radix2 2) by (change (bpow radix2 2) with 4; apply Rabs_le; lra). assert (A1' : Rabs (x - m) <= bpow radix2 3) by (apply Rle_trans with (1 := A1); apply bpow_le; lia).
  pose proof (fval_sub _ _ _ _ Fx Fm (big _ A1')) as S. pose proof (rnd_abs 3 _ ltac:(lia) A1') as E1. pose proof (rnd_bound 2 _ ltac:(lia) A1) as C1. set (s := rnd (x - m)) in *.
  assert (Ni : 0 < / n <= 1). { split; [apply Rinv_0_lt_compat; lra|]. rewrite <- Rinv_1. apply Rinv_le_contravar; lra. }
  assert (Q : Rabs (s / n) <= bpow radix2 2). { unfold Rdiv. rewrite Rabs_mult, (Rabs_pos_eq (/ n)) by lra. pose proof (Rabs_pos s). rewrite <- (Rmult_1_r (bpow radix2 2)). apply Rmult_le_compat; lra. }
  assert (Q' : Rabs (s / n) <= bpow radix2 3) by (apply Rle_trans with (1 := Q); apply bpow_le; lia).
  pose proof (fval_div _ _ _ _ S (fval_int i Im) ltac:(unfold n in *; lra) (big _ Q')) as D. fold n in D. pose proof (rnd_abs 3 _ ltac:(lia) Q') as E2. pose proof (rnd_bound 2 _ ltac:(lia) Q) as C2. set (q := rnd (s / n)) in *.
  assert (A3 : Rabs (m + q) <= bpow radix2 3). { apply Rabs_le_inv in C2. change (bpow radix2 2) with 4 in C2. rewrite B3. apply Rabs_le. lra. }
  pose proof (fval_add _ _ _ _ Fm D (big _ A3)) as F. pose proof (rnd_abs 3 _ ltac:(lia) A3) as E3. exists (rnd (m + q)). split; [exact F|].
  change (3 - 53)%Z with (-50)%Z in *. unfold delta. set (t := bpow radix2 (-50)) in *.
  assert (E1' : Rabs (s / n - (x - m) / n) <= t). { replace (s / n - (x - m) / n) with ((s - (x - m)) * / n) by (unfold Rdiv; ring). rewrite Rabs_mult, (Rabs_pos_eq (/ n)) by lra. rewrite <- (Rmult_1_r t). apply Rmult_le_compat; try lra; apply Rabs_pos. }
  apply Rabs_le_inv in E1', E2, E3. apply Rabs_le. lra.
Qed.
Lemma sumR_bounds l : Forall (fun x => 0 <= x <= 1) l -> 0 <= sumR l <= IZR (Z.of_nat (length l)).
Proof. induction 1 as [|x l H _ IH]; [cbn; lra|]. cbn [sumR fold_right length]. rewrite Nat2Z.inj_succ, succ_IZR. unfold sumR in IH. lra. Qed.
Lemma mean_run l xs : Forall2 unit_val l xs -> forall k M m mu E, fval M m -> Rabs (m - mu) <= E -> 0 <= mu <= 1 -> 0 <= E -> E + IZR (Z.of_nat (length l)) * delta <= 1 -> (k + N.of_nat (length l) <= exact_max)%N -> (0 < k + N.of_nat (length l))%N ->
  exists m', fval (mean_from (f_of_u64 k) M l) m' /\ Rabs (m' - (IZR (Z.of_N k) * mu + sumR xs) / IZR (Z.of_N (k + N.of_nat (length l)))) <= E + IZR (Z.of_nat (length l)) * delta.
Proof.
  unfold exact_max. induction 1 as [|a x l xs U F IH]; intros k M m mu E Fm Hm Hmu HE Hs Hk Hp.
  - cbn [mean_from length sumR fold_right] in *. exists m. split; [exact Fm|]. rewrite N.add_0_r in *. replace ((IZR (Z.of_N k) * mu + 0) / IZR (Z.of_N k)) with mu; [cbn; lra|]. field. apply IZR_neq. lia.
  - cbn [mean_from length sumR fold_right] in *. rewrite Nat2Z.inj_succ, succ_IZR in *. assert (Lp : 0 <= IZR (Z.of_nat (length l))) by (apply IZR_le; lia). pose proof delta_small as Dl.
    unfold f_one. rewrite add_count by lia. assert (Ld : 0 <= IZR (Z.of_nat (length l)) * delta) by (apply Rmult_le_pos; lra). pose proof (proj2 U) as Ux.
    destruct (mean_step M m (k + 1) x a Fm) as (m1 & F1 & D1); [apply Rabs_le_inv in Hm; lra|exact U|apply IZR_le; lia|unfold exact_max; lia|].
    set (n := IZR (Z.of_N (k + 1))) in *. assert (Hn : n = IZR (Z.of_N k) + 1) by (unfold n; rewrite N2Z.inj_add, plus_IZR; reflexivity). assert (K0 : 0 <= IZR (Z.of_N k)) by (apply IZR_le; lia).
    set (mu1 := (IZR (Z.of_N k) * mu + x) / n). assert (N0 : 0 < / n <= 1). { split; [apply Rinv_0_lt_compat; lra|]. rewrite <- Rinv_1. apply Rinv_le_contravar; lra. }
    assert (M1 : 0 <= mu1 <= 1). { unfold mu1, Rdiv. split; [apply Rmult_le_pos; [|lra]; apply Rplus_le_le_0_compat; [apply Rmult_le_pos; lra|lra]|]. apply Rmult_le_reg_r with n; [lra|]. rewrite Rmult_assoc, Rinv_l, Rmult_1_l, Rmult_1_r by lra. assert (IZR (Z.of_N k) * mu <= IZR (Z.of_N k) * 1) by (apply Rmult_le_compat_l; lra). lra. }
    assert (H1 : Rabs (m1 - mu1) <= E + delta). { replace (m1 - mu1) with ((m1 - (m + (x - m) / n)) + (m - mu) * (1 - / n)) by (unfold mu1; rewrite Hn; field; lra). apply Rle_trans with (1 := Rabs_triang _ _). rewrite (Rplus_comm E). apply Rplus_le_compat; [exact D1|]. rewrite Rabs_mult, (Rabs_pos_eq (1 - / n)) by lra. rewrite <- (Rmult_1_r E). apply Rmult_le_compat; try lra. apply Rabs_pos. }
    destruct (IH (k + 1)%N _ m1 mu1 (E + delta) F1 H1 M1 ltac:(lra) ltac:(lra) ltac:(lia) ltac:(lia)) as (m' & F' & D'). exists m'. split; [exact F'|]. replace (k + N.of_nat (S (length l)))%N with (k + 1 + N.of_nat (length l))%N by lia.
    change (fold_right Rplus 0 xs) with (sumR xs). replace (IZR (Z.of_N k) * mu + (x + sumR xs)) with (IZR (Z.of_N (k + 1)) * mu1 + sumR xs); [apply Rle_trans with (1 := D'); lra|]. unfold mu1. fold n. field. lra.
Qed.
Lemma mean_value l xs : Forall2 unit_val l xs -> length l = 10%nat -> exists m, fval (stat_mean l) m /\ Rabs (m - sumR xs / 10) <= 10 * delta.
Proof.
  intros F Hl. pose proof delta_small as Dl. destruct (mean_run l xs F 0%N (S754_zero false) 0 0 0) as (m & Fm & Dm); rewrite ?Hl; try lra.
  - exact (fval_int 0 ltac:(lia)).
  - rewrite Rminus_0_r, Rabs_R0. lra.
  - change (Z.of_nat 10) with 10%Z. lra.
  - unfold exact_max. lia.
  - lia.
  - rewrite Hl in Dm. change (Z.of_nat 10) with 10%Z in Dm. change (Z.of_N (0 + N.of_nat 10)) with 10%Z in Dm. exists m. split.
    + destruct l; [discriminate|]. exact Fm.
    + replace (sumR xs) with (IZR (Z.of_N 0) * 0 + sumR xs) by (cbn; lra). lra.
Qed.
Lemma ltb_R a b x y : fval a x -> fval b y -> (SFltb a b = true <-> x < y).
Proof.
  intros (p & <- & Fp & <-) (q & <- & Fq & <-). change (SFltb (B2SF p) (B2SF q)) with (Bltb p q). rewrite Bltb_correct by auto. destruct (Rlt_bool_spec (B2R p) (B2R q)); split; intro; try reflexivity; try lra; discriminate.
Qed.
Lemma fval_not_nan a x : fval a x -> f_is_nan a = false.
Proof. intros (p & <- & Fp & _). destruct p; try discriminate; reflexivity. Qed.
(** The comparison of the verdict. *)
Lemma rejects_R avg m fpp F tol T : fval avg m -> fval (sf_of_bits fpp) F -> fval (sf_of_bits tol) T -> 0 <= F <= 1 -> 0 <= T <= 1000 ->
  exists t, (bench_rejects avg fpp tol = true <-> t < m) /\ Rabs (t - (F + F * T)) <= bpow radix2 (-41).
Proof.
  intros Fa Ff Ft HF HT. assert (P : 0 <= F * T <= 1000). { split; [apply Rmult_le_pos; lra|]. replace 1000 with (1 * 1000) by ring. apply Rmult_le_compat; lra. }
  assert (A1 : Rabs (F * T) <= bpow radix2 10) by (change (bpow radix2 10) with 1024; apply Rabs_le; lra). assert (big : forall k r, (k <= 1000)%Z -> Rabs r <= bpow radix2 k -> Rabs r <= bpow radix2 1023) by (intros k r Hk H; apply Rle_trans with (1 := H); apply bpow_le; lia).
  pose proof (fval_mul _ _ _ _ Ff Ft (big 10%Z _ ltac:(lia) A1)) as M. pose proof (rnd_abs 10 _ ltac:(lia) A1) as E1. pose proof (rnd_bound 10 _ ltac:(lia) A1) as C1.
  assert (A2 : Rabs (F + rnd (F * T)) <= bpow radix2 11). { change (bpow radix2 11) with 2048. change (bpow radix2 10) with 1024 in C1. apply Rabs_le_inv in C1. apply Rabs_le. lra. }
  pose proof (fval_add _ _ _ _ Ff M (big 11%Z _ ltac:(lia) A2)) as S. pose proof (rnd_abs 11 _ ltac:(lia) A2) as E2. eexists. split.
  - unfold bench_rejects. rewrite (fval_not_nan _ _ Fa). cbn [negb andb]. exact (ltb_R _ _ _ _ S Fa).
  - change (10 - 53)%Z with (-43)%Z in E1. change (11 - 53)%Z with (-42)%Z in E2. assert (B : bpow radix2 (-42) = 2 * bpow radix2 (-43)) by (change (-42)%Z with (1 + -43)%Z; rewrite bpow_plus; reflexivity).
    assert (B' : bpow radix2 (-41) = 4 * bpow radix2 (-43)) by (change (-41)%Z with (2 + -43)%Z; rewrite bpow_plus; reflexivity). pose proof (bpow_gt_0 radix2 (-43)). apply Rabs_le_inv in E1, E2. apply Rabs_le. lra.
Qed.
