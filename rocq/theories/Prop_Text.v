(** Printed text: sizes, levels and the output of show (C72, C73). *)
From Coq Require Import Lia Reals Lra SpecFloat String.
From Flocq Require Import Core IEEE754.BinarySingleNaN.
From Verif Require Import M_Text M_RefLibm P_Base P_Float P_FloatDiv P_Text Prop_Lines Prop_Codec Spec_Bits Spec_Cli Ex_Base Ex_V1.
Open Scope N_scope.

Lemma div_pow_format x k : format x -> (Rabs x = 0 \/ 1 <= Rabs x)%R -> (0 <= k <= 64)%Z -> format (x / bpow radix2 k)%R.
Proof.
  intros H Hx K. destruct Hx as [Z|Hx].
  { assert (x = 0)%R as ->. { destruct (Req_dec x 0) as [|N0]; auto. apply Rabs_no_R0 in N0. contradiction. } unfold Rdiv. rewrite Rmult_0_l. apply generic_format_0. }
  unfold Rdiv. rewrite <- bpow_opp. apply format_inv in H as (m & e & -> & Hm & He).
  rewrite Rmult_assoc, <- bpow_plus. apply format_spec; auto.
  enough (-54 <= e)%Z by lia. destruct (Z_lt_le_dec e (-54)) as [L|]; auto. exfalso.
  assert (Rabs (IZR m * bpow radix2 e) < 1)%R; [|lra].
  rewrite Rabs_mult, <- abs_IZR, (Rabs_pos_eq (bpow radix2 e)) by apply bpow_ge_0.
  assert (IZR (Z.abs m) < bpow radix2 53)%R by (rewrite IZR_bpow by lia; now apply IZR_lt).
  assert (bpow radix2 e <= bpow radix2 (-55))%R by (apply bpow_le; lia).
  assert (0 < bpow radix2 e)%R by apply bpow_gt_0. assert (0 <= IZR (Z.abs m))%R by (apply IZR_le; lia).
  apply Rle_lt_trans with (bpow radix2 53 * bpow radix2 (-55))%R; [apply Rmult_le_compat; lra|]. rewrite <- bpow_plus. cbn. lra.
Qed.
Lemma fval_pow k : (0 <= k <= 52)%Z -> fval (f_of_u64 (Z.to_N (2 ^ k))) (bpow radix2 k).
Proof.
  intro K. assert (P : (0 < 2 ^ k)%Z) by (apply Z.pow_pos_nonneg; lia). assert (B : (2 ^ k <= 2 ^ 52)%Z) by (apply Z.pow_le_mono_r; lia).
  assert (Q : rnd (IZR (Z.of_N (Z.to_N (2 ^ k)))) = bpow radix2 k). { rewrite Z2N.id by lia. rewrite rnd_format; [symmetry; apply IZR_bpow; lia|]. apply format_int. lia. }
  rewrite <- Q. apply fval_of_u64. unfold two64. lia.
Qed.
Lemma fval_unit b k : b < two64 -> (0 <= k <= 52)%Z -> fval (f_div (f_of_u64 b) (f_of_u64 (Z.to_N (2 ^ k)))) (rnd (IZR (Z.of_N b)) / bpow radix2 k)%R.
Proof.
  intros H K. pose proof (rnd_u64_bounds b H) as Bd. pose proof (bpow_gt_0 radix2 k) as P. rewrite <- (rnd_format (rnd (IZR (Z.of_N b)) / bpow radix2 k)).
  - apply fval_div; [now apply fval_of_u64|now apply fval_pow|lra|]. assert (1 <= bpow radix2 k)%R by (change 1%R with (bpow radix2 0); apply bpow_le; lia).
    rewrite Rabs_pos_eq by (apply Rmult_le_pos; [lra|left; now apply Rinv_0_lt_compat]).
    apply Rle_trans with (bpow radix2 64); [|apply bpow_le; lia]. apply Rle_trans with (rnd (IZR (Z.of_N b))); [|lra].
    apply Rmult_le_reg_r with (1 := P). unfold Rdiv. rewrite Rmult_assoc, Rinv_l, Rmult_1_r by lra. rewrite <- (Rmult_1_r (rnd _)) at 1. apply Rmult_le_compat_l; lra.
  - apply div_pow_format; [apply format_rnd|apply rnd_int_cases; lia|lia].
Qed.
(** The number printed for [b] bytes, as a real: the value of the double, over the unit. *)
Lemma in_unit_value b : b < two64 -> let s := bz_from_bytes b in
  fval (bz_in_unit s) (rnd (IZR (Z.of_N b)) / IZR (Z.of_N (unit_size s)))%R /\ bz_in_unit s <> S754_zero true.
Proof.
  intros H s. assert (NZ : forall k, (0 <= k <= 52)%Z -> 1 <= b -> f_div (f_of_u64 b) (f_of_u64 (Z.to_N (2 ^ k))) <> S754_zero true).
  { intros k K B E. pose proof (fval_unit b k H K) as F. rewrite E in F. destruct F as (x & Ex & _ & V). destruct x as [sg|sg| |sg m e Hx]; try discriminate. cbn [B2R] in V.
    pose proof (rnd_ge_1 (Z.of_N b) ltac:(lia)) as G. pose proof (bpow_gt_0 radix2 k) as P. assert (0 < rnd (IZR (Z.of_N b)) / bpow radix2 k)%R by (apply Rdiv_lt_0_compat; lra). lra. }
  assert (U : forall k, (0 <= k <= 52)%Z -> IZR (Z.of_N (Z.to_N (2 ^ k))) = bpow radix2 k). { intros k K. rewrite Z2N.id by (apply Z.pow_nonneg; lia). symmetry. apply IZR_bpow. lia. }
  subst s. unfold bz_from_bytes. destruct (N.ltb_spec b KILO) as [A|A]; [|destruct (N.ltb_spec b MEGA) as [B|B]; [|destruct (N.ltb_spec b GIGA) as [C|C]]]; cbn [bz_in_unit unit_size].
  - split; [change (IZR (Z.of_N 1)) with 1%R; unfold Rdiv; rewrite Rinv_1, Rmult_1_r; now apply fval_of_u64|]. pose proof (fval_of_u64 b H) as F. intro E. destruct (N.eq_dec b 0) as [-> |N0]; [discriminate E|].
    rewrite E in F. destruct F as (x & Ex & _ & V). destruct x as [sg|sg| |sg m e Hx]; try discriminate. cbn [B2R] in V. pose proof (rnd_ge_1 (Z.of_N b) ltac:(lia)) as G. lra.
  - change (2 ^ 10) with (Z.to_N (2 ^ 10)). rewrite U by lia. split; [exact (fval_unit b 10 H ltac:(lia))|apply (NZ 10%Z); [lia|change KILO with 1024 in A; lia]].
  - change (2 ^ 20) with (Z.to_N (2 ^ 20)). rewrite U by lia. split; [exact (fval_unit b 20 H ltac:(lia))|apply (NZ 20%Z); [lia|change MEGA with 1048576 in B; lia]].
  - change (2 ^ 30) with (Z.to_N (2 ^ 30)). rewrite U by lia. split; [exact (fval_unit b 30 H ltac:(lia))|apply (NZ 30%Z); [lia|change GIGA with 1073741824 in C; lia]].
Qed.

(** * C72 *)
(** Independently of the code: [text] is a number written without superfluous zeros, with one decimal, and then [u]; the
    number is [t] tenths. *)
Definition reads_as (text : list N) (t : N) (u : list N) : Prop :=
  exists whole d, text = whole ++ [46; d] ++ u /\ Forall digit whole /\ digit d /\ (exists c r, whole = c :: r /\ (c = 48 -> r = [])) /\ t = 10 * dec_val whole + (d - 48).
Lemma one_decimal_reads t u : reads_as (one_decimal t ++ u) t u.
Proof.
  destruct (dec_spec (t / 10)) as (A & B & (c & r & C & D) & Z). pose proof (N.mod_lt t 10 ltac:(discriminate)) as Rm. pose proof (N.div_mod t 10 ltac:(discriminate)) as Dm.
  exists (dec (t / 10)), (48 + t mod 10). unfold one_decimal. split; [now rewrite <- app_assoc|]. split; [exact A|]. split; [unfold digit; clear - Rm; revert Rm; generalize (t mod 10); intros; lia|].
  split; [exists c, r; split; [exact C|]; intro Q; specialize (Z (D Q)); rewrite C in Z; congruence|]. rewrite B. clear - Dm. revert Dm. generalize (t / 10) (t mod 10). intros. lia.
Qed.
Definition unit_name (s : byte_size) : list N := bytes_of match unit_size s with 1 => "B" | 1024 => "KB" | 1048576 => "MB" | _ => "GB" end.
Definition units (b : N) : R := (IZR (Z.of_N b) / IZR (Z.of_N (unit_size (bz_from_bytes b))))%R.
Lemma unit_pos s : (0 < IZR (Z.of_N (unit_size s)))%R.
Proof. apply IZR_lt. destruct s; reflexivity. Qed.
Lemma text_nearest b : b < two64 -> exists t, reads_as (bz_text (bz_from_bytes b)) t (unit_name (bz_from_bytes b)) /\
  Z.of_N t = ZnearestE (10 * (rnd (IZR (Z.of_N b)) / IZR (Z.of_N (unit_size (bz_from_bytes b)))))%R.
Proof.
  intro H. destruct (in_unit_value b H) as [F NZ]. set (s := bz_from_bytes b) in *. pose proof (rnd_u64_bounds b H) as [R0 _]. pose proof (unit_pos s) as U.
  destruct (fval_tenths _ _ F) as [T V]; [apply Rmult_le_pos; [exact R0|left; now apply Rinv_0_lt_compat]|exact NZ|]. exists (tenths (bz_in_unit s)). split; [|exact V].
  unfold bz_text. rewrite T. assert (Q : bz_unit_str s = unit_name s) by (destruct s; reflexivity). rewrite Q. apply one_decimal_reads.
Qed.
(** The number printed is the size in its unit, to the nearest tenth: exactly so up to 2^53 bytes, and up to the rounding of the
    conversion to a double above. *)
Theorem C72_size_text b : b < two64 -> exists t, reads_as (bz_text (bz_from_bytes b)) t (unit_name (bz_from_bytes b)) /\
  (b <= 2 ^ 53 -> Z.of_N t = ZnearestE (10 * units b)%R) /\
  (Rabs (IZR (Z.of_N t) / 10 - units b) <= 1 / 20 + units b * / 9007199254740992)%R /\ (b < 2 ^ 30 -> t <= 10240).
Proof.
  intro H. destruct (text_nearest b H) as (t & T & V). exists t. split; [exact T|]. unfold units. pose proof (unit_pos (bz_from_bytes b)) as U. set (u := IZR (Z.of_N (unit_size (bz_from_bytes b)))) in *.
  assert (EX : b <= 2 ^ 53 -> rnd (IZR (Z.of_N b)) = IZR (Z.of_N b)). { intro Hb. apply rnd_format, format_int. change (2 ^ 53) with 9007199254740992 in Hb. lia. }
  assert (B0 : (0 <= IZR (Z.of_N b))%R) by (apply IZR_le; lia).
  split; [intro Hb; now rewrite (EX Hb) in V|]. split.
  - pose proof (Znearest_half (fun x => negb (Z.even x)) (10 * (rnd (IZR (Z.of_N b)) / u))) as N1. rewrite <- V in N1.
    assert (RB : (Rabs (rnd (IZR (Z.of_N b)) - IZR (Z.of_N b)) <= / 9007199254740992 * IZR (Z.of_N b))%R).
    { destruct (N.eq_dec b 0) as [-> |N0]; [change (IZR (Z.of_N 0)) with 0%R; rewrite rnd_0, Rminus_0_r, Rabs_R0; lra|].
      assert (B1 : (1 <= IZR (Z.of_N b))%R) by (apply IZR_le; lia). pose proof (rnd_rel (IZR (Z.of_N b))) as Q. rewrite (Rabs_pos_eq (IZR (Z.of_N b)) B0) in Q.
      assert (E : eps = (/ 9007199254740992)%R) by (unfold eps; cbn; lra). rewrite <- E. apply Q. apply Rle_trans with 1%R; [|exact B1]. change 1%R with (bpow radix2 0). apply bpow_le. lia. }
    set (x := IZR (Z.of_N b)) in *. set (y := rnd x) in *. set (tt := IZR (Z.of_N t)) in *. clearbody x y tt u.
    assert (D : (Rabs (y / u - x / u) <= x / u * / 9007199254740992)%R).
    { replace (y / u - x / u)%R with ((y - x) * / u)%R by (field; lra). rewrite Rabs_mult, (Rabs_pos_eq (/ u)) by (left; now apply Rinv_0_lt_compat).
      replace (x / u * / 9007199254740992)%R with (/ 9007199254740992 * x * / u)%R by (field; lra). apply Rmult_le_compat_r; [left; now apply Rinv_0_lt_compat|exact RB]. }
    replace (tt / 10 - x / u)%R with (- ((10 * (y / u) - tt) * / 10) + (y / u - x / u))%R by (field; lra).
    eapply Rle_trans; [apply Rabs_triang|]. apply Rplus_le_compat; [|exact D]. rewrite Rabs_Ropp, Rabs_mult, (Rabs_pos_eq (/ 10)) by lra. lra.
  - intro Hb. assert (L : (10 * (rnd (IZR (Z.of_N b)) / u) <= IZR 10240)%R).
    { rewrite EX by (change (2 ^ 53) with (8388608 * 2 ^ 30); lia). assert (Q : (IZR (Z.of_N b) <= 1024 * u)%R); [|apply Rmult_le_reg_r with (1 := U); replace (10 * (IZR (Z.of_N b) / u) * u)%R with (10 * IZR (Z.of_N b))%R by (field; lra); lra].
      unfold u. rewrite <- mult_IZR. apply IZR_le. enough (b <= 1024 * unit_size (bz_from_bytes b)) by lia. unfold bz_from_bytes.
      change KILO with 1024. change MEGA with 1048576. change GIGA with 1073741824. change (2 ^ 30) with 1073741824 in Hb.
      destruct (N.ltb_spec b 1024); [cbn [unit_size]; lia|]. destruct (N.ltb_spec b 1048576); [cbn [unit_size]; change (2 ^ 10) with 1024; lia|]. destruct (N.ltb_spec b 1073741824); [cbn [unit_size]; change (2 ^ 20) with 1048576; lia|lia]. }
    assert (Z.of_N t <= 10240)%Z; [|lia]. rewrite V. rewrite <- (Zrnd_IZR ZnearestE 10240). apply (Zrnd_le ZnearestE). exact L.
Qed.
Print Assumptions C72_size_text.
(** Larger sizes never print a smaller number in the same unit. *)
Theorem C72_size_order a b : a <= b -> b < two64 -> unit_size (bz_from_bytes a) = unit_size (bz_from_bytes b) ->
  exists s t, reads_as (bz_text (bz_from_bytes a)) s (unit_name (bz_from_bytes a)) /\ reads_as (bz_text (bz_from_bytes b)) t (unit_name (bz_from_bytes b)) /\ s <= t.
Proof.
  intros L H E. destruct (text_nearest a ltac:(lia)) as (s & S & Vs). destruct (text_nearest b H) as (t & T & Vt). exists s, t. split; [exact S|]. split; [exact T|]. apply N2Z.inj_le. rewrite Vs, Vt, E.
  apply (Zrnd_le ZnearestE). apply Rmult_le_compat_l; [lra|]. apply Rmult_le_compat_r; [left; apply Rinv_0_lt_compat, unit_pos|]. apply rnd_le, IZR_le. lia.
Qed.
Print Assumptions C72_size_order.
(** In megabytes (bench prints it): the size divided by 2^20, exactly, up to 2^53 bytes. *)
Theorem C72_in_mb b : b < two64 -> fval (bz_in_mb (bz_from_bytes b)) (rnd (IZR (Z.of_N b)) / 1048576)%R /\ (b <= 2 ^ 53 -> fval (bz_in_mb (bz_from_bytes b)) (IZR (Z.of_N b) / 1048576)%R).
Proof.
  intro H. unfold bz_in_mb. rewrite (proj1 (C51_from_bytes b)). pose proof (fval_unit b 20 H ltac:(lia)) as F. change (f_of_u64 MEGA) with (f_of_u64 (Z.to_N (2 ^ 20))). change (bpow radix2 20) with 1048576%R in F. split; [exact F|].
  intro Hb. rewrite rnd_format in F; [exact F|]. apply format_int. change (2 ^ 53) with 9007199254740992 in Hb. lia.
Qed.
Print Assumptions C72_in_mb.
(** Not below 1024 of a unit, though: one byte short of a megabyte is printed as 1024.0KB, which differs from the text of a
    megabyte, 1.0MB. *)
Theorem C72_unit_refuted : exists b, b < 2 ^ 20 /\ bz_text (bz_from_bytes b) = bytes_of "1024.0KB" /\ bz_text (bz_from_bytes (b + 1)) = bytes_of "1.0MB".
Proof. exists 1048575. split; [reflexivity|]. split; vm_compute; reflexivity. Qed.
Print Assumptions C72_unit_refuted.
(** 1280 bytes are 1.25 KB, a tie. *)
Example C72_example : bz_text (bz_from_bytes 1280) = bytes_of "1.2KB" /\ bz_text (bz_from_bytes 999) = bytes_of "999.0B" /\ bz_text (bz_from_bytes 18446744073709551615) = bytes_of "17179869184.0GB" /\
  reads_as (bytes_of "1.2KB") 12 (unit_name (Kilo 1280)).
Proof. split; [vm_compute; reflexivity|]. split; [vm_compute; reflexivity|]. split; [vm_compute; reflexivity|]. exists [49], 50. split; [reflexivity|]. split; [repeat constructor; discriminate|]. split; [split; [discriminate|reflexivity]|]. split; [exists 49, []; split; [reflexivity|discriminate]|reflexivity]. Qed.

(** * C73 *)
(** The names of the levels differ. *)
Theorem C73_level_names a b : opt_text a = opt_text b -> a = b.
Proof. destruct a, b; intro E; try reflexivity; discriminate E. Qed.
Print Assumptions C73_level_names.
Definition no_newline (l : list N) : Prop := ~ In 10 l.
Lemma digits_no_newline l : Forall digit l -> no_newline l.
Proof. intros F I. apply (proj1 (Forall_forall _ _) F) in I. unfold digit in I. lia. Qed.
Lemma split_newline a b r s : no_newline a -> no_newline b -> a ++ [10] ++ r = b ++ [10] ++ s -> a = b /\ r = s.
Proof.
  revert b. induction a as [|x a IH]; intros [|y b] Na Nb E; cbn [app] in E.
  - split; [reflexivity|congruence].
  - exfalso. apply Nb. left. congruence.
  - exfalso. apply Na. left. congruence.
  - injection E as -> E. destruct (IH b) as [-> ->]; [intro; apply Na; now right|intro; apply Nb; now right|exact E|auto].
Qed.
Lemma tab_line_inj label a b r s : no_newline a -> no_newline b -> tab_line label a ++ r = tab_line label b ++ s -> a = b /\ r = s.
Proof. intros Na Nb E. unfold tab_line in E. rewrite <- !app_assoc in E. apply app_inv_head in E. apply app_inv_head in E. exact (split_newline a b r s Na Nb E). Qed.
Lemma size_text_no_newline s : no_newline (bz_text s).
Proof.
  assert (O : forall t, no_newline (one_decimal t)). { intros t I. unfold one_decimal in I. apply in_app_or in I as [I|I]; [exact (digits_no_newline _ (proj1 (dec_spec _)) I)|]. cbn [In] in I. destruct I as [I|[I|[]]]; [discriminate|]. pose proof (N.le_0_l (t mod 10)). lia. }
  intro I. unfold bz_text in I. apply in_app_or in I as [I|I].
  - unfold fmt_1 in I. destruct (bz_in_unit s) as [b|b| |b m e]; try (apply in_app_or in I as [I|I]); try (exact (O _ I)); try (destruct b; cbn in I; intuition discriminate); cbn in I; intuition discriminate.
  - destruct s; cbn in I; intuition discriminate.
Qed.
(** What show prints identifies the version, the capacity, the count and the rate: they can be read off the text. [df], the
    display of floats, is only assumed to print different numbers differently, on one line. *)
Theorem C73_show_text df s t : (forall x y, df x = df y -> x = y) -> (forall x, no_newline (df x)) -> show_text df s = show_text df t ->
  sh_version s = sh_version t /\ sh_capacity s = sh_capacity t /\ sh_count s = sh_count t /\ sh_fpp s = sh_fpp t /\ bz_text (sh_data s) = bz_text (sh_data t) /\ bz_text (sh_size s) = bz_text (sh_size t).
Proof.
  intros Inj NL E. unfold show_text in E. assert (D : forall n, no_newline (dec n)) by (intro n; exact (digits_no_newline _ (proj1 (dec_spec n)))).
  apply tab_line_inj in E as [E1 E]; [|apply D|apply D]. apply tab_line_inj in E as [E2 E]; [|apply D|apply D]. apply tab_line_inj in E as [E3 E]; [|apply D|apply D]. apply tab_line_inj in E as [E4 E]; [|apply NL|apply NL].
  apply tab_line_inj in E as [E5 E]; [|apply size_text_no_newline|apply size_text_no_newline].
  rewrite <- (app_nil_r (tab_line _ (bz_text (sh_size s)))), <- (app_nil_r (tab_line _ (bz_text (sh_size t)))) in E. apply tab_line_inj in E as [E6 _]; [|apply size_text_no_newline|apply size_text_no_newline].
  apply dec_inj in E1. apply dec_inj in E2. apply dec_inj in E3. apply Inj in E4. auto 10.
Qed.
Print Assumptions C73_show_text.
(** The command itself: equal outputs come from files of the same name holding filters of the same version, capacity, count and
    rate, as the fully loaded filters tell. *)
Theorem C73_show_output df pr w w' name name' p p' c c' f f' t : (forall x y, df x = df y -> x = y) -> (forall x, no_newline (df x)) -> no_newline name -> no_newline name' ->
  fs_bytes w -> w p = Some c -> bf_from_reader pr c = Ok f -> fs_bytes w' -> w' p' = Some c' -> bf_from_reader pr c' = Ok f' ->
  show_output df pr w name p = Ok t -> show_output df pr w' name' p' = Ok t ->
  name = name' /\ bf_version f = bf_version f' /\ bf_capacity f = bf_capacity f' /\ bf_count_estimate f = bf_count_estimate f' /\ bf_fpp f = bf_fpp f'.
Proof.
  intros Inj NL N1 N2 B E Ld B' E' Ld' S S'. unfold show_output in S, S'. apply obind_Ok_inv in S as (s & Cs & S). apply obind_Ok_inv in S' as (s' & Cs' & S'). apply Ok_inj in S. apply Ok_inj in S'. rewrite <- S' in S. clear S'.
  apply app_inv_head in S. apply (split_newline name name' _ _ N1 N2) in S as [Nm S]. split; [exact Nm|]. apply (C73_show_text df s s' Inj NL) in S as (A1 & A2 & A3 & A4 & _).
  assert (G : forall w p c f s, fs_bytes w -> w p = Some c -> bf_from_reader pr c = Ok f -> cmd_show pr w p = Ok s -> sh_version s = bf_version f /\ sh_capacity s = bf_capacity f /\ sh_count s = bf_count_estimate f /\ sh_fpp s = bf_fpp f).
  { clear. intros w p c f s B E Ld Cs. destruct (C22_partial_read pr c f (B _ _ E) Ld) as (g & G & Q1 & Q2 & Q3 & Q4 & _). unfold cmd_show, fs_open in Cs. rewrite E in Cs. cbn [obind] in Cs. rewrite G in Cs. cbn [obind] in Cs.
    unfold show_bf in Cs. apply obind_Ok_inv in Cs as (sz & _ & Cs). apply Ok_inj in Cs. subst s. cbn. auto. }
  destruct (G _ _ _ _ _ B E Ld Cs) as (<- & <- & <- & <-). destruct (G _ _ _ _ _ B' E' Ld' Cs') as (<- & <- & <- & <-). auto.
Qed.
Print Assumptions C73_show_output.
(** But not the optimisation level of a version 2 filter: show does not print it, nor anything it determines for small filters. *)
Theorem C73_level_refuted : exists f g, v2_make Release ref_libm 4 p001 ONone = Ok f /\ v2_make Release ref_libm 4 p001 OSpace = Ok g /\ f <> g /\
  forall df pr s t, show_bf pr (V2 f) = Ok s -> show_bf pr (V2 g) = Ok t -> show_text df s = show_text df t.
Proof.
  assert (Q : exists g, v2_make Release ref_libm 4 p001 OSpace = Ok g /\ fn0 <> g /\ forall pr, show_bf pr (V2 fn0) = show_bf pr (V2 g)).
  { eexists. split; [vm_compute; reflexivity|]. split; [intro E; apply (f_equal (fun f => fl_opt (v2_flags f))) in E; discriminate E|]. intros []; vm_compute; reflexivity. }
  destruct Q as (g & G & N0 & S). exists fn0, g. split; [exact fn0_eq|]. split; [exact G|]. split; [exact N0|]. intros df pr s t A B. rewrite S, B in A. congruence.
Qed.
Print Assumptions C73_level_refuted.
Example C73_example : (forall x y, dec x = dec y -> x = y) /\ (forall x, no_newline (dec x)) /\
  exists s, show_bf Release (V1 e2) = Ok s /\ firstn 62 (show_text dec s) = bytes_of (String (Ascii.ascii_of_N 9) "version                                  : 1") ++ [10; 9] ++ bytes_of "capacity (desir".
Proof. split; [exact dec_inj|]. split; [intro n; exact (digits_no_newline _ (proj1 (dec_spec n)))|]. eexists. split; [vm_compute; reflexivity|vm_compute; reflexivity]. Qed.
