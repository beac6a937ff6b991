(** Reader lemmas: a reader used without seeking is the list of the bytes still to come. *)
From Coq Require Import Lia.
From Verif Require Import M_IO Spec_Bits P_Base.
Open Scope N_scope.

Definition advance (r : reader) (n : N) : reader := {| r_all := r_all r; r_pos := r_pos r + n |}.
Lemma rest_of c : r_rest (reader_of c) = c.
Proof. unfold r_rest, reader_of. cbn [r_all r_pos]. destruct c; cbn; auto. Qed.
Lemma len_skipn {A} n (l : list A) : len (skipn n l) = len l - N.of_nat n.
Proof. unfold len. rewrite skipn_length. lia. Qed.
Lemma len_firstn {A} n (l : list A) : len (firstn n l) = N.min (N.of_nat n) (len l).
Proof. unfold len. rewrite firstn_length. lia. Qed.
Lemma skipn_skipn' {A} n m (l : list A) : skipn n (skipn m l) = skipn (m + n) l.
Proof. revert l. induction m; intros; cbn; auto. destruct l; cbn; auto. now rewrite skipn_nil. Qed.
Lemma rest_skip r : r_rest r = skipn (N.to_nat (r_pos r)) (r_all r).
Proof.
  unfold r_rest. destruct (N.leb_spec (len (r_all r)) (r_pos r)); auto.
  symmetry. apply skipn_all2. unfold len in H. lia.
Qed.
Lemma rest_advance r n : r_rest (advance r n) = skipn (N.to_nat n) (r_rest r).
Proof. rewrite !rest_skip. cbn [advance r_all r_pos]. rewrite skipn_skipn'. f_equal. lia. Qed.

Lemma read_exact_app r a t : r_rest r = a ++ t -> read_exact (len a) r = Ok (a, advance r (len a)) /\ r_rest (advance r (len a)) = t.
Proof.
  intro E. unfold read_exact. rewrite E, rest_advance, E, len_app.
  replace (len a <=? len a + len t) with true by (symmetry; apply N.leb_le; lia).
  unfold len. rewrite Nat2N.id, firstn_app, Nat.sub_diag, firstn_all, app_nil_r.
  rewrite skipn_app, Nat.sub_diag, skipn_all. auto.
Qed.
Lemma read_exact_n r n a t : r_rest r = a ++ t -> len a = n -> read_exact n r = Ok (a, advance r n) /\ r_rest (advance r n) = t.
Proof. intros E <-. now apply read_exact_app. Qed.
Lemma read_exact_inv n r a r' : read_exact n r = Ok (a, r') -> r_rest r = a ++ r_rest r' /\ len a = n /\ r' = advance r n.
Proof.
  unfold read_exact. destruct (N.leb_spec n (len (r_rest r))); [|discriminate]. intro E. apply Ok_inj, pair_inj in E as [<- <-].
  change {| r_all := r_all r; r_pos := r_pos r + n |} with (advance r n).
  rewrite rest_advance, firstn_skipn. rewrite len_firstn. split; auto. split; auto. lia.
Qed.
Lemma read_exact_short n r : len (r_rest r) < n -> read_exact n r = Err IoError.
Proof. intro H. unfold read_exact. destruct (N.leb_spec n (len (r_rest r))); auto. lia. Qed.
Lemma read_exact_cases n r : (exists a, read_exact n r = Ok (a, advance r n)) \/ read_exact n r = Err IoError.
Proof. unfold read_exact. destruct (_ <=? _); eauto. Qed.
Lemma read_exact_not_Panic n r : read_exact n r <> Panic.
Proof. destruct (read_exact_cases n r) as [[a E]|E]; rewrite E; discriminate. Qed.

Lemma read_many_inv n sz : forall r l r', read_many n sz r = Ok (l, r') ->
  r_rest r = concat l ++ r_rest r' /\ length l = n /\ Forall (fun b => len b = sz) l /\ r_all r' = r_all r.
Proof.
  induction n; cbn; intros r l r' E.
  - apply Ok_inj, pair_inj in E as [<- <-]. auto.
  - apply obind_Ok_inv in E as ([a r1] & E1 & E). apply obind_Ok_inv in E as ([bs r2] & E2 & E).
    apply Ok_inj, pair_inj in E as [<- <-].
    apply read_exact_inv in E1 as (A & B & ->). apply IHn in E2 as (C & D & F & G).
    rewrite A, C. cbn. rewrite <- app_assoc, D. split; auto.
Qed.
Lemma read_many_app sz l : forall r t, r_rest r = concat l ++ t -> Forall (fun b => len b = sz) l ->
  exists r', read_many (length l) sz r = Ok (l, r') /\ r_rest r' = t /\ r_all r' = r_all r.
Proof.
  induction l as [|b l IH]; cbn; intros r t E F.
  - eauto.
  - apply Forall_cons_iff in F as [Fb F]. rewrite <- app_assoc in E.
    destruct (read_exact_n _ _ _ _ E Fb) as [-> R]. cbn [obind].
    destruct (IH _ _ R F) as (r' & -> & R' & A). cbn [obind]. eauto.
Qed.
Lemma read_many_short n sz : forall r, len (r_rest r) < N.of_nat n * sz -> read_many n sz r = Err IoError.
Proof.
  induction n; intros r H; [lia|]. cbn [read_many].
  destruct (N.leb_spec sz (len (r_rest r))).
  - destruct (read_exact_cases sz r) as [[a E]|E]; rewrite E; cbn [obind]; auto.
    rewrite IHn; auto. rewrite rest_advance, len_skipn. lia.
  - rewrite read_exact_short by auto. reflexivity.
Qed.
Lemma read_many_cases n sz : forall r, (exists l r', read_many n sz r = Ok (l, r')) \/ read_many n sz r = Err IoError.
Proof.
  induction n; intro r; cbn [read_many]; eauto.
  destruct (read_exact_cases sz r) as [[a E]|E]; rewrite E; cbn [obind]; auto.
  destruct (IHn (advance r sz)) as [(l & r' & E')|E']; rewrite E'; cbn [obind]; eauto.
Qed.

Lemma read_u64_app r x t : x < two64 -> r_rest r = le_bytes 8 x ++ t ->
  read_le_u64 r = Ok (x, advance r 8) /\ r_rest (advance r 8) = t.
Proof.
  intros Hx E. unfold read_le_u64. destruct (read_exact_n r 8 _ _ E) as [-> R]. apply le_bytes_len.
  cbn [obind]. rewrite le8_rt by auto. auto.
Qed.
Lemma bytes_ok_rest r : bytes_ok (r_all r) -> bytes_ok (r_rest r).
Proof. intro H. rewrite rest_skip. now apply Forall_skipn. Qed.
Lemma read_u64_inv r x r' : bytes_ok (r_all r) -> read_le_u64 r = Ok (x, r') ->
  r_rest r = le_bytes 8 x ++ r_rest r' /\ x < two64 /\ r' = advance r 8.
Proof.
  intros Hb E. unfold read_le_u64 in E. apply obind_Ok_inv in E as ([a r1] & E1 & E). apply Ok_inj, pair_inj in E as [<- <-].
  apply read_exact_inv in E1 as (A & B & ->).
  assert (Ha : bytes_ok a). { apply bytes_ok_rest in Hb. rewrite A in Hb. now apply bytes_ok_app in Hb as [? _]. }
  assert (La : length a = 8%nat) by (unfold len in B; lia).
  rewrite A. split. f_equal. rewrite <- La. symmetry. now apply le_bytes_of_le. split; auto. now apply of_le8_lt.
Qed.
Lemma read_u64_short r : len (r_rest r) < 8 -> read_le_u64 r = Err IoError.
Proof. intro H. unfold read_le_u64. now rewrite read_exact_short. Qed.
Lemma read_u64_cases r : (exists x, read_le_u64 r = Ok (x, advance r 8)) \/ read_le_u64 r = Err IoError.
Proof. unfold read_le_u64. destruct (read_exact_cases 8 r) as [[a E]|E]; rewrite E; cbn [obind]; eauto. Qed.
Lemma advance_all r n : r_all (advance r n) = r_all r.
Proof. reflexivity. Qed.

Lemma opt_rt o : opt_of_u8 (opt_to_u8 o) = Ok o.
Proof. now destruct o. Qed.
Lemma opt_of_u8_inv v o : opt_of_u8 v = Ok o -> v = opt_to_u8 o.
Proof.
  unfold opt_of_u8. cbn [opt_to_u8].
  destruct (N.eqb_spec v 0); [intro E; apply Ok_inj in E as <-; auto|].
  destruct (N.eqb_spec v 1); [intro E; apply Ok_inj in E as <-; auto|].
  destruct (N.eqb_spec v 2); [intro E; apply Ok_inj in E as <-; auto|].
  destruct (N.eqb_spec v 3); [intro E; apply Ok_inj in E as <-; auto|discriminate].
Qed.
Lemma opt_of_u8_big v : 4 <= v -> opt_of_u8 v = Err (OptLevelError v).
Proof.
  intro H. unfold opt_of_u8. cbn [opt_to_u8].
  destruct (N.eqb_spec v 0); [lia|]. destruct (N.eqb_spec v 1); [lia|]. destruct (N.eqb_spec v 2); [lia|]. destruct (N.eqb_spec v 3); [lia|]. reflexivity.
Qed.
Lemma opt_of_u8_not_Panic v : opt_of_u8 v <> Panic.
Proof. unfold opt_of_u8. repeat destruct (_ =? _); discriminate. Qed.
Lemma opt_to_u8_inj a b : opt_to_u8 a = opt_to_u8 b -> a = b.
Proof. destruct a, b; cbn; congruence. Qed.

(** The eight header bytes of flags value [fl]. *)
Definition flag_bytes (fl : flags) : list byte := fl_version fl :: opt_to_u8 (fl_opt fl) :: fl_reserved fl.
Lemma read_flags_inv r fl r' : read_flags r = Ok (fl, r') ->
  r_rest r = flag_bytes fl ++ r_rest r' /\ length (fl_reserved fl) = 6%nat /\ r' = advance r 8.
Proof.
  unfold read_flags. intro E. apply obind_Ok_inv in E as ([b r1] & E1 & E). apply obind_Ok_inv in E as (f & E2 & E).
  apply Ok_inj, pair_inj in E as [<- <-]. apply read_exact_inv in E1 as (A & B & ->).
  unfold flags_from_bytes in E2. destruct b as [|v [|o rest]]; try discriminate.
  apply obind_Ok_inv in E2 as (o' & E2 & E3). apply Ok_inj in E3 as <-. apply opt_of_u8_inv in E2 as ->.
  unfold flag_bytes. cbn [fl_version fl_opt fl_reserved]. split; auto. split; auto. unfold len in B. cbn in B. lia.
Qed.
Lemma read_flags_app r fl t : length (fl_reserved fl) = 6%nat -> r_rest r = flag_bytes fl ++ t ->
  read_flags r = Ok (fl, advance r 8) /\ r_rest (advance r 8) = t.
Proof.
  intros H E. unfold read_flags. destruct (read_exact_n r 8 _ _ E) as [-> R].
  { unfold flag_bytes, len. cbn [length]. lia. }
  cbn [obind flags_from_bytes flag_bytes]. rewrite opt_rt. cbn [obind]. destruct fl; auto.
Qed.
Lemma read_flags_not_Panic r : read_flags r <> Panic.
Proof.
  unfold read_flags. intro E. apply obind_Panic_inv in E as [E|([b r1] & E1 & E)].
  - now apply read_exact_not_Panic in E.
  - apply obind_Panic_inv in E as [E|(f & E2 & E)]; [|discriminate].
    apply read_exact_inv in E1 as (_ & B & _). unfold flags_from_bytes in E. destruct b as [|v [|o rest]]; try discriminate.
    apply obind_Panic_inv in E as [E|(f & E2 & E)]; [|discriminate]. now apply opt_of_u8_not_Panic in E.
Qed.
Lemma read_flags_short r : len (r_rest r) < 8 -> read_flags r = Err IoError.
Proof. intro H. unfold read_flags. now rewrite read_exact_short. Qed.
