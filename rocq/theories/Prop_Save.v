(** Writing a filter to a device or file (C48, C49). *)
From Coq Require Import Lia.
From Verif Require Import M_Bloom M_Cli M_RefLibm Spec_Bits Spec_Hash Spec_V2 Spec_V1 Spec_Bloom P_Base P_V2Codec P_V1Codec P_Codec P_Bloom P_Sink Prop_Codec Prop_Bloom Ex_Base Ex_V1.
Open Scope N_scope.

Lemma be2_kept wy : bf_kept wy ref_libm be2.
Proof.
  assert (A : bytes_ok da) by (repeat constructor). assert (B : bytes_ok db) by (repeat constructor).
  assert (E0 : bf_with_version_capacity_opt Release ref_libm 1 4 p001 ONone = Ok (V1 e0)) by (vm_compute; reflexivity).
  assert (E1 : bf_insert_bytes Release wy (V1 e0) da = (V1 e1, Ok true)) by (cbn [bf_insert_bytes]; now rewrite e1_eq).
  assert (E2 : bf_insert_bytes Release wy (V1 e1) db = (V1 e2, Ok true)) by (cbn [bf_insert_bytes]; now rewrite e2_eq).
  exact (bk_insert _ _ _ _ _ _ _ (bk_insert _ _ _ _ _ _ _ (bk_make _ _ Release 1 4 p001 ONone (V1 e0) eq_refl eq_refl E0) A E1) B E2).
Qed.

(** * C49 *)
(** Whatever the result, the device received the first bytes of the serialised filter, as many as it had room for. *)
Theorem C49_prefix f s s' r : write_to_sink (bf_write_calls f) s = (s', r) ->
  sk_got s' = sk_got s ++ firstn (N.to_nat (sk_room s)) (bf_write f) /\ (r = Ok tt \/ r = Err IoError).
Proof. intro E. destruct (write_to_sink_sem _ _ _ _ E) as ((A & _) & B & _). split; [exact A|exact B]. Qed.
Print Assumptions C49_prefix.
(** A device with enough room gets everything and the answer is Ok. *)
Theorem C49_enough f s s' r : write_to_sink (bf_write_calls f) s = (s', r) -> len (bf_write f) <= sk_room s -> r = Ok tt /\ sk_got s' = sk_got s ++ bf_write f.
Proof.
  intros E H. destruct (write_to_sink_sem _ _ _ _ E) as ((A & _) & B & _ & C). split.
  - destruct B as [B|B]; [exact B|]. specialize (C B). unfold bf_write in H. lia.
  - rewrite A. f_equal. now apply firstn_len.
Qed.
Print Assumptions C49_enough.
(** Full statement: Ok implies that all bytes reached the device. Proved: all but the last 8192 (the BufWriter's buffer) did.
    Missing: those, see C49_refuted. *)
Theorem C49_ok_partial f s s' : write_to_sink (bf_write_calls f) s = (s', Ok tt) ->
  exists lost, sk_got s ++ bf_write f = sk_got s' ++ lost /\ len lost <= 8192.
Proof.
  intro E. destruct (write_to_sink_sem _ _ _ _ E) as ((A & _) & _ & B & _). exists (skipn (N.to_nat (sk_room s)) (bf_write f)). split.
  - rewrite A, <- app_assoc, firstn_skipn. reflexivity.
  - specialize (B eq_refl). change BUF_CAP with 8192 in B. change (concat (bf_write_calls f)) with (bf_write f) in B. unfold len in *. rewrite skipn_length. lia.
Qed.
Print Assumptions C49_ok_partial.
(** The converse: an error is reported only when bytes are missing. *)
Theorem C49_err f s s' e : write_to_sink (bf_write_calls f) s = (s', Err e) -> exists lost, lost <> [] /\ sk_got s ++ bf_write f = sk_got s' ++ lost.
Proof.
  intro E. destruct (write_to_sink_sem _ _ _ _ E) as ((A & _) & B & _ & C). exists (skipn (N.to_nat (sk_room s)) (bf_write f)). split.
  - destruct B as [B|B]; [discriminate|]. specialize (C B). change (concat (bf_write_calls f)) with (bf_write f) in C. intro Q. apply (f_equal (@length _)) in Q. rewrite skipn_length in Q. unfold len in C. cbn in Q. lia.
  - rewrite A, <- app_assoc, firstn_skipn. reflexivity.
Qed.
Print Assumptions C49_err.
(** A v1 filter holding two entries on a full device: write answers Ok and nothing was written. *)
Theorem C49_refuted : exists wy f s s', bf_kept wy ref_libm f /\ write_to_sink (bf_write_calls f) s = (s', Ok tt) /\ sk_got s = [] /\ sk_got s' = [] /\ bf_write f <> [].
Proof.
  exists (fun _ => 0), be2, {| sk_got := []; sk_room := 0 |}. eexists. split; [apply be2_kept|]. split; [vm_compute; reflexivity|]. split; [reflexivity|]. split; [reflexivity|discriminate].
Qed.
Print Assumptions C49_refuted.
Example C49_example : write_to_sink (bf_write_calls be2) {| sk_got := [7]; sk_room := 56 |} = ({| sk_got := 7 :: bf_write be2; sk_room := 0 |}, Ok tt) /\ len (bf_write be2) = 56.
Proof. split; vm_compute; reflexivity. Qed.
(** More than the buffer and a device that is too small: the error is seen. *)
Example C49_example_err : exists s, write_to_sink (bf_write_calls (V1 (v1_set_data e2 (repeat 0 (N.to_nat 8200))))) {| sk_got := []; sk_room := 20 |} = (s, Err IoError).
Proof. eexists. vm_compute. reflexivity. Qed.

(** * C48 *)
Lemma kept_bytes wy L f : bf_kept wy L f -> bytes_ok (bf_write f).
Proof. intro K. pose proof (bf_kept_wf _ _ _ K) as W. destruct f as [f|f]; [exact (v1_write_bytes f W)|exact (write_bytes f W)]. Qed.
(** Full statement: after a crash the file holds the old or the new filter. Proved: the old content, or a file the reader
    rejects, or the new filter with part of its user data. Missing: nothing replaces the old file atomically, see C48_refuted. *)
Theorem C48_crash_partial pr wy L w p f c : bf_kept wy L f -> crash_content w p f c ->
  c = w p \/ exists n, c = Some (firstn (N.to_nat n) (bf_write f)) /\
    (n < len (bf_write f) - len (bf_data f) -> bf_from_reader pr (firstn (N.to_nat n) (bf_write f)) = Err IoError) /\
    (len (bf_write f) - len (bf_data f) <= n -> bf_from_reader pr (firstn (N.to_nat n) (bf_write f)) =
       Ok (bf_set_data f (firstn (N.to_nat (n - (len (bf_write f) - len (bf_data f)))) (bf_data f)))).
Proof.
  intros K [|n]; [now left|right]. exists (N.of_nat n). rewrite Nnat.Nat2N.id. split; [reflexivity|].
  pose proof (C19_truncated pr (bf_write f) f (N.of_nat n) (kept_bytes _ _ _ K) (bf_kept_roundtrip pr _ _ _ K)) as H. now rewrite Nnat.Nat2N.id in H.
Qed.
Print Assumptions C48_crash_partial.
(** Without user data the new content is loadable only when complete. *)
Theorem C48_no_data pr wy L w p f c g : bf_kept wy L f -> bf_data f = [] -> crash_content w p f (Some c) -> Some c <> w p -> bf_from_reader pr c = Ok g -> c = bf_write f /\ g = f.
Proof.
  intros K D H Nw E. destruct (C48_crash_partial pr _ _ _ _ _ _ K H) as [Q|(n & Q & A & B)]; [contradiction|]. injection Q as ->. rewrite D in A, B. cbn [len length N.of_nat] in A, B.
  destruct (N.lt_ge_cases n (len (bf_write f) - 0)) as [Hn|Hn]; [rewrite (A Hn) in E; discriminate|]. rewrite N.sub_0_r in Hn. rewrite firstn_len in * by exact Hn.
  split; [reflexivity|]. rewrite (bf_kept_roundtrip pr _ _ _ K) in E. congruence.
Qed.
Print Assumptions C48_no_data.
(** The file holds the filter [be0]; [be2] is being saved over it; a crash leaves a file with neither. *)
Definition be0 : bloom := V1 e0.
Definition disk : fs := fun q => if list_eqb [1] q then Some (bf_write be0) else None.
Theorem C48_refuted : exists wy w p f old c, bf_kept wy ref_libm f /\ w p = Some old /\ bf_from_reader Release old = Ok be0 /\
  crash_content w p f (Some c) /\ c <> old /\ c <> bf_write f /\ bf_from_reader Release c = Err IoError.
Proof.
  exists (fun _ => 0), disk, [1], be2, (bf_write be0), (firstn 20 (bf_write be2)). split; [apply be2_kept|]. split; [reflexivity|]. split; [vm_compute; reflexivity|].
  split; [apply crash_during|]. split; [vm_compute; discriminate|]. split; [vm_compute; discriminate|]. vm_compute. reflexivity.
Qed.
Print Assumptions C48_refuted.
(** A save that is not interrupted and has room leaves the filter in the file and touches no other file. *)
Theorem C48_save_ok pr wy L w p f room : bf_kept wy L f -> len (bf_write f) <= room ->
  exists w', save w p f room = (w', Ok tt) /\ (let? c := fs_open w' p in bf_from_reader pr c) = Ok f /\ forall q, q <> p -> w' q = w q.
Proof.
  intros K H. unfold save. destruct (write_to_sink (bf_write_calls f) {| sk_got := []; sk_room := room |}) as [s r] eqn:E. destruct (C49_enough _ _ _ _ E H) as [-> G]. cbn [sk_got app] in G.
  exists (fs_set w p (sk_got s)). split; [reflexivity|]. rewrite G. unfold fs_open, fs_set. assert (R : forall q, list_eqb p q = true <-> p = q).
  { clear. induction p as [|x p IH]; intros [|y q]; cbn; try easy. rewrite Bool.andb_true_iff, N.eqb_eq, IH. split; [intros [-> ->]; reflexivity|intro Q; now injection Q]. }
  rewrite (proj2 (R p) eq_refl). split; [exact (bf_kept_roundtrip pr _ _ _ K)|]. intros q Hq. destruct (list_eqb p q) eqn:Q; [|reflexivity]. apply R in Q. congruence.
Qed.
Print Assumptions C48_save_ok.
