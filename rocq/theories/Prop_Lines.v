(** Entries of a text (C50) and byte sizes (C51). *)
From Coq Require Import Lia.
From Verif Require Import M_Lines M_Utils M_Cli Spec_Lines P_Base P_Lines.
Open Scope N_scope.

(** * C50 *)
(** Every content has exactly one list of lines in the sense of Spec_Lines, and for valid UTF-8 this is what is read. *)
Theorem C50_lines s : exists es, text s es /\ (forall es', text s es' -> es' = es) /\ (utf8 s -> lines s = map Some es) /\
  (forall e, In (Some e) (lines s) -> In e es) /\ length (lines s) = length es.
Proof.
  destruct (text_total _ s (le_n _)) as (es & T). exists es. split; [exact T|]. split; [|split; [|split]].
  - intros es' T'. now rewrite <- (text_chomp _ _ T), <- (text_chomp _ _ T').
  - exact (text_lines _ _ T).
  - intros e He. rewrite <- (text_chomp _ _ T). rewrite lines_map in He. apply in_map_iff in He as (x & E & Hx). unfold line_of in E. destruct (utf8_valid x); [|discriminate].
    injection E as <-. apply in_map_iff. eauto.
  - unfold lines. rewrite map_length. exact (text_length _ _ T).
Qed.
Print Assumptions C50_lines.
(** An empty content has no entry, and only it. *)
Theorem C50_empty s : lines s = [] <-> s = [].
Proof.
  split; [|intros ->; reflexivity]. intro E. rewrite <- (segments_concat s). rewrite lines_map in E. apply map_eq_nil in E. now rewrite E.
Qed.
Print Assumptions C50_empty.
(** A content that is not valid UTF-8 gives at least one error item, and only such a content does. *)
Theorem C50_invalid s : In None (lines s) <-> ~ utf8 s.
Proof. exact (lines_invalid s). Qed.
Print Assumptions C50_invalid.
(** Terminated entries are read back as they are. *)
Theorem C50_unlines es : Forall clean es -> Forall utf8 es -> lines (concat (map (fun e => e ++ [LF]) es)) = map Some es.
Proof.
  intros C U. apply (text_lines _ _ (text_unlines _ C)). induction U as [|e es He U IH]; [exact utf8_nil|]. cbn [map concat]. inversion C; subst. apply utf8_app; [|auto].
  apply utf8_app; [exact He|]. apply (utf8_cons [LF] []); [constructor; discriminate|exact utf8_nil].
Qed.
Print Assumptions C50_unlines.
(** Joined entries too. Full statement: for every list of clean entries. Missing: the last entry is empty, see C50_refuted. *)
Theorem C50_join_partial es : Forall clean es -> Forall utf8 es -> last es [LF] <> [] -> lines (join_lf es) = map Some es.
Proof.
  intros C U H. apply (text_lines _ _ (text_join _ C H)). clear C H. induction U as [|e es He U IH]; [exact utf8_nil|]. destruct es as [|e' es]; [exact He|].
  change (join_lf (e :: e' :: es)) with (e ++ LF :: join_lf (e' :: es)). apply utf8_app; [exact He|]. apply (utf8_cons [LF]); [constructor; discriminate|exact IH].
Qed.
Print Assumptions C50_join_partial.
(** The entries "a" and "" joined with LF read back as the single entry "a". *)
Theorem C50_refuted : exists es, Forall clean es /\ Forall utf8 es /\ lines (join_lf es) <> map Some es.
Proof.
  exists [[97]; []].
  assert (C : Forall clean [[97]; []]).
  { constructor; [|constructor; [|constructor]]; split.
    - intros [Q|[]]. discriminate.
    - intros (p & E). destruct p as [|x [|y p]]; discriminate.
    - intros [].
    - intros (p & E). destruct p; discriminate. }
  split; [exact C|]. split; [|discriminate]. constructor; [|constructor; [exact utf8_nil|constructor]]. apply (utf8_cons [97] []); [constructor; discriminate|exact utf8_nil].
Qed.
Print Assumptions C50_refuted.
(** CRLF, an empty line, a two byte character, a CR inside a line, and an unterminated last line keeping its CR. *)
Definition sample : list byte := [97; 13; 10; 10; 195; 169; 13; 98; 10; 99; 13].
Example C50_example : utf8 sample /\ lines sample = [Some [97]; Some []; Some [195; 169; 13; 98]; Some [99; 13]] /\ lines [97; 10; 255; 10; 98] = [Some [97]; None; Some [98]].
Proof. split; [apply utf8_valid_iff; vm_compute; reflexivity|]. split; vm_compute; reflexivity. Qed.

(** * C51 *)
(** The unit as a number of bytes. *)
Definition unit_size (s : byte_size) : N := match s with Bytes _ => 1 | Kilo _ => 2 ^ 10 | Mega _ => 2 ^ 20 | Giga _ => 2 ^ 30 end.
Theorem C51_from_bytes b : bz_in_bytes (bz_from_bytes b) = b /\
  (unit_size (bz_from_bytes b) <= b \/ unit_size (bz_from_bytes b) = 1) /\
  (forall u, In u [1; 2 ^ 10; 2 ^ 20; 2 ^ 30] -> u <= b -> u <= unit_size (bz_from_bytes b)).
Proof.
  unfold bz_from_bytes. change KILO with (2 ^ 10). change MEGA with (2 ^ 20). change GIGA with (2 ^ 30).
  destruct (N.ltb_spec b (2 ^ 10)) as [A|A]; [|destruct (N.ltb_spec b (2 ^ 20)) as [B|B]; [|destruct (N.ltb_spec b (2 ^ 30)) as [C|C]]]; cbn [bz_in_bytes unit_size];
    (split; [reflexivity|]); (split; [auto|]); intros u [<-|[<-|[<-|[<-|[]]]]] Hu; lia.
Qed.
Print Assumptions C51_from_bytes.
Theorem C51_order a b : (bz_eqb (bz_from_bytes a) (bz_from_bytes b) = true <-> a = b) /\ bz_cmp (bz_from_bytes a) (bz_from_bytes b) = (a ?= b) /\
  (forall s t, bz_eqb s t = true <-> bz_cmp s t = Eq) /\ (forall s, bz_eqb (bz_as_bytes s) s = true /\ unit_size (bz_as_bytes s) = 1).
Proof.
  unfold bz_eqb, bz_cmp. rewrite !(proj1 (C51_from_bytes _)). split; [apply N.eqb_eq|]. split; [reflexivity|]. split.
  - intros s t. rewrite N.eqb_eq, N.compare_eq_iff. reflexivity.
  - intro s. split; [apply N.eqb_eq; now destruct s|reflexivity].
Qed.
Print Assumptions C51_order.
Theorem C51_from_bits b : 8 * bz_in_bytes (bz_from_bits b) <= b < 8 * bz_in_bytes (bz_from_bits b) + 8.
Proof. unfold bz_from_bits. rewrite (proj1 (C51_from_bytes _)). pose proof (N.div_mod b 8 ltac:(discriminate)) as A. pose proof (N.mod_lt b 8 ltac:(discriminate)) as B. generalize dependent (b mod 8). generalize (b / 8). intros. lia. Qed.
Print Assumptions C51_from_bits.
(** from_mb is exact up to 2^44 - 1 megabytes; beyond, debug builds panic and release builds wrap. *)
Theorem C51_from_mb pr mb : mb < 2 ^ 44 -> exists s, bz_from_mb pr mb = Ok s /\ bz_in_bytes s = 2 ^ 20 * mb.
Proof.
  intro H. exists (bz_from_bytes (mb * MEGA)). change MEGA with (2 ^ 20). split.
  - unfold bz_from_mb, checked_mul. change MEGA with (2 ^ 20). replace (mb * 2 ^ 20 <? two64) with true; [reflexivity|]. symmetry. apply N.ltb_lt. change two64 with (2 ^ 44 * 2 ^ 20). apply N.mul_lt_mono_pos_r; [reflexivity|exact H].
  - rewrite (proj1 (C51_from_bytes _)). apply N.mul_comm.
Qed.
Print Assumptions C51_from_mb.
(** The benchmark's "no limit" (size 0, turned into usize::MAX megabytes) overflows: a panic in debug builds, and in release
    builds a limit of 2^64 - 2^20 bytes. *)
Theorem C51_no_limit_overflows : exists pr s, bench_limit pr 0 = Panic /\ bench_limit Release 0 = Ok s /\ bz_in_bytes s = 2 ^ 64 - 2 ^ 20.
Proof. exists Debug. eexists. split; [vm_compute; reflexivity|]. split; [vm_compute; reflexivity|]. vm_compute. reflexivity. Qed.
Print Assumptions C51_no_limit_overflows.
Example C51_example : bz_from_bytes 1048575 = Kilo 1048575 /\ bz_from_bytes 1048576 = Mega 1048576 /\ bz_in_bytes (bz_from_bits 95) = 11.
Proof. split; [|split]; vm_compute; reflexivity. Qed.
