(** poppy/src/utils.rs: ByteSize and Stats. *)
From Verif Require Export M_Float.
Open Scope N_scope.

(** utils.rs:21-26. *)
Inductive byte_size := Bytes (b : usize) | Kilo (b : usize) | Mega (b : usize) | Giga (b : usize).
(** utils.rs:48-50. *)
Definition KILO : usize := N.shiftl 1 10.
Definition MEGA : usize := N.shiftl 1 20.
Definition GIGA : usize := N.shiftl 1 30.
(** utils.rs:65-75. *)
Definition bz_from_bytes (b : usize) : byte_size :=
  if b <? KILO then Bytes b else if b <? MEGA then Kilo b else if b <? GIGA then Mega b else Giga b.
(** utils.rs:60-62. *)
Definition bz_from_bits (b : usize) : byte_size := bz_from_bytes (b / 8).
(** utils.rs:78-80. *)
Definition bz_from_mb (pr : profile) (mb : usize) : outcome byte_size :=
  let? b := checked_mul pr mb MEGA in Ok (bz_from_bytes b).
(** utils.rs:93-100. *)
Definition bz_in_bytes (s : byte_size) : usize :=
  match s with Bytes b => b | Kilo b => b | Mega b => b | Giga b => b end.
(** utils.rs:103-110. *)
Definition bz_in_mb (s : byte_size) : spec_float := f_div (f_of_u64 (bz_in_bytes s)) (f_of_u64 MEGA).
(** utils.rs:113-120. *)
Definition bz_as_bytes (s : byte_size) : byte_size := Bytes (bz_in_bytes s).
(** utils.rs:123-130. *)
Definition bz_in_unit (s : byte_size) : spec_float :=
  match s with
  | Bytes b => f_of_u64 b
  | Kilo b => f_div (f_of_u64 b) (f_of_u64 KILO)
  | Mega b => f_div (f_of_u64 b) (f_of_u64 MEGA)
  | Giga b => f_div (f_of_u64 b) (f_of_u64 GIGA)
  end.
(** utils.rs:36-40 [PartialEq], 42-46 [PartialOrd]. *)
Definition bz_eqb (a b : byte_size) : bool := bz_in_bytes a =? bz_in_bytes b.
Definition bz_cmp (a b : byte_size) : comparison := bz_in_bytes a ?= bz_in_bytes b.

(** utils.rs:164-205 [Stats] (fp, tp, tn, fn are f64 counters). *)
Record stats := { st_fp : spec_float; st_tp : spec_float; st_tn : spec_float; st_fn : spec_float; st_total : usize }.
(** utils.rs:174-176. *)
Definition stats_new : stats :=
  {| st_fp := S754_zero false; st_tp := S754_zero false; st_tn := S754_zero false; st_fn := S754_zero false;
     st_total := 0 |}.
(** utils.rs:178-180. *)
Definition stats_fp_rate (s : stats) : spec_float := f_div (st_fp s) (f_add (st_tn s) (st_fp s)).
(** utils.rs:182-200. [total += 1] is checked in debug builds. *)
Inductive stat_event := EvTp | EvFn | EvFp | EvTn.
Definition stats_inc (pr : profile) (s : stats) (e : stat_event) : outcome stats :=
  let? t := checked_add pr (st_total s) 1 in
  Ok {| st_fp := match e with EvFp => f_add (st_fp s) f_one | _ => st_fp s end;
        st_tp := match e with EvTp => f_add (st_tp s) f_one | _ => st_tp s end;
        st_tn := match e with EvTn => f_add (st_tn s) f_one | _ => st_tn s end;
        st_fn := match e with EvFn => f_add (st_fn s) f_one | _ => st_fn s end;
        st_total := t |}.
