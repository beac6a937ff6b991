(** Specification vocabulary for v1 filters: a filter seen as a set of bit positions, and histories of API calls. *)
From Verif Require Import M_V1 Spec_Bits Spec_Hash Spec_V2.
Open Scope N_scope.

Definition v1_bit (f : v1) (i : N) : bool := bit 64 (v1_bitset f) i.
(** The positions of a value (DCSO sequence), and whether they are all set. *)
Definition v1_positions (f : v1) (d : list byte) : list N := dcso_positions (v1_n_hash f) (v1_bit_size f) d.
Definition v1_covered (f : v1) (d : list byte) : bool := forallb (v1_bit f) (v1_positions f d).

(** Everything but the bits, the count and the data. *)
Definition v1_same_frame (f g : v1) : Prop :=
  v1_flags g = v1_flags f /\ v1_capacity g = v1_capacity f /\ v1_fpp g = v1_fpp f /\ v1_n_hash g = v1_n_hash f /\
  v1_bit_size g = v1_bit_size f /\ v1_fp g = v1_fp f /\ len (v1_bitset g) = len (v1_bitset f).
Definition v1_same_content (f g : v1) : Prop := v1_same_frame f g /\ v1_bitset g = v1_bitset f.

(** Representation invariant of every created or fully loaded filter. *)
Record v1_wf (f : v1) : Prop := {
  w1_version : fl_version (v1_flags f) = 1;
  w1_reserved : bytes_reserved (fl_reserved (v1_flags f));
  w1_capacity : v1_capacity f < two64;
  w1_fpp : v1_fpp f < two64;
  w1_n_hash : v1_n_hash f < two64;
  w1_bit_size : v1_bit_size f < two64;
  w1_count : v1_count f < two64;
  w1_bits : words_ok 64 (v1_bitset f);
  w1_len : len (v1_bitset f) = v1_u64_size (v1_bit_size f);
  w1_fp : v1_fp f = fp_new (v1_n_hash f) (v1_bit_size f);
  w1_data : words_ok 8 (v1_data f)
}.

(** The bit vector really has the announced bits, and there are bits if there are hash functions: true of every created
    filter, but a file may announce hash functions over zero bits, or a bit count above 2^53 that rounds down when the
    vector is allocated. *)
Definition v1_usable (f : v1) : Prop :=
  v1_bit_size f <= 64 * len (v1_bitset f) /\ (v1_n_hash f <> 0 -> v1_bit_size f <> 0).

(** [v1_hist L f K]: [f] is reached by some finite tree of API calls, [K] is the set of values whose insertion answered Ok
    since the last clear (kept by unions). Failing and panicking calls are included with the state they leave behind. *)
Inductive v1_hist (L : libm) : v1 -> (list byte -> Prop) -> Prop :=
| h1_make cap fpp f : cap < two64 -> fpp < two64 -> v1_with_capacity L cap fpp = Ok f -> v1_hist L f (fun _ => False)
| h1_load pr content f : bytes_ok content -> v1_from_reader pr content = Ok f -> v1_hist L f (fun _ => False)
| h1_insert pr f K d g b : v1_hist L f K -> v1_insert_bytes pr f d = (g, Ok b) -> v1_hist L g (fun x => x = d \/ K x)
| h1_insert_fail pr f K d g r : v1_hist L f K -> v1_insert_bytes pr f d = (g, r) -> (forall b, r <> Ok b) -> v1_hist L g K
| h1_clear f K : v1_hist L f K -> v1_hist L (v1_clear f) (fun _ => False)
| h1_union a b Ka Kb g : v1_hist L a Ka -> v1_hist L b Kb -> v1_union_merge L a b = (g, Ok tt) -> v1_hist L g (fun x => Ka x \/ Kb x)
| h1_union_fail a b Ka Kb g r : v1_hist L a Ka -> v1_hist L b Kb -> v1_union_merge L a b = (g, r) -> r <> Ok tt -> v1_hist L g Ka
| h1_data f K d : v1_hist L f K -> words_ok 8 d -> v1_hist L (v1_set_data f d) K
| h1_reload pr f K g : v1_hist L f K -> v1_from_reader pr (v1_write f) = Ok g -> v1_hist L g K.

Definition v1_reach (L : libm) (f : v1) : Prop := exists K, v1_hist L f K.

(** [v1_built L f B]: [f] is reached by calls that answered Ok or Err, and [B] is the set of bits those calls should have
    produced: none at creation, the file's own at load, plus the positions of each value whose insert answered Ok, union,
    none after clear. *)
Inductive v1_built (L : libm) : v1 -> (N -> Prop) -> Prop :=
| b1_make cap fpp f : cap < two64 -> fpp < two64 -> v1_with_capacity L cap fpp = Ok f -> v1_built L f (fun _ => False)
| b1_load pr content f : bytes_ok content -> v1_from_reader pr content = Ok f -> v1_built L f (fun i => v1_bit f i = true)
| b1_insert pr f B d g b : v1_built L f B -> v1_insert_bytes pr f d = (g, Ok b) ->
    v1_built L g (fun i => B i \/ In i (v1_positions f d))
| b1_insert_err pr f B d g e : v1_built L f B -> v1_insert_bytes pr f d = (g, Err e) -> v1_built L g B
| b1_clear f B : v1_built L f B -> v1_built L (v1_clear f) (fun _ => False)
| b1_union a b Ba Bb g : v1_built L a Ba -> v1_built L b Bb -> v1_union_merge L a b = (g, Ok tt) -> v1_built L g (fun i => Ba i \/ Bb i)
| b1_union_err a b Ba Bb g e : v1_built L a Ba -> v1_built L b Bb -> v1_union_merge L a b = (g, Err e) -> v1_built L g Ba
| b1_data f B d : v1_built L f B -> words_ok 8 d -> v1_built L (v1_set_data f d) B
| b1_reload pr f B g : v1_built L f B -> v1_from_reader pr (v1_write f) = Ok g -> v1_built L g B.

(** [v1_kept L f K]: built by creations, inserts, clears, unions, assignments of data and reloads only (no foreign file). *)
Inductive v1_kept (L : libm) : v1 -> (list byte -> Prop) -> Prop :=
| k1_make cap fpp f : cap < two64 -> fpp < two64 -> v1_with_capacity L cap fpp = Ok f -> v1_kept L f (fun _ => False)
| k1_insert pr f K d g b : v1_kept L f K -> v1_insert_bytes pr f d = (g, Ok b) -> v1_kept L g (fun x => x = d \/ K x)
| k1_insert_err pr f K d g e : v1_kept L f K -> v1_insert_bytes pr f d = (g, Err e) -> v1_kept L g K
| k1_clear f K : v1_kept L f K -> v1_kept L (v1_clear f) (fun _ => False)
| k1_union a b Ka Kb g : v1_kept L a Ka -> v1_kept L b Kb -> v1_union_merge L a b = (g, Ok tt) -> v1_kept L g (fun x => Ka x \/ Kb x)
| k1_data f K d : v1_kept L f K -> words_ok 8 d -> v1_kept L (v1_set_data f d) K
| k1_reload pr f K g : v1_kept L f K -> v1_from_reader pr (v1_write f) = Ok g -> v1_kept L g K.

(** [v1_solo f0 f n]: [f] comes from [f0] by inserts, clears, assignments of data and save/reload, and [n] is the number of
    inserts that answered Ok(true) since [f0] or the last clear. *)
Inductive v1_solo (f0 : v1) : v1 -> N -> Prop :=
| s1_start : v1_solo f0 f0 0
| s1_insert pr f n d g b : v1_solo f0 f n -> v1_insert_bytes pr f d = (g, Ok b) -> v1_solo f0 g (if b then n + 1 else n)
| s1_insert_err pr f n d g e : v1_solo f0 f n -> v1_insert_bytes pr f d = (g, Err e) -> v1_solo f0 g n
| s1_clear f n : v1_solo f0 f n -> v1_solo f0 (v1_clear f) 0
| s1_data f n d : v1_solo f0 f n -> words_ok 8 d -> v1_solo f0 (v1_set_data f d) n
| s1_reload pr f n g : v1_solo f0 f n -> v1_from_reader pr (v1_write f) = Ok g -> v1_solo f0 g n.

(** The v1 file format: 8 flag bytes, five little-endian words (capacity, fpp, hash count, bit count, count), the words
    of the bit vector, then the attached data. *)
Definition v1_image (fb : list byte) (f : v1) : list byte :=
  fb ++ le_bytes 8 (v1_capacity f) ++ le_bytes 8 (v1_fpp f) ++ le_bytes 8 (v1_n_hash f) ++ le_bytes 8 (v1_bit_size f)
     ++ le_bytes 8 (v1_count f) ++ concat (map (le_bytes 8) (v1_bitset f)) ++ v1_data f.
Record v1_file (content : list byte) (f : v1) : Prop := {
  f1_bytes : content = v1_image (fl_version (v1_flags f) :: opt_to_u8 (fl_opt (v1_flags f)) :: fl_reserved (v1_flags f)) f;
  f1_version : fl_version (v1_flags f) = 1;
  f1_reserved : length (fl_reserved (v1_flags f)) = 6%nat;
  f1_capacity : v1_capacity f < two64;
  f1_fpp : v1_fpp f < two64;
  f1_n_hash : v1_n_hash f < two64;
  f1_bit_size : v1_bit_size f < two64;
  f1_count : v1_count f < two64;
  f1_bits : words_ok 64 (v1_bitset f);
  f1_len : len (v1_bitset f) = v1_u64_size (v1_bit_size f);
  f1_fp : v1_fp f = fp_new (v1_n_hash f) (v1_bit_size f)
}.
