(** Values of Rust types that can be entries of a version 2 filter, and the bytes the standard [Hash] feeds to a hasher
    for them; independent of the definitions of M_Hash.v except for the type of keys. *)
From Verif Require Import M_Hash Spec_Lines.
Open Scope N_scope.

(** Types: an integer of [w] bytes, &[u8] or Vec<u8>, &str or String, Option<T>, and structures with derived Hash
    ([TField t r]: a first field of type [t], then the fields of [r]; hash.rs:20-31 is [TField (TInt 8) (TField TText TEnd)]). *)
Inductive ty := TInt (w : nat) | TBytes | TText | TOpt (t : ty) | TEnd | TField (t r : ty).
Inductive value := VInt (w : nat) (v : N) | VBytes (b : list byte) | VText (b : list byte) | VNone | VSome (v : value) | VEnd | VField (v r : value).

Inductive typed : ty -> value -> Prop :=
| ty_int w v : v < 256 ^ N.of_nat w -> typed (TInt w) (VInt w v)
| ty_bytes b : Forall (fun x => x < 256) b -> len b < 2 ^ 64 -> typed TBytes (VBytes b)
| ty_text b : utf8 b -> typed TText (VText b)
| ty_none t : typed (TOpt t) VNone
| ty_some t v : typed t v -> typed (TOpt t) (VSome v)
| ty_end : typed TEnd VEnd
| ty_field t r v w : typed t v -> typed r w -> typed (TField t r) (VField v w).

(** The key of the model for a value: structures use the default hash_pop and feed their fields in order. *)
Fixpoint as_key (v : value) : key :=
  match v with
  | VInt w x => KInt w x
  | VBytes b => KVec b
  | VText b => KString b
  | VNone => KOpt None
  | VSome v => KOpt (Some (as_key v))
  | VEnd => KCustom []
  | VField v r => KCustom (std_hash (as_key v) ++ std_hash (as_key r))
  end.

(** [num l]: the number written as the bytes [l], the least significant first. *)
Definition num (l : list byte) : N := fold_right (fun b r => b + 256 * r) 0 l.
(** [word n x l]: [l] is [x] as [n] bytes on a little-endian target. *)
Definition word (n : nat) (x : N) (l : list byte) : Prop := length l = n /\ Forall (fun b => b < 256) l /\ num l = x.
(** [fed v l]: hashing [v] feeds the bytes [l], on a 64-bit little-endian target. *)
Inductive fed : value -> list byte -> Prop :=
| fed_int w x l : word w x l -> fed (VInt w x) l
| fed_bytes b l : word 8 (len b) l -> fed (VBytes b) (l ++ b)
| fed_text b : fed (VText b) (b ++ [255])
| fed_none l : word 8 0 l -> fed VNone l
| fed_some v l m : word 8 1 l -> fed v m -> fed (VSome v) (l ++ m)
| fed_end : fed VEnd []
| fed_field v r l m : fed v l -> fed r m -> fed (VField v r) (l ++ m).

(** Targets: integers are fed in the byte order of the machine, lengths and discriminants as words of its pointer size. *)
Record target := { tg_big : bool; tg_ptr : nat }.
Definition here_target : target := {| tg_big := false; tg_ptr := 8 |}.
Definition ne_bytes (tg : target) (n : nat) (x : N) : list byte := if tg_big tg then be_bytes n x else le_bytes n x.
Fixpoint std_hash_on (tg : target) (k : key) : list (list byte) :=
  match k with
  | KInt w v => [ne_bytes tg w v]
  | KSlice b | KVec b => [ne_bytes tg (tg_ptr tg) (len b); b]
  | KStr b | KString b => [b; [255]]
  | KOpt None => [ne_bytes tg (tg_ptr tg) 0]
  | KOpt (Some k') => ne_bytes tg (tg_ptr tg) 1 :: std_hash_on tg k'
  | KCustom ws => ws
  end.
(** The key standing for [k] on the target [tg]: &[u8], Vec<u8>, &str and String do not go through [Hash] (hash.rs:52-81). *)
Definition key_on (tg : target) (k : key) : key :=
  match k with
  | KSlice _ | KVec _ | KStr _ | KString _ => k
  | _ => KCustom (std_hash_on tg k)
  end.
