(** Specification vocabulary for the version-independent filter: the set of bits it holds and the histories of calls that
    lead to it. *)
From Verif Require Import M_Bloom Spec_Bits Spec_Hash Spec_V2 Spec_V2Hist Spec_V1.
Open Scope N_scope.

(** A bit of a filter: bit [i] of bucket [b] (the vector of a v1 filter is bucket 0), or bit [i] of the index cache. *)
Inductive spot := Spot (b i : N) | CacheSpot (i : N).
Definition bf_spot (f : bloom) (s : spot) : bool :=
  match f, s with
  | V1 f, Spot b i => (b =? 0) && v1_bit f i
  | V1 _, CacheSpot _ => false
  | V2 f, Spot b i => v2_bit f b i
  | V2 f, CacheSpot i => v2_cbit f i
  end.
(** The bits that entry [d] uses in filter [f]. *)
Definition bf_spots (wy : hasher) (f : bloom) (d : list byte) (s : spot) : Prop :=
  match f, s with
  | V1 f, Spot b i => b = 0 /\ In i (v1_positions f d)
  | V1 _, CacheSpot _ => False
  | V2 f, Spot b i => b = v2_bucket_of f (hash_pop wy (KSlice d)) /\ In i (v2_positions wy f (hash_pop wy (KSlice d)))
  | V2 f, CacheSpot i => v2_index_cache f <> [] /\ i = v2_cache_of f (hash_pop wy (KSlice d))
  end.

(** Same version, parameters and sizes (bits, count and data may differ). *)
Definition bf_same_frame (f g : bloom) : Prop :=
  match f, g with V1 f, V1 g => v1_same_frame f g | V2 f, V2 g => v2_same_frame f g | _, _ => False end.
(** Moreover the same bits everywhere. *)
Definition bf_same_content (f g : bloom) : Prop :=
  match f, g with V1 f, V1 g => v1_same_content f g | V2 f, V2 g => v2_same_content f g | _, _ => False end.
Definition bf_wf (f : bloom) : Prop := match f with V1 f => v1_wf f | V2 f => v2_wf f end.
Definition bf_usable (f : bloom) : Prop := match f with V1 f => v1_usable f | V2 f => v2_usable f end.
(** A v1 filter without bits answers false to every query, even for what was inserted (C02); v2 filters are not concerned. *)
Definition bf_has_bits (f : bloom) : Prop := match f with V1 f => v1_bit_size f <> 0 | V2 _ => True end.

(** [bf_hist wy L f K]: [f] is reached by some finite tree of calls of the generic interface, [K] is the set of entries
    whose insertion answered Ok since the last clear. *)
Inductive bf_hist (wy : hasher) (L : libm) : bloom -> (list byte -> Prop) -> Prop :=
| bh_make pr v cap fpp opt f : cap < two64 -> fpp < two64 -> bf_with_version_capacity_opt pr L v cap fpp opt = Ok f ->
    bf_hist wy L f (fun _ => False)
| bh_load pr content f : bytes_ok content -> file_size_ok content -> bf_from_reader pr content = Ok f -> bf_hist wy L f (fun _ => False)
| bh_insert pr f K d g b : bf_hist wy L f K -> bytes_ok d -> bf_insert_bytes pr wy f d = (g, Ok b) -> bf_hist wy L g (fun x => x = d \/ K x)
| bh_insert_fail pr f K d g r : bf_hist wy L f K -> bytes_ok d -> bf_insert_bytes pr wy f d = (g, r) -> (forall b, r <> Ok b) -> bf_hist wy L g K
| bh_clear f K : bf_hist wy L f K -> bf_hist wy L (bf_clear f) (fun _ => False)
| bh_union pr a b Ka Kb g : bf_hist wy L a Ka -> bf_hist wy L b Kb -> bf_union_merge pr L a b = (g, Ok tt) -> bf_hist wy L g (fun x => Ka x \/ Kb x)
| bh_union_fail pr a b Ka Kb g r : bf_hist wy L a Ka -> bf_hist wy L b Kb -> bf_union_merge pr L a b = (g, r) -> r <> Ok tt -> bf_hist wy L g Ka
| bh_reload pr f K g : bf_hist wy L f K -> bf_from_reader pr (bf_write f) = Ok g -> bf_hist wy L g K.
Definition bf_reach (wy : hasher) (L : libm) (f : bloom) : Prop := exists K, bf_hist wy L f K.

(** [inserts pr wy f ds g]: inserting the entries [ds] one after the other answers Ok each time and leads from [f] to [g]. *)
Inductive inserts (pr : profile) (wy : hasher) : bloom -> list (list byte) -> bloom -> Prop :=
| ins_nil f : inserts pr wy f [] f
| ins_cons f d g b ds h : bf_insert_bytes pr wy f d = (g, Ok b) -> inserts pr wy g ds h -> inserts pr wy f (d :: ds) h.

(** [bf_kept wy L f]: made by this library, without files from elsewhere: creations, inserts, clears, unions and reloads. *)
Inductive bf_kept (wy : hasher) (L : libm) : bloom -> Prop :=
| bk_make pr v cap fpp opt f : cap < two64 -> fpp < two64 -> bf_with_version_capacity_opt pr L v cap fpp opt = Ok f -> bf_kept wy L f
| bk_insert pr f d g b : bf_kept wy L f -> bytes_ok d -> bf_insert_bytes pr wy f d = (g, Ok b) -> bf_kept wy L g
| bk_insert_err pr f d g e : bf_kept wy L f -> bytes_ok d -> bf_insert_bytes pr wy f d = (g, Err e) -> bf_kept wy L g
| bk_clear f : bf_kept wy L f -> bf_kept wy L (bf_clear f)
| bk_union pr a b g : bf_kept wy L a -> bf_kept wy L b -> bf_union_merge pr L a b = (g, Ok tt) -> bf_kept wy L g
| bk_reload pr f g : bf_kept wy L f -> bf_from_reader pr (bf_write f) = Ok g -> bf_kept wy L g.
