(** Histories of API calls on v2 filters: which keys a filter must hold, and exactly which bits it holds. *)
From Verif Require Import M_V2 Spec_Bits Spec_Hash Spec_V2.
Open Scope N_scope.

(** [v2_hist wy L f K]: [f] is the state reached by some finite tree of API calls, and [K] is the set of keys whose
    insertion answered Ok since the last clear (kept by unions, intersected by intersections). Every call may run in a
    debug or a release build; failing and panicking calls are included with the state they leave behind. *)
Inductive v2_hist (wy : hasher) (L : libm) : v2 -> (key -> Prop) -> Prop :=
| vh_make pr cap fpp opt f : cap < two64 -> fpp < two64 -> v2_make pr L cap fpp opt = Ok f ->
    v2_hist wy L f (fun _ => False)
| vh_load pr content f : bytes_ok content -> file_size_ok content -> v2_from_reader pr content = Ok f ->
    v2_hist wy L f (fun _ => False)
| vh_insert pr f K k g b : v2_hist wy L f K -> key_ok k -> v2_insert pr wy f k = (g, Ok b) ->
    v2_hist wy L g (fun x => x = k \/ K x)
| vh_insert_fail pr f K k g r : v2_hist wy L f K -> key_ok k -> v2_insert pr wy f k = (g, r) -> (forall b, r <> Ok b) ->
    v2_hist wy L g K
| vh_clear f K : v2_hist wy L f K -> v2_hist wy L (v2_clear f) (fun _ => False)
| vh_union pr a b Ka Kb g : v2_hist wy L a Ka -> v2_hist wy L b Kb -> v2_union_merge pr L a b = (g, Ok tt) ->
    v2_hist wy L g (fun x => Ka x \/ Kb x)
| vh_union_fail pr a b Ka Kb g r : v2_hist wy L a Ka -> v2_hist wy L b Kb -> v2_union_merge pr L a b = (g, r) -> r <> Ok tt ->
    v2_hist wy L g Ka
| vh_inter pr a b Ka Kb g r : v2_hist wy L a Ka -> v2_hist wy L b Kb -> v2_intersection_merge pr L a b = (g, r) ->
    (r = Ok tt \/ r = Panic) -> v2_hist wy L g (fun x => Ka x /\ Kb x)
| vh_inter_err pr a b Ka Kb g e : v2_hist wy L a Ka -> v2_hist wy L b Kb -> v2_intersection_merge pr L a b = (g, Err e) ->
    v2_hist wy L g Ka
| vh_data f K d : v2_hist wy L f K -> words_ok 8 d -> v2_hist wy L (v2_set_data f d) K
| vh_reload pr f K g : v2_hist wy L f K -> v2_from_reader pr (v2_write f) = Ok g -> v2_hist wy L g K.

(** [v2_built wy L f B C]: [f] is reached by calls that answered Ok or Err, and the abstract sets [B] of (bucket, bit)
    and [C] of cache bits are what those calls should have produced: nothing at creation, the file's own bits at load,
    plus exactly the positions of each key whose insert answered Ok, union, intersection, and no bucket bit after clear
    (clear keeps the cache, see C05). *)
Inductive v2_built (wy : hasher) (L : libm) : v2 -> (N -> N -> Prop) -> (N -> Prop) -> Prop :=
| vb_make pr cap fpp opt f : cap < two64 -> fpp < two64 -> v2_make pr L cap fpp opt = Ok f ->
    v2_built wy L f (fun _ _ => False) (fun _ => False)
| vb_load pr content f : bytes_ok content -> file_size_ok content -> v2_from_reader pr content = Ok f ->
    v2_built wy L f (fun b i => v2_bit f b i = true) (fun i => v2_cbit f i = true)
| vb_insert pr f B C k g b : v2_built wy L f B C -> key_ok k -> v2_insert pr wy f k = (g, Ok b) ->
    v2_built wy L g
      (fun b i => B b i \/ (b = v2_bucket_of f (hash_pop wy k) /\ In i (v2_positions wy f (hash_pop wy k))))
      (fun i => C i \/ (v2_index_cache f <> [] /\ i = v2_cache_of f (hash_pop wy k)))
| vb_insert_err pr f B C k g e : v2_built wy L f B C -> key_ok k -> v2_insert pr wy f k = (g, Err e) -> v2_built wy L g B C
| vb_clear f B C : v2_built wy L f B C -> v2_built wy L (v2_clear f) (fun _ _ => False) C
| vb_union pr a b Ba Ca Bb Cb g : v2_built wy L a Ba Ca -> v2_built wy L b Bb Cb -> v2_union_merge pr L a b = (g, Ok tt) ->
    v2_built wy L g (fun k i => Ba k i \/ Bb k i) (fun i => Ca i \/ Cb i)
| vb_inter pr a b Ba Ca Bb Cb g : v2_built wy L a Ba Ca -> v2_built wy L b Bb Cb -> v2_intersection_merge pr L a b = (g, Ok tt) ->
    v2_built wy L g (fun k i => Ba k i /\ Bb k i) (fun i => Ca i /\ Cb i)
| vb_merge_err pr a b Ba Ca Bb Cb g e : v2_built wy L a Ba Ca -> v2_built wy L b Bb Cb ->
    (v2_union_merge pr L a b = (g, Err e) \/ v2_intersection_merge pr L a b = (g, Err e)) -> v2_built wy L g Ba Ca
| vb_data f B C d : v2_built wy L f B C -> words_ok 8 d -> v2_built wy L (v2_set_data f d) B C
| vb_reload pr f B C g : v2_built wy L f B C -> v2_from_reader pr (v2_write f) = Ok g -> v2_built wy L g B C.

(** [v2_kept wy L f K C]: built by creations, inserts, clears, unions and reloads only; [K] holds the keys inserted with
    answer Ok since the last clear, [C] those inserted since creation. *)
Inductive v2_kept (wy : hasher) (L : libm) : v2 -> (key -> Prop) -> (key -> Prop) -> Prop :=
| vk_make pr cap fpp opt f : cap < two64 -> fpp < two64 -> v2_make pr L cap fpp opt = Ok f ->
    v2_kept wy L f (fun _ => False) (fun _ => False)
| vk_insert pr f K C k g b : v2_kept wy L f K C -> key_ok k -> v2_insert pr wy f k = (g, Ok b) ->
    v2_kept wy L g (fun x => x = k \/ K x) (fun x => x = k \/ C x)
| vk_insert_err pr f K C k g e : v2_kept wy L f K C -> key_ok k -> v2_insert pr wy f k = (g, Err e) -> v2_kept wy L g K C
| vk_clear f K C : v2_kept wy L f K C -> v2_kept wy L (v2_clear f) (fun _ => False) C
| vk_union pr a b Ka Ca Kb Cb g : v2_kept wy L a Ka Ca -> v2_kept wy L b Kb Cb -> v2_union_merge pr L a b = (g, Ok tt) ->
    v2_kept wy L g (fun x => Ka x \/ Kb x) (fun x => Ca x \/ Cb x)
| vk_data f K C d : v2_kept wy L f K C -> words_ok 8 d -> v2_kept wy L (v2_set_data f d) K C
| vk_reload pr f K C g : v2_kept wy L f K C -> v2_from_reader pr (v2_write f) = Ok g -> v2_kept wy L g K C.

(** [v2_reach wy L f]: [f] can be obtained through the API at all. *)
Definition v2_reach (wy : hasher) (L : libm) (f : v2) : Prop := exists K, v2_hist wy L f K.

(** [v2_solo wy f0 f n]: [f] comes from filter [f0] by inserts, clears, assignments of data and save/reload (no merge),
    and [n] is the number of inserts that answered Ok(true) since [f0] or the last clear. *)
Inductive v2_solo (wy : hasher) (f0 : v2) : v2 -> N -> Prop :=
| vs_start : v2_solo wy f0 f0 0
| vs_insert pr f n k g b : v2_solo wy f0 f n -> key_ok k -> v2_insert pr wy f k = (g, Ok b) ->
    v2_solo wy f0 g (if b then n + 1 else n)
| vs_insert_err pr f n k g e : v2_solo wy f0 f n -> key_ok k -> v2_insert pr wy f k = (g, Err e) -> v2_solo wy f0 g n
| vs_clear f n : v2_solo wy f0 f n -> v2_solo wy f0 (v2_clear f) 0
| vs_data f n d : v2_solo wy f0 f n -> words_ok 8 d -> v2_solo wy f0 (v2_set_data f d) n
| vs_reload pr f n g : v2_solo wy f0 f n -> v2_from_reader pr (v2_write f) = Ok g -> v2_solo wy f0 g n.
