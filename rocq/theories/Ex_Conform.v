(** The unit tests of the repository that do not depend on random data or on time, run against the model: tests of the model,
    not theorems. They are checked when this file is compiled and not kept ([Succeed]). Strings are byte lists through
    [bytes_of]; wyhash is that of Ex_Wyhash.v, the logarithms are those of M_RefLibm.v. A test passes here for both build
    profiles unless it fixes one. *)
From Coq Require Import String.
From Verif Require Import M_V1 M_V2 M_Bloom M_Text M_RefLibm Spec_Dcso Ex_Base Ex_V1 Ex_Wyhash.
Open Scope N_scope.

Definition p1e3 : N := 4562254508917369340.   (* 0.001 *)
Definition p1e4 : N := 4547007122018943789.   (* 0.0001 *)
Definition ok_all {A} (f : A -> outcome bool) (b : bool) (l : list A) : Prop := List.map f l = List.map (fun _ => Ok b) l.

(** ** fnv.rs *)
(** fnv.rs:72 test_fnv, fnv.rs:81 test_fnv_update *)
Succeed Definition test_fnv : fnv_hash_one (bytes_of "Hello, World!") = 8889723880822884486 /\ fnv_hash_one (bytes_of "Let's rustify all this") = 13581150826273240441 :=
  ltac:(vm_compute; auto).
Succeed Definition test_fnv_update : fnv_write (fnv_write FNV_OFFSET (bytes_of "Hello, ")) (bytes_of "World!") = 8889723880822884486 :=
  ltac:(vm_compute; reflexivity).

(** ** v1.rs *)
(** v1.rs:457 test_fingerprint *)
Succeed Definition test_fingerprint : fp_list (fp_fingerprint (fp_new 7 958505) (bytes_of "bar")) =
  List.map Ok [20311; 36825; 412501; 835777; 658914; 853361; 307361] :=
  ltac:(vm_compute; reflexivity).
(** The macro of v1.rs:442. *)
Fixpoint bloom1_all (pr : profile) (f : v1) (l : list (list byte)) : outcome v1 :=
  match l with
  | [] => Ok f
  | d :: l => match v1_insert_bytes pr f d with (g, Ok _) => bloom1_all pr g l | _ => Panic end
  end.
Definition bloom1 (pr : profile) (cap fpp : N) (l : list string) : outcome v1 :=
  let? f := unwrap (v1_with_capacity ref_libm cap fpp) in bloom1_all pr f (List.map bytes_of l).
(** v1.rs:473 test_bloom *)
Succeed Definition test_bloom_v1 (pr : profile) : exists b c, bloom1 pr 100000 p1e3 [] = Ok b /\ v1_contains_bytes b (bytes_of "value") = Ok false /\
  v1_insert_bytes pr b (bytes_of "value") = (c, Ok true) /\ v1_contains_bytes c (bytes_of "value") = Ok true /\ v1_count c = 1 /\ v1_contains_bytes c (bytes_of "unknown") = Ok false :=
  ltac:(exists (mk1 100000 p1e3), (ins1 (mk1 100000 p1e3) (bytes_of "value")); (destruct pr; (split; [vm_compute; reflexivity|]);
    (split; [vm_compute; reflexivity|]); (split; [vm_compute; reflexivity|]); (split; [vm_compute; reflexivity|]); (split; vm_compute; reflexivity))).
(** v1.rs:483 test_macro *)
Definition t_hw : v1 := get v1_dflt (bloom1 Release 1000 p1e4 ["hello"; "world"]%string).
Succeed Definition test_macro (pr : profile) : bloom1 pr 1000 p1e4 ["hello"; "world"]%string = Ok t_hw /\ ok_all (v1_contains_bytes t_hw) true (List.map bytes_of ["hello"; "world"]%string) :=
  ltac:((destruct pr; split; vm_compute; reflexivity)).
(** v1.rs:490 test_serialization, v1.rs:508 test_partial_deserialization *)
Definition t_ser : v1 := v1_set_data (get v1_dflt (bloom1 Release 1000 p1e4 ["deserialization"; "test"]%string)) (List.map N.of_nat (seq 0 255)).
Succeed Definition test_serialization_v1 (pr : profile) : exists b, v1_from_reader pr (v1_write t_ser) = Ok b /\ v1_fpp b = p1e4 /\
  ok_all (v1_contains_bytes b) true (List.map bytes_of ["deserialization"; "test"]%string) /\
  ok_all (v1_contains_bytes b) false (List.map bytes_of ["hello"; "world"]%string) /\ v1_data b = List.map N.of_nat (seq 0 255) :=
  ltac:(exists t_ser; (destruct pr; (split; [vm_compute; reflexivity|]); (split; [vm_compute; reflexivity|]); (split; [vm_compute; reflexivity|]); (split; vm_compute; reflexivity))).
Succeed Definition test_partial_deserialization_v1 (pr : profile) : exists b, v1_from_reader_partial pr (v1_write t_ser) true = Ok b /\ v1_fpp b = p1e4 /\ v1_capacity b = 1000 /\
  v1_count b = 2 /\ v1_data b = List.map N.of_nat (seq 0 255) :=
  ltac:(exists (get v1_dflt (v1_from_reader_partial Release (v1_write t_ser) true)); (destruct pr; (split; [vm_compute; reflexivity|]);
    (split; [vm_compute; reflexivity|]); (split; [vm_compute; reflexivity|]); (split; vm_compute; reflexivity))).
(** v1.rs:524 test_deserialization: the file data/test.bloom, written by the Go implementation. *)
Definition test_bloom_file : list byte :=
  [1; 0; 0; 0; 0; 0; 0; 0; 16; 39; 0; 0; 0; 0; 0; 0; 123; 20; 174; 71; 225; 122; 132; 63; 7; 0; 0; 0; 0; 0; 0; 0; 106; 118; 1; 0; 0; 0; 0; 0; 2; 0; 0; 0; 0; 0; 0; 0]
  ++ repeat 0 195 ++ [8] ++ repeat 0 1894 ++ [32] ++ repeat 0 237 ++ [2] ++ repeat 0 2295 ++ [8] ++ repeat 0 209 ++ [2] ++ repeat 0 1126 ++ [32] ++ repeat 0 360 ++ [8] ++ repeat 0 822 ++ [32] ++ repeat 0 614 ++ [2] ++ repeat 0 889 ++ [2] ++ repeat 0 120 ++ [8] ++ repeat 0 796 ++ [2] ++ repeat 0 300 ++ [2] ++ repeat 0 2081 ++ [128] ++ repeat 0 32.
Definition t_go : v1 := get v1_dflt (v1_from_reader Release test_bloom_file).
Succeed Definition test_deserialization (pr : profile) : v1_from_reader pr test_bloom_file = Ok t_go /\ v1_has_same_params (mk1 10000 p001) t_go = true /\
  ok_all (v1_contains_bytes t_go) true (List.map bytes_of ["hello"; "world"]%string) /\
  ok_all (v1_contains_bytes t_go) false (List.map bytes_of ["hello world"; "this"; "that"]%string) :=
  ltac:((destruct pr; (split; [vm_compute; reflexivity|]); (split; [vm_compute; reflexivity|]); split; vm_compute; reflexivity)).
(** The same file, byte for byte, from the description of the Go library (Spec_Dcso.v): the two words added to an empty
    filter of capacity 10000 and probability 0.01 with 7 hash functions over 95850 bits. *)
Succeed Definition test_go_file : option_map dcso_write (dcso_adds {| dc_n := 10000; dc_p := p001; dc_k := 7; dc_m := 95850; dc_N := 0; dc_v := repeat 0 (N.to_nat (dcso_words 95850)); dc_data := [] |}
  (List.map bytes_of ["hello"; "world"]%string)) = Some test_bloom_file /\ option_map (fun d => List.map (fun x => dcso_check d (bytes_of x)) ["hello"; "world"; "this"]%string) (dcso_read test_bloom_file) = Some [Some true; Some true; Some false] :=
  ltac:(split; vm_compute; reflexivity).
(** Stronger than the test: inserting the two strings and writing the filter gives this very file. *)
Succeed Definition test_same_file (pr : profile) : (let? b := bloom1 pr 10000 p001 ["hello"; "world"]%string in Ok (v1_write b)) = Ok test_bloom_file :=
  ltac:((destruct pr; vm_compute; reflexivity)).
(** v1.rs:541 test_union *)
Definition t_ut : v1 := get v1_dflt (bloom1 Release 1000 p1e4 ["union"; "test"]%string).
Succeed Definition test_union_v1 : exists b, v1_union_merge ref_libm t_hw t_ut = (b, Ok tt) /\
  ok_all (v1_contains_bytes b) true (List.map bytes_of ["hello"; "world"; "union"; "test"]%string) /\ v1_count_estimate b = 4 :=
  ltac:(exists (fst (v1_union_merge ref_libm t_hw t_ut)); (split; [vm_compute; reflexivity|]); (split; vm_compute; reflexivity)).
(** v1.rs:558 test_union_failure *)
Succeed Definition test_union_failure : snd (v1_union_merge ref_libm t_hw (get v1_dflt (bloom1 Release 100 p1e4 ["union"; "test"]%string))) = Err Merge :=
  ltac:(vm_compute; reflexivity).
(** v1.rs:566 test_clear *)
Succeed Definition test_clear : v1_count_estimate t_hw = 2 /\ ok_all (v1_contains_bytes (v1_clear t_hw)) false (List.map bytes_of ["hello"; "world"]%string) /\
  v1_count_estimate (v1_clear t_hw) = 0 :=
  ltac:((split; [vm_compute; reflexivity|]); (split; vm_compute; reflexivity)).
(** v1.rs:577 test_too_many_entries *)
Definition t_full : v1 := get v1_dflt (bloom1 Release 5 p1e4 ["hello"; "world"; "toasting"; "bloom"; "filter"]%string).
Succeed Definition test_too_many_entries (pr : profile) : bloom1 pr 5 p1e4 ["hello"; "world"; "toasting"; "bloom"; "filter"]%string = Ok t_full /\ v1_count_estimate t_full = 5 /\
  snd (v1_insert_bytes pr t_full (bytes_of "everything should explode, OMG !")) = Err TooManyEntries :=
  ltac:((destruct pr; (split; [vm_compute; reflexivity|]); split; vm_compute; reflexivity)).
(** v1.rs:603 test_show_bug_in_v1: the size (the rate is in Prop_Pow2.v). *)
Succeed Definition test_show_bug_in_v1 : v1_bit_size (mk1 109397 p001) = 2 ^ 20 :=
  ltac:(vm_compute; reflexivity).
(** v1.rs:633 test_contains_on_empty *)
Succeed Definition test_contains_on_empty_v1 (pr : profile) : exists b, bloom1 pr 0 p1e3 [] = Ok b /\ v1_contains_bytes b (bytes_of "42") = Ok false :=
  ltac:(exists (mk1 0 p1e3); (destruct pr; split; vm_compute; reflexivity)).

(** ** v2.rs *)
(** The macro of v2.rs:690, with the keys of its values. *)
Definition ks (s : string) : key := KStr (bytes_of s).
Fixpoint bloom2_all (pr : profile) (f : v2) (l : list key) : outcome v2 :=
  match l with
  | [] => Ok f
  | k :: l => match v2_insert pr wy_ref f k with (g, Ok _) => bloom2_all pr g l | _ => Panic end
  end.
Definition bloom2 (pr : profile) (cap fpp : N) (l : list string) : outcome v2 :=
  let? f := unwrap (v2_with_capacity pr ref_libm cap fpp) in bloom2_all pr f (List.map ks l).
(** v2.rs:752 test_bloom *)
Succeed Definition test_bloom_v2 (pr : profile) : exists b c, v2_with_capacity pr ref_libm 10000 p1e3 = Ok b /\ v2_contains_bytes_old wy_ref b (bytes_of "hello") = Ok false /\
  v2_insert_bytes pr wy_ref b (bytes_of "hello") = (c, Ok true) /\ v2_contains_bytes_old wy_ref c (bytes_of "hello") = Ok true /\
  v2_contains wy_ref c (ks "hello") = Ok true /\ v2_contains_bytes wy_ref c (bytes_of "hello") = Ok true /\ v2_count c = 1 /\
  v2_contains wy_ref c (ks "unknown") = Ok false :=
  ltac:(exists (mk 10000 p1e3 ONone), (fst (v2_insert_bytes Release wy_ref (mk 10000 p1e3 ONone) (bytes_of "hello"))); (destruct pr; (split; [vm_compute; reflexivity|]); (split; [vm_compute; reflexivity|]); (split; [vm_compute; reflexivity|]); (split; [vm_compute; reflexivity|]);
    (split; [vm_compute; reflexivity|]); (split; [vm_compute; reflexivity|]); (split; vm_compute; reflexivity))).
(** v2.rs:764 test_poppy_hash_compatibility *)
Succeed Definition test_poppy_hash_compatibility (pr : profile) : exists b c d e, v2_with_capacity pr ref_libm 10000 p1e3 = Ok b /\ v2_contains wy_ref b (ks "hello") = Ok false /\
  v2_insert pr wy_ref b (ks "hello") = (c, Ok true) /\ v2_insert pr wy_ref c (KString (bytes_of "some string")) = (d, Ok true) /\
  v2_insert_bytes_old pr wy_ref d (bytes_of "some old string") = (e, Ok true) /\
  ok_all (v2_contains_bytes_old wy_ref e) true (List.map bytes_of ["hello"; "some string"; "some old string"]%string) /\
  ok_all (v2_contains wy_ref e) true (List.map ks ["hello"; "some string"; "some old string"]%string) /\ v2_contains wy_ref e (ks "unknown") = Ok false :=
  ltac:(set (b := mk 10000 p1e3 ONone); set (c := fst (v2_insert Release wy_ref b (ks "hello"))); set (d := fst (v2_insert Release wy_ref c (KString (bytes_of "some string")))); exists b, c, d, (fst (v2_insert_bytes_old Release wy_ref d (bytes_of "some old string"))); (destruct pr; (split; [vm_compute; reflexivity|]); (split; [vm_compute; reflexivity|]); (split; [vm_compute; reflexivity|]); (split; [vm_compute; reflexivity|]);
    (split; [vm_compute; reflexivity|]); (split; [vm_compute; reflexivity|]); (split; vm_compute; reflexivity))).
(** v2.rs:797 test_union *)
Succeed Definition test_union_v2 (pr : profile) : exists a b c, bloom2 pr 1000 p1e4 ["hello"; "world"]%string = Ok a /\ bloom2 pr 1000 p1e4 ["union"; "test"]%string = Ok b /\
  v2_union_merge pr ref_libm a b = (c, Ok tt) /\ v2_count_estimate c = 4 /\
  ok_all (v2_contains_bytes wy_ref c) true (List.map bytes_of ["hello"; "world"; "union"; "test"]%string) :=
  ltac:((set (a := get v2_dflt (bloom2 Release 1000 p1e4 ["hello"; "world"]%string))); (set (b := get v2_dflt (bloom2 Release 1000 p1e4 ["union"; "test"]%string))); exists a, b, (fst (v2_union_merge Release ref_libm a b)); (destruct pr; (split; [vm_compute; reflexivity|]); (split; [vm_compute; reflexivity|]); (split; [vm_compute; reflexivity|]); (split; vm_compute; reflexivity))).
(** v2.rs:814 test_intersection *)
Succeed Definition test_intersection (pr : profile) : exists a b c, bloom2 pr 1000 p1e4 ["hello"; "world"; "testing"; "bloom"; "filters"]%string = Ok a /\
  bloom2 pr 1000 p1e4 ["hello"; "from"; "intersecting"; "two"; "filters"]%string = Ok b /\ v2_count_common_entries pr ref_libm a b = Ok 2 /\
  v2_intersection pr ref_libm a b = Ok c /\ v2_count_estimate c = 2 /\ ok_all (v2_contains_bytes wy_ref c) true (List.map bytes_of ["hello"; "filters"]%string) :=
  ltac:((set (a := get v2_dflt (bloom2 Release 1000 p1e4 ["hello"; "world"; "testing"; "bloom"; "filters"]%string))); (set (b := get v2_dflt (bloom2 Release 1000 p1e4 ["hello"; "from"; "intersecting"; "two"; "filters"]%string))); exists a, b, (get v2_dflt (v2_intersection Release ref_libm a b)); (destruct pr; (split; [vm_compute; reflexivity|]); (split; [vm_compute; reflexivity|]); (split; [vm_compute; reflexivity|]); (split; [vm_compute; reflexivity|]); (split; vm_compute; reflexivity))).
(** v2.rs:1013 test_serialization *)
Succeed Definition test_serialization_v2 (pr : profile) : exists a b, bloom2 pr 1000 p1e4 ["deserialization"; "test"]%string = Ok a /\
  v2_from_reader pr (v2_write (v2_set_data a (List.map N.of_nat (seq 0 256)))) = Ok b /\ v2_fpp b = p1e4 /\
  ok_all (v2_contains_bytes wy_ref b) true (List.map bytes_of ["deserialization"; "test"]%string) /\
  ok_all (v2_contains_bytes wy_ref b) false (List.map bytes_of ["hello"; "world"]%string) /\ v2_data b = List.map N.of_nat (seq 0 256) :=
  ltac:((set (a := get v2_dflt (bloom2 Release 1000 p1e4 ["deserialization"; "test"]%string))); exists a, (v2_set_data a (List.map N.of_nat (seq 0 256))); (destruct pr; (split; [vm_compute; reflexivity|]); (split; [vm_compute; reflexivity|]); (split; [vm_compute; reflexivity|]); (split; [vm_compute; reflexivity|]); (split; vm_compute; reflexivity))).
(** v2.rs:1035 test_partial_deserialization *)
Succeed Definition test_partial_deserialization_v2 (pr : profile) : exists f g b, params_try_into_v2 pr ref_libm (params_opt (params_new 1000 p1e4) OBest) = Ok f /\
  bloom2_all pr f (List.map ks ["hello"; "world"]%string) = Ok g /\ v2_from_reader_partial pr (v2_write (v2_set_data g (List.map N.of_nat (seq 0 256)))) true = Ok b /\
  v2_fpp b = p1e4 /\ v2_capacity b = 1000 /\ v2_count b = 2 /\ v2_data b = List.map N.of_nat (seq 0 256) /\ v2_size_in_bytes pr b = v2_size_in_bytes pr g :=
  ltac:(set (f := mk 1000 p1e4 OBest); (set (g := get v2_dflt (bloom2_all Release f (List.map ks ["hello"; "world"]%string)))); exists f, g, (get v2_dflt (v2_from_reader_partial Release (v2_write (v2_set_data g (List.map N.of_nat (seq 0 256)))) true)); (destruct pr; (split; [vm_compute; reflexivity|]); (split; [vm_compute; reflexivity|]); (split; [vm_compute; reflexivity|]); (split; [vm_compute; reflexivity|]);
    (split; [vm_compute; reflexivity|]); (split; [vm_compute; reflexivity|]); (split; vm_compute; reflexivity))).
(** v2.rs:1058 test_contains_on_empty *)
Succeed Definition test_contains_on_empty_v2 (pr : profile) : exists b, v2_with_capacity pr ref_libm 0 p1e3 = Ok b /\ v2_contains_bytes wy_ref b (bytes_of "toto") = Ok false :=
  ltac:(exists (mk 0 p1e3 ONone); (destruct pr; split; vm_compute; reflexivity)).

(** ** bloom.rs *)
(** bloom.rs:467 test_opt_level *)
Succeed Definition test_opt_level : List.map opt_of_u8 [0; 1; 2; 3] = List.map Ok [ONone; OSpace; OSpeed; OBest] :=
  ltac:(reflexivity).
(** bloom.rs:475 test_is_full *)
Succeed Definition test_is_full (pr : profile) : exists b c, bloom_macro pr wy_ref ref_libm 10 p1e3 [] = Ok b /\ bf_is_full b = false /\
  bloom_insert_all pr wy_ref b (List.map (fun i => le_bytes 4 (N.of_nat i)) (seq 0 10)) = Ok c /\ bf_is_full c = true :=
  ltac:(set (b := V2 (mk 10 p1e3 ONone)); set (c := get b (bloom_insert_all Release wy_ref b (List.map (fun i => le_bytes 4 (N.of_nat i)) (seq 0 10)))); exists b, c; (destruct pr; (split; [vm_compute; reflexivity|]); (split; [vm_compute; reflexivity|]); (split; vm_compute; reflexivity))).
