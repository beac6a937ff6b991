(** Concrete values used by the examples and counterexamples beside the theorems. *)
From Verif Require Import M_V2 M_RefLibm Spec_Hash Spec_V2Hist.
Open Scope N_scope.

(** A toy hasher standing for WyHash. *)
Definition ex_wy : hasher := fun ws => fnv1 (concat ws).
(** f64 bit patterns. *)
Definition p001 : N := 4576918229304087675.   (* 0.01 *)
Definition p07 : N := 4604480259023595110.    (* 0.7 *)
Definition p08 : N := 4605380978949069210.    (* 0.8 *)
Definition p1 : N := bits_one.                (* 1.0 *)

Definition is_ok {A} (o : outcome A) : bool := match o with Ok _ => true | _ => false end.
Definition get {A} (d : A) (o : outcome A) : A := match o with Ok a => a | _ => d end.
Lemma get_ok {A} (d : A) o : is_ok o = true -> o = Ok (get d o).
Proof. destruct o; [reflexivity|discriminate|discriminate]. Qed.

Definition v2_dflt : v2 :=
  {| v2_flags := flags_new 2; v2_index_cache := []; v2_n_buckets := 0; v2_cache_byte_size := 0; v2_capacity := 0; v2_fpp := 0;
     v2_n_hash_buck := 0; v2_count := 0; v2_buckets := []; v2_data := [] |}.
Definition mk (cap fpp : N) (o : optlevel) : v2 := get v2_dflt (v2_make Release ref_libm cap fpp o).
Definition ins (wy : hasher) (f : v2) (k : key) : v2 := fst (v2_insert Release wy f k).
Lemma ins_eq wy f k r : snd (v2_insert Release wy f k) = r -> v2_insert Release wy f k = (ins wy f k, r).
Proof. intros <-. apply surjective_pairing. Qed.
Lemma mk_eq cap fpp o : is_ok (v2_make Release ref_libm cap fpp o) = true -> v2_make Release ref_libm cap fpp o = Ok (mk cap fpp o).
Proof. apply get_ok. Qed.

(** Keys. *)
Definition ka : key := KSlice [104; 101; 108; 108; 111].                                   (* "hello" *)
Definition kb : key := KStr [112; 111; 112; 112; 121; 32; 102; 105; 108; 116; 101; 114].   (* "poppy filter" *)
Definition kc : key := KInt 4 123456.
Definition k1 : key := KSlice [5].
Definition k2 : key := KSlice [5; 128].
Lemma ka_ok : key_ok ka. Proof. repeat constructor. Qed.
Lemma kb_ok : key_ok kb. Proof. repeat constructor. Qed.
Lemma kc_ok : key_ok kc. Proof. exact I. Qed.
Lemma k1_ok : key_ok k1. Proof. repeat constructor. Qed.
Lemma k2_ok : key_ok k2. Proof. repeat constructor. Qed.

(** Filters: four entries at 1%, levels none and speed, with two keys inserted. *)
Definition fn0 : v2 := Eval vm_compute in mk 4 p001 ONone.
Definition fn1 : v2 := Eval vm_compute in ins ex_wy fn0 ka.
Definition fn2 : v2 := Eval vm_compute in ins ex_wy fn1 kb.
Definition fs0 : v2 := Eval vm_compute in mk 4 p001 OSpeed.
Definition fs1 : v2 := Eval vm_compute in ins ex_wy fs0 ka.
Definition fs2 : v2 := Eval vm_compute in ins ex_wy fs1 kb.
Lemma fn0_eq : v2_make Release ref_libm 4 p001 ONone = Ok fn0. Proof. vm_compute. reflexivity. Qed.
Lemma fs0_eq : v2_make Release ref_libm 4 p001 OSpeed = Ok fs0. Proof. vm_compute. reflexivity. Qed.
Lemma fn1_eq : v2_insert Release ex_wy fn0 ka = (fn1, Ok true). Proof. vm_compute. reflexivity. Qed.
Lemma fn2_eq : v2_insert Release ex_wy fn1 kb = (fn2, Ok true). Proof. vm_compute. reflexivity. Qed.
Lemma fs1_eq : v2_insert Release ex_wy fs0 ka = (fs1, Ok true). Proof. vm_compute. reflexivity. Qed.
Lemma fs2_eq : v2_insert Release ex_wy fs1 kb = (fs2, Ok true). Proof. vm_compute. reflexivity. Qed.

Lemma fn0_hist wy : v2_hist wy ref_libm fn0 (fun _ => False).
Proof. exact (vh_make wy ref_libm Release 4 p001 ONone fn0 eq_refl eq_refl fn0_eq). Qed.
Lemma fs0_hist wy : v2_hist wy ref_libm fs0 (fun _ => False).
Proof. exact (vh_make wy ref_libm Release 4 p001 OSpeed fs0 eq_refl eq_refl fs0_eq). Qed.
Lemma fn2_hist : v2_hist ex_wy ref_libm fn2 (fun x => x = kb \/ x = ka \/ False).
Proof. exact (vh_insert _ _ _ _ _ _ _ _ (vh_insert _ _ _ _ _ _ _ _ (fn0_hist _) ka_ok fn1_eq) kb_ok fn2_eq). Qed.
Lemma fs2_hist : v2_hist ex_wy ref_libm fs2 (fun x => x = kb \/ x = ka \/ False).
Proof. exact (vh_insert _ _ _ _ _ _ _ _ (vh_insert _ _ _ _ _ _ _ _ (fs0_hist _) ka_ok fs1_eq) kb_ok fs2_eq). Qed.
Lemma fs2_kept : v2_kept ex_wy ref_libm fs2 (fun x => x = kb \/ x = ka \/ False) (fun x => x = kb \/ x = ka \/ False).
Proof.
  exact (vk_insert _ _ _ _ _ _ _ _ _ (vk_insert _ _ _ _ _ _ _ _ _ (vk_make ex_wy ref_libm Release 4 p001 OSpeed fs0 eq_refl eq_refl fs0_eq) ka_ok fs1_eq) kb_ok fs2_eq).
Qed.
Lemma fn2_solo : v2_solo ex_wy fn0 fn2 2.
Proof. exact (vs_insert _ _ _ _ _ _ _ _ (vs_insert _ _ _ _ _ _ _ _ (vs_start _ _) ka_ok fn1_eq) kb_ok fn2_eq). Qed.

(** Filters of the counterexamples: level speed with fpp 0.8 (no hash function) and 0.7 (one hash function), and a
    capacity above 2^63. *)
Definition f80 : v2 := Eval vm_compute in mk 4 p08 OSpeed.
Definition f81 : v2 := Eval vm_compute in ins ex_wy f80 k1.
Definition f70 : v2 := Eval vm_compute in mk 4 p07 OSpeed.
Definition f71 : v2 := Eval vm_compute in ins ex_wy f70 k1.
Definition f72 : v2 := Eval vm_compute in ins ex_wy f70 k2.
Definition fhuge : v2 := Eval vm_compute in mk (2 ^ 63 + 1) p1 OSpeed.
Lemma f80_eq : v2_make Release ref_libm 4 p08 OSpeed = Ok f80. Proof. vm_compute. reflexivity. Qed.
Lemma f70_eq : v2_make Release ref_libm 4 p07 OSpeed = Ok f70. Proof. vm_compute. reflexivity. Qed.
Lemma fhuge_eq : v2_make Release ref_libm (2 ^ 63 + 1) p1 OSpeed = Ok fhuge. Proof. vm_compute. reflexivity. Qed.
(** These hold for every hasher: keys of at most 8 bytes and at most one hash function do not call it. *)
Lemma f81_eq wy : v2_insert Release wy f80 k1 = (f81, Ok false). Proof. vm_compute. reflexivity. Qed.
Lemma f71_eq wy : v2_insert Release wy f70 k1 = (f71, Ok true). Proof. vm_compute. reflexivity. Qed.
Lemma f72_eq wy : v2_insert Release wy f70 k2 = (f72, Ok true). Proof. vm_compute. reflexivity. Qed.

(** A full filter: capacity 2, level best. *)
Definition fb0 : v2 := Eval vm_compute in mk 2 p001 OBest.
Definition fb1 : v2 := Eval vm_compute in ins ex_wy fb0 ka.
Definition fb2 : v2 := Eval vm_compute in ins ex_wy fb1 kb.
Lemma fb0_eq : v2_make Release ref_libm 2 p001 OBest = Ok fb0. Proof. vm_compute. reflexivity. Qed.
Lemma fb1_eq : v2_insert Release ex_wy fb0 ka = (fb1, Ok true). Proof. vm_compute. reflexivity. Qed.
Lemma fb2_eq : v2_insert Release ex_wy fb1 kb = (fb2, Ok true). Proof. vm_compute. reflexivity. Qed.
Lemma fb2_solo : v2_solo ex_wy fb0 fb2 2.
Proof. exact (vs_insert _ _ _ _ _ _ _ _ (vs_insert _ _ _ _ _ _ _ _ (vs_start _ _) ka_ok fb1_eq) kb_ok fb2_eq). Qed.

(** Operands of merges: capacity 4, three keys each, and their union and intersection. *)
Definition fa1 : v2 := Eval vm_compute in ins ex_wy fn0 (KSlice [1; 2; 3]).
Definition fa2 : v2 := Eval vm_compute in ins ex_wy fa1 (KSlice [5; 6]).
Definition fa3 : v2 := Eval vm_compute in ins ex_wy fa2 (KSlice [7]).
Definition fc1 : v2 := Eval vm_compute in ins ex_wy fn0 (KSlice [11; 2; 3]).
Definition fc2 : v2 := Eval vm_compute in ins ex_wy fc1 (KSlice [15; 6]).
Definition fc3 : v2 := Eval vm_compute in ins ex_wy fc2 (KSlice [7]).
Lemma fa1_eq : v2_insert Release ex_wy fn0 (KSlice [1; 2; 3]) = (fa1, Ok true). Proof. vm_compute. reflexivity. Qed.
Lemma fa2_eq : v2_insert Release ex_wy fa1 (KSlice [5; 6]) = (fa2, Ok true). Proof. vm_compute. reflexivity. Qed.
Lemma fa3_eq : v2_insert Release ex_wy fa2 (KSlice [7]) = (fa3, Ok true). Proof. vm_compute. reflexivity. Qed.
Lemma fc1_eq : v2_insert Release ex_wy fn0 (KSlice [11; 2; 3]) = (fc1, Ok true). Proof. vm_compute. reflexivity. Qed.
Lemma fc2_eq : v2_insert Release ex_wy fc1 (KSlice [15; 6]) = (fc2, Ok true). Proof. vm_compute. reflexivity. Qed.
Lemma fc3_eq : v2_insert Release ex_wy fc2 (KSlice [7]) = (fc3, Ok true). Proof. vm_compute. reflexivity. Qed.
Lemma slice_ok l : Forall (fun b => b < 256) l -> key_ok (KSlice l). Proof. exact (fun H => H). Qed.
Ltac bytes := repeat constructor.
Lemma fa3_hist : v2_hist ex_wy ref_libm fa3 (fun x => x = KSlice [7] \/ x = KSlice [5; 6] \/ x = KSlice [1; 2; 3] \/ False).
Proof.
  exact (vh_insert _ _ _ _ _ _ _ _ (vh_insert _ _ _ _ _ _ _ _ (vh_insert _ _ _ _ _ _ _ _ (fn0_hist _) (slice_ok [1; 2; 3] ltac:(bytes)) fa1_eq)
    (slice_ok [5; 6] ltac:(bytes)) fa2_eq) (slice_ok [7] ltac:(bytes)) fa3_eq).
Qed.
Lemma fc3_hist : v2_hist ex_wy ref_libm fc3 (fun x => x = KSlice [7] \/ x = KSlice [15; 6] \/ x = KSlice [11; 2; 3] \/ False).
Proof.
  exact (vh_insert _ _ _ _ _ _ _ _ (vh_insert _ _ _ _ _ _ _ _ (vh_insert _ _ _ _ _ _ _ _ (fn0_hist _) (slice_ok [11; 2; 3] ltac:(bytes)) fc1_eq)
    (slice_ok [15; 6] ltac:(bytes)) fc2_eq) (slice_ok [7] ltac:(bytes)) fc3_eq).
Qed.
Definition fu : v2 := Eval vm_compute in fst (v2_union_merge Release ref_libm fa3 fc3).
Definition fi : v2 := Eval vm_compute in fst (v2_intersection_merge Release ref_libm fa3 fc3).
Lemma fu_eq : v2_union_merge Release ref_libm fa3 fc3 = (fu, Ok tt). Proof. vm_compute. reflexivity. Qed.
Lemma fi_eq : v2_intersection_merge Release ref_libm fa3 fc3 = (fi, Ok tt). Proof. vm_compute. reflexivity. Qed.
