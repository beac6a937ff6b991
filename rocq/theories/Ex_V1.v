(** Concrete v1 filters used by the examples and counterexamples. *)
From Verif Require Import M_V1 M_RefLibm Spec_Hash Spec_V2 Spec_V1 P_Base P_V1Codec Ex_Base.
Open Scope N_scope.

Definition v1_dflt : v1 :=
  {| v1_flags := flags_new 1; v1_bitset := []; v1_capacity := 0; v1_fpp := 0; v1_n_hash := 0; v1_bit_size := 0; v1_count := 0;
     v1_data := []; v1_fp := fp_new 0 0 |}.
Definition mk1 (cap fpp : N) : v1 := get v1_dflt (v1_with_capacity ref_libm cap fpp).
Definition ins1 (f : v1) (d : list byte) : v1 := fst (v1_insert_bytes Release f d).

(** Values. *)
Definition da : list byte := [104; 101; 108; 108; 111].   (* "hello" *)
Definition db : list byte := [112; 111; 112; 112; 121].   (* "poppy" *)
Definition dc : list byte := [98; 97; 114].               (* "bar" *)

(** Four entries at 1%. *)
Definition e0 : v1 := Eval vm_compute in mk1 4 p001.
Definition e1 : v1 := Eval vm_compute in ins1 e0 da.
Definition e2 : v1 := Eval vm_compute in ins1 e1 db.
Lemma e0_eq : v1_with_capacity ref_libm 4 p001 = Ok e0. Proof. vm_compute. reflexivity. Qed.
Lemma e1_eq : v1_insert_bytes Release e0 da = (e1, Ok true). Proof. vm_compute. reflexivity. Qed.
Lemma e2_eq : v1_insert_bytes Release e1 db = (e2, Ok true). Proof. vm_compute. reflexivity. Qed.
Lemma e0_hist : v1_hist ref_libm e0 (fun _ => False).
Proof. exact (h1_make ref_libm 4 p001 e0 eq_refl eq_refl e0_eq). Qed.
Lemma e2_hist : v1_hist ref_libm e2 (fun x => x = db \/ x = da \/ False).
Proof. exact (h1_insert _ _ _ _ _ _ _ (h1_insert _ _ _ _ _ _ _ e0_hist e1_eq) e2_eq). Qed.
Lemma e2_kept : v1_kept ref_libm e2 (fun x => x = db \/ x = da \/ False).
Proof. exact (k1_insert _ _ _ _ _ _ _ (k1_insert _ _ _ _ _ _ _ (k1_make ref_libm 4 p001 e0 eq_refl eq_refl e0_eq) e1_eq) e2_eq). Qed.
Lemma e2_solo : v1_solo e0 e2 2.
Proof. exact (s1_insert _ _ _ _ _ _ _ (s1_insert _ _ _ _ _ _ _ (s1_start _) e1_eq) e2_eq). Qed.

(** Capacity 2, full. *)
Definition q0 : v1 := Eval vm_compute in mk1 2 p001.
Definition q1 : v1 := Eval vm_compute in ins1 q0 da.
Definition q2 : v1 := Eval vm_compute in ins1 q1 db.
Lemma q0_eq : v1_with_capacity ref_libm 2 p001 = Ok q0. Proof. vm_compute. reflexivity. Qed.
Lemma q1_eq : v1_insert_bytes Release q0 da = (q1, Ok true). Proof. vm_compute. reflexivity. Qed.
Lemma q2_eq : v1_insert_bytes Release q1 db = (q2, Ok true). Proof. vm_compute. reflexivity. Qed.
Lemma q2_solo : v1_solo q0 q2 2.
Proof. exact (s1_insert _ _ _ _ _ _ _ (s1_insert _ _ _ _ _ _ _ (s1_start _) q1_eq) q2_eq). Qed.

(** Capacity 10, fpp 1.0: no bits and no hash functions. *)
Definition z0 : v1 := Eval vm_compute in mk1 10 p1.
Lemma z0_eq : v1_with_capacity ref_libm 10 p1 = Ok z0. Proof. vm_compute. reflexivity. Qed.
Lemma z1_eq pr : v1_insert_bytes pr z0 da = (z0, Ok false). Proof. destruct pr; vm_compute; reflexivity. Qed.

(** Two filters of capacity 4 with three values each, and their union. *)
Definition a1 : v1 := Eval vm_compute in ins1 e0 [1; 2; 3].
Definition a2 : v1 := Eval vm_compute in ins1 a1 [5; 6].
Definition a3 : v1 := Eval vm_compute in ins1 a2 [7].
Definition c1 : v1 := Eval vm_compute in ins1 e0 [11; 2; 3].
Definition c2 : v1 := Eval vm_compute in ins1 c1 [15; 6].
Definition c3 : v1 := Eval vm_compute in ins1 c2 [17].
Lemma a1_eq : v1_insert_bytes Release e0 [1; 2; 3] = (a1, Ok true). Proof. vm_compute. reflexivity. Qed.
Lemma a2_eq : v1_insert_bytes Release a1 [5; 6] = (a2, Ok true). Proof. vm_compute. reflexivity. Qed.
Lemma a3_eq : v1_insert_bytes Release a2 [7] = (a3, Ok true). Proof. vm_compute. reflexivity. Qed.
Lemma c1_eq : v1_insert_bytes Release e0 [11; 2; 3] = (c1, Ok true). Proof. vm_compute. reflexivity. Qed.
Lemma c2_eq : v1_insert_bytes Release c1 [15; 6] = (c2, Ok true). Proof. vm_compute. reflexivity. Qed.
Lemma c3_eq : v1_insert_bytes Release c2 [17] = (c3, Ok true). Proof. vm_compute. reflexivity. Qed.
Lemma a3_hist : v1_hist ref_libm a3 (fun x => x = [7] \/ x = [5; 6] \/ x = [1; 2; 3] \/ False).
Proof. exact (h1_insert _ _ _ _ _ _ _ (h1_insert _ _ _ _ _ _ _ (h1_insert _ _ _ _ _ _ _ e0_hist a1_eq) a2_eq) a3_eq). Qed.
Lemma c3_hist : v1_hist ref_libm c3 (fun x => x = [17] \/ x = [15; 6] \/ x = [11; 2; 3] \/ False).
Proof. exact (h1_insert _ _ _ _ _ _ _ (h1_insert _ _ _ _ _ _ _ (h1_insert _ _ _ _ _ _ _ e0_hist c1_eq) c2_eq) c3_eq). Qed.
Definition u1 : v1 := Eval vm_compute in fst (v1_union_merge ref_libm a3 c3).
Lemma u1_eq : v1_union_merge ref_libm a3 c3 = (u1, Ok tt). Proof. vm_compute. reflexivity. Qed.

(** A file with one word of bits, with fpp [p], [n] hash functions over [m] bits and flags bytes [o]. *)
Definition tiny (o : optlevel) (p n m : N) (bits : list N) : v1 :=
  {| v1_flags := {| fl_version := 1; fl_opt := o; fl_reserved := [0;0;0;0;0;0] |}; v1_bitset := bits; v1_capacity := 4; v1_fpp := p;
     v1_n_hash := n; v1_bit_size := m; v1_count := 0; v1_data := []; v1_fp := fp_new n m |}.
Definition tiny_file (o : optlevel) (p n m : N) (bits : list N) : list byte :=
  v1_image [1; opt_to_u8 o; 0; 0; 0; 0; 0; 0] (tiny o p n m bits).
Definition p_nan : N := 9221120237041090560.  (* a quiet NaN *)
