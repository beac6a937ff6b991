(** A concrete WyHash, used only by the examples of Ex_Conform.v; the theorems hold for every hasher.

    The wyhash 0.5.0 crate is not in the repository: this is the first published version of the algorithm written from
    memory. The value of wyhash.rs:47 fixes the seed, the constants P0, P1 and P5, the reading of five trailing bytes and the
    final mixing; nothing here checks the other lengths. *)
From Verif Require Import M_Hash.
Open Scope N_scope.

Definition wy_p0 : N := 11562461410679940143.
Definition wy_p1 : N := 16646288086500911323.
Definition wy_p2 : N := 10285213230658275043.
Definition wy_p3 : N := 6384245875588680899.
Definition wy_p4 : N := 2129725606500045391.
Definition wy_p5 : N := 16952864883938283877.
(** wyhash.rs:8 *)
Definition wy_seed : N := 8101817883036958018.
Definition wy_mum (a b : N) : N := let r := a * b in N.lxor (N.shiftr r 64) (w64 r).
Definition wy_at (l : list byte) (i n : nat) : N := of_le (firstn n (skipn i l)).
(** Up to eight bytes: the first four are the high part. *)
Definition wy_rest (l : list byte) : N :=
  match length l with
  | 1 | 2 | 4 => of_le l
  | 3 => N.lor (N.shiftl (wy_at l 0 2) 8) (wy_at l 2 1)
  | 5 => N.lor (N.shiftl (wy_at l 0 4) 8) (wy_at l 4 1)
  | 6 => N.lor (N.shiftl (wy_at l 0 4) 16) (wy_at l 4 2)
  | 7 => N.lor (N.shiftl (wy_at l 0 4) 24) (N.lor (N.shiftl (wy_at l 4 2) 8) (wy_at l 6 1))
  | _ => N.lor (N.shiftl (wy_at l 0 4) 32) (wy_at l 4 4)
  end%nat.
Fixpoint wy_core (fuel : nat) (seed : N) (l : list byte) : N :=
  match fuel with
  | O => seed
  | S fuel =>
    if 32 <=? len l then
      wy_core fuel (wy_mum (N.lxor seed wy_p0) (N.lxor (wy_mum (N.lxor (wy_at l 0 8) wy_p1) (N.lxor (wy_at l 8 8) wy_p2))
                                                       (wy_mum (N.lxor (wy_at l 16 8) wy_p3) (N.lxor (wy_at l 24 8) wy_p4)))) (skipn 32 l)
    else
      let s := N.lxor seed wy_p0 in
      let w i := wy_rest (firstn 8 (skipn i l)) in
      match ((length l + 7) / 8)%nat with
      | 0%nat => s
      | 1%nat => wy_mum s (N.lxor (w 0%nat) wy_p1)
      | 2%nat => wy_mum (N.lxor (w 0%nat) s) (N.lxor (w 8%nat) wy_p2)
      | 3%nat => N.lxor (wy_mum (N.lxor (w 0%nat) s) (N.lxor (w 8%nat) wy_p2)) (wy_mum s (N.lxor (w 16%nat) wy_p3))
      | _ => N.lxor (wy_mum (N.lxor (w 0%nat) s) (N.lxor (w 8%nat) wy_p2)) (wy_mum (N.lxor (w 16%nat) s) (N.lxor (w 24%nat) wy_p4))
      end
  end.
(** One call of write after the other, then finish. *)
Definition wy_ref : hasher := fun ws =>
  wy_mum (fold_left (fun s l => wy_core (S (length l)) s l) ws wy_seed) (N.lxor (sumN (map len ws)) wy_p5).

(** wyhash.rs:47 *)
Example wy_poppy : wy_hash_one wy_ref [112; 111; 112; 112; 121] = 16507271990128044474.
Proof. vm_compute. reflexivity. Qed.
