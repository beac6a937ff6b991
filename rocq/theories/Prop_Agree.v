(** C58: debug and release builds agree. *)
From Coq Require Import Lia.
From Verif Require Import M_Cli M_RefLibm Spec_Script P_Base P_Agree Ex_Base Ex_V1 Ex_Cli.
Open Scope N_scope.

Lemma step_agree L wy f c : sagree (step Debug L wy f c) (step Release L wy f c).
Proof.
  destruct c; cbn [step]; try apply sagree_refl.
  - destruct (bf_insert_agree wy f d) as [E| ->]; [|apply sagree_refl]. destruct (bf_insert_bytes Debug wy f d) as [g r]. cbn [snd] in E. subst r. now left.
  - destruct (bf_union_agree L f o) as [E| ->]; [|apply sagree_refl]. destruct (bf_union_merge Debug L f o) as [g r]. cbn [snd] in E. subst r. now left.
  - destruct (bf_common_agree L f o) as [-> | ->]; [now left|apply sagree_refl].
  - destruct (bf_size_agree f) as [-> | ->]; [now left|apply sagree_refl].
Qed.
(** Any program: unless the debug build panics, both builds give the same answers and end with the same filter. *)
Theorem C58_programs L wy f cs : In Panic (snd (run Debug L wy f cs)) \/ run Debug L wy f cs = run Release L wy f cs.
Proof.
  revert f. induction cs as [|c cs IH]; intro f; [now right|]. cbn [run]. destruct (step_agree L wy f c) as [E|E].
  - destruct (step Debug L wy f c) as [g r]. cbn [snd] in E. subst r. left. now left.
  - rewrite E. destruct (step Release L wy f c) as [g r]. destruct (IH g) as [P|P].
    + left. destruct (run Debug L wy g cs) as [h xs]. destruct r; [right; exact P|right; exact P|now left].
    + right. now rewrite P.
Qed.
Print Assumptions C58_programs.
Theorem C58_created L v cap fpp opt : bf_with_version_capacity_opt Debug L v cap fpp opt = Panic \/ bf_with_version_capacity_opt Debug L v cap fpp opt = bf_with_version_capacity_opt Release L v cap fpp opt.
Proof. exact (bf_make_agree L v cap fpp opt). Qed.
Print Assumptions C58_created.
(** The commands: same files and same result. *)
Theorem C58_create L wy par w room jobs a : snd (cmd_create Debug L wy par w room jobs a) = Panic \/ cmd_create Debug L wy par w room jobs a = cmd_create Release L wy par w room jobs a.
Proof. exact (cmd_create_agree L wy par w room jobs a). Qed.
Print Assumptions C58_create.
Theorem C58_insert L wy par w stdin room jobs a : snd (cmd_insert Debug L wy par w stdin room jobs a) = Panic \/ cmd_insert Debug L wy par w stdin room jobs a = cmd_insert Release L wy par w stdin room jobs a.
Proof. exact (cmd_insert_agree L wy par w stdin room jobs a). Qed.
Print Assumptions C58_insert.
Theorem C58_check wy w stdin jobs a out r : cmd_check Debug wy w stdin jobs a out r <-> cmd_check Release wy w stdin jobs a out r.
Proof. split; intro H; (destruct H; [eapply ck_open|eapply ck_load_err|eapply ck_load_panic|eapply ck_stdin_panic|eapply ck_run]; eauto). Qed.
Print Assumptions C58_check.
Theorem C58_show w p : cmd_show Debug w p = Panic \/ cmd_show Debug w p = cmd_show Release w p.
Proof. exact (show_agree w p). Qed.
Print Assumptions C58_show.
(** A program in which nothing panics, and one where only the debug build does. *)
Example C58_example : run Debug ref_libm (fun _ => 0) (V1 e0) [Insert da; Insert da; Contains db; Union (V1 e2); Contains db; Full; Reload; Common (V1 e2); Clear; Contains da] =
  (V1 e0, [Ok (RBool true); Ok (RBool false); Ok (RBool false); Ok RUnit; Ok (RBool true); Ok (RBool false); Ok RUnit; Ok (RNum 1); Ok RUnit; Ok (RBool false)]).
Proof. vm_compute. reflexivity. Qed.
Example C58_example_panic : next_power_of_two Debug (2 ^ 63 + 1) = Panic /\ next_power_of_two Release (2 ^ 63 + 1) = Ok 0.
Proof. split; vm_compute; reflexivity. Qed.
