(** Concrete files used by the examples and counterexamples. *)
From Verif Require Import M_Cli M_RefLibm Spec_Bits Spec_Hash Spec_V2 Spec_V1 Spec_Bloom Spec_Lines Spec_Cli P_Base P_Lines Ex_Base Ex_V1.
Open Scope N_scope.

(** Three text files of one line each, and one that is not UTF-8. *)
Definition pa : list N := [10]. Definition pb : list N := [11]. Definition pc : list N := [12]. Definition pbad : list N := [13].
Definition txt : fs := fun q =>
  if list_eqb pa q then Some (da ++ [10]) else if list_eqb pb q then Some (db ++ [13; 10]) else if list_eqb pc q then Some dc
  else if list_eqb pbad q then Some [97; 10; 255] else None.
Ltac not_in := let Q := fresh in intro Q; cbn in Q; repeat (destruct Q as [Q|Q]; [discriminate Q|]); exact Q.
Lemma not_cr l x : x <> CR -> ~ ends_cr (l ++ [x]).
Proof. intros N0 (p & E). apply app_inj_tail in E as [_ E]. contradiction. Qed.
Lemma txt_a : file_lines txt [pa] [da].
Proof.
  apply (fl_cons txt pa (da ++ [10]) [da] [] []); [reflexivity|apply utf8_valid_iff; reflexivity| |constructor]. apply (text_lf da [] []); [not_in|apply (not_cr [104; 101; 108; 108] 111); discriminate|constructor].
Qed.
Lemma txt_b : file_lines txt [pb] [db].
Proof. apply (fl_cons txt pb (db ++ [13; 10]) [db] [] []); [reflexivity|apply utf8_valid_iff; reflexivity| |constructor]. apply (text_crlf db [] []); [not_in|constructor]. Qed.
Lemma txt_c : file_lines txt [pc] [dc].
Proof. apply (fl_cons txt pc dc [dc] [] []); [reflexivity|apply utf8_valid_iff; reflexivity| |constructor]. apply text_last; [discriminate|not_in]. Qed.
Lemma txt_abc : file_lines txt [pa; pb; pc] [da; db; dc].
Proof.
  pose proof txt_a as A. pose proof txt_b as B. pose proof txt_c as C. inversion A; subst. inversion B; subst.
  apply (fl_cons txt pa (da ++ [10]) [da] [pb; pc] [db; dc]); [reflexivity|apply utf8_valid_iff; reflexivity|apply (text_lf da [] []); [not_in|apply (not_cr [104; 101; 108; 108] 111); discriminate|constructor]|].
  apply (fl_cons txt pb (db ++ [13; 10]) [db] [pc] [dc]); [reflexivity|apply utf8_valid_iff; reflexivity|apply (text_crlf db [] []); [not_in|constructor]|exact txt_c].
Qed.
Lemma txt_bytes : fs_bytes txt.
Proof.
  intros p c. unfold txt. destruct (list_eqb pa p); [|destruct (list_eqb pb p); [|destruct (list_eqb pc p); [|destruct (list_eqb pbad p); [|discriminate]]]]; intro E; injection E as <-;
    repeat (constructor; [reflexivity|]); constructor.
Qed.
Lemma txt_bad : bad_file txt pbad /\ bad_file txt [99].
Proof. split; [right; exists [97; 10; 255]; split; [reflexivity|]; rewrite <- utf8_valid_iff; discriminate|now left]. Qed.
Lemma q0_reach wy : bf_reach wy ref_libm (V1 q0).
Proof.
  assert (E : bf_with_version_capacity_opt Release ref_libm 1 2 p001 ONone = Ok (V1 q0)) by (vm_compute; reflexivity).
  eexists. exact (bh_make wy ref_libm Release 1 2 p001 ONone (V1 q0) eq_refl eq_refl E).
Qed.
Lemma e0_reach wy : bf_reach wy ref_libm (V1 e0).
Proof.
  assert (E : bf_with_version_capacity_opt Release ref_libm 1 4 p001 ONone = Ok (V1 e0)) by (vm_compute; reflexivity).
  eexists. exact (bh_make wy ref_libm Release 1 4 p001 ONone (V1 e0) eq_refl eq_refl E).
Qed.
