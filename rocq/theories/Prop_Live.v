(** Two processes and one filter file, without locks (C88, C89). *)
From Coq Require Import Lia.
From Verif Require Import M_Live M_RefLibm Spec_Bits Spec_Hash Spec_V2 Spec_V2File Spec_V1 Spec_Bloom Spec_Lines Spec_Cli P_Base P_BitSet P_IO P_Codec P_V1Codec P_V2Codec P_Bloom P_Par P_Lines P_Create P_Mix P_Live Prop_Bloom Prop_Create Prop_Build Ex_Base Ex_V1 Ex_Cli.
Open Scope N_scope.

Lemma saved_file pr c0 f : bytes_ok c0 -> file_size_ok c0 -> bf_from_reader pr c0 = Ok f -> bf_write f = c0 -> bf_wf f /\ bf_canon f = f.
Proof.
  intros B Z E X. pose proof (bf_load_wf _ _ _ B Z E) as W. split; [exact W|]. pose proof (bf_roundtrip pr f W) as R. rewrite X, E in R. now injection R as <-.
Qed.
Lemma any_build pr pr' c h : bf_from_reader pr c = Ok h -> bf_from_reader pr' c = Ok h.
Proof. destruct pr, pr'; exact (fun H => H). Qed.

(** * C88 *)
(** insert on a file saved by the library, while another process reads that file. *)
(** The reader. If it gets a filter, that filter has the parameters of the one in the file at the start, has all its bits, has no bit
    that is neither one of these nor one of a line to insert, and so contains whatever the first filter contained. The attached data
    may be cut short. *)
Theorem C88_reader pr L wy par w stdin jobs a c0 f c p h : fs_bytes w -> bytes_ok stdin -> bytes_ok c0 -> file_size_ok c0 -> bf_from_reader pr c0 = Ok f -> bf_write f = c0 ->
  run2 pr (insert_after pr L wy par w stdin jobs a) only_read c0 c p (Loaded h) ->
  bf_version h = bf_version f /\ bf_capacity h = bf_capacity f /\ bf_fpp h = bf_fpp f /\ (exists rest, bf_data f = bf_data h ++ rest) /\
  (forall s, bf_spot f s = true -> bf_spot h s = true) /\
  (forall s, bf_spot h s = true -> bf_spot f s = true \/ exists sls ls d, stdin_lines a stdin sls /\ file_lines w (ia_inputs a) ls /\ In d (sls ++ ls) /\ bf_spots wy f d s) /\
  (forall d, bytes_ok d -> bf_contains_bytes wy f d = Ok true -> bf_contains_bytes wy h d = Ok true).
Proof.
  intros Bw Bs B Z E X R. destruct (saved_file _ _ _ B Z E X) as [W K]. subst c0. set (Y := new_spots wy f w stdin a). pose proof (insert_grows pr L wy par w stdin jobs a f Bw Bs) as G1. pose proof (only_read_grows f Y) as G2.
  assert (G : good f Y h).
  { pose proof (run_inv _ _ _ _ _ _ _ _ _ W K Z G1 G2 R) as I. pose proof (good_refl f Y W) as G0. assert (GE : forall g, f = g -> good f Y g) by (intros g <-; exact G0). destruct I as [_ _ B0|g n Rg _ _ C|g n Rg V _ _|g1 g2 n1 n2 _ _ V _ _ _].
    - cbn in B0. now subst h.
    - apply (loaded_good f Y (fun g' => g' = f \/ g' = g)); [|exact C]. intros g' [->| ->]; [exact G0|]. apply (result_good (insert_after pr L wy par w stdin jobs a) f Y Y (eq f)); auto. now apply first_result.
    - destruct V.
    - destruct V. }
  destruct G as [Wh F D Kp On]. split; [exact (frame_version _ _ F)|]. split; [exact (bf_frame_capacity _ _ F)|]. split; [exact (frame_fpp _ _ F)|]. split; [exact D|]. split; [exact Kp|]. split; [exact On|].
  intros d Bd. exact (bf_contains_mono wy f h d W Wh Bd F Kp).
Qed.
(** The writer. Reading does not disturb it: at any moment the file is the old one or a beginning of the new one, and it is the whole
    new one when insert is done. *)
Theorem C88_writer pr L wy par w stdin jobs a c0 f c p q : fs_bytes w -> bytes_ok stdin -> bytes_ok c0 -> file_size_ok c0 -> bf_from_reader pr c0 = Ok f -> bf_write f = c0 ->
  run2 pr (insert_after pr L wy par w stdin jobs a) only_read c0 c p q ->
  (p <> Done /\ c = c0) \/ exists g n, insert_after pr L wy par w stdin jobs a f = Ok g /\ c = firstn n (bf_write g) /\ (p = Done -> c = bf_write g).
Proof.
  intros Bw Bs B Z E X R. destruct (saved_file _ _ _ B Z E X) as [W K]. subst c0. set (Y := new_spots wy f w stdin a). pose proof (insert_grows pr L wy par w stdin jobs a f Bw Bs) as G1. pose proof (only_read_grows f Y) as G2.
  pose proof (run_inv _ _ _ _ _ _ _ _ _ W K Z G1 G2 R) as I. destruct I as [-> A _|g n Rg V -> _|g n Rg _ _ _|g1 g2 n1 n2 [[_ (h & _ & Rg)]|[Rg _]] _ _ _ _ _]; try discriminate Rg.
  - left. split; [|reflexivity]. intros ->. destruct A.
  - right. exists g, (N.to_nat n). split; [exact Rg|]. split; [reflexivity|]. intros ->. cbn in V. subst n. apply firstn_all2. unfold len. lia.
Qed.

(** * C89 *)
(** Two inserts into the same file. When both are done the file is a filter, in any build, with the parameters of the first one; it has
    all its bits and no bit that is neither one of these nor one of a line to insert; and so it contains whatever the first one
    contained. *)
Theorem C89_partial pr L wy par par' w stdin stdin' jobs jobs' a a' c0 f c : fs_bytes w -> bytes_ok stdin -> bytes_ok stdin' -> bytes_ok c0 -> file_size_ok c0 -> bf_from_reader pr c0 = Ok f -> bf_write f = c0 ->
  run2 pr (insert_after pr L wy par w stdin jobs a) (insert_after pr L wy par' w stdin' jobs' a') c0 c Done Done ->
  exists h, (forall pr', bf_from_reader pr' c = Ok h) /\ bf_version h = bf_version f /\ bf_capacity h = bf_capacity f /\ bf_fpp h = bf_fpp f /\ len (bf_data h) <= len (bf_data f) /\
  (forall s, bf_spot f s = true -> bf_spot h s = true) /\
  (forall s, bf_spot h s = true -> bf_spot f s = true \/ (exists sls ls d, stdin_lines a stdin sls /\ file_lines w (ia_inputs a) ls /\ In d (sls ++ ls) /\ bf_spots wy f d s) \/
                                   exists sls ls d, stdin_lines a' stdin' sls /\ file_lines w (ia_inputs a') ls /\ In d (sls ++ ls) /\ bf_spots wy f d s) /\
  (forall d, bytes_ok d -> bf_contains_bytes wy f d = Ok true -> bf_contains_bytes wy h d = Ok true).
Proof.
  intros Bw Bs Bs' B Z E X R. destruct (saved_file _ _ _ B Z E X) as [W K]. subst c0. pose proof (insert_grows pr L wy par w stdin jobs a f Bw Bs) as G1. pose proof (insert_grows pr L wy par' w stdin' jobs' a' f Bw Bs') as G2.
  pose proof (run_inv _ _ _ _ _ _ _ _ _ W K Z G1 G2 R) as I. destruct I as [_ A _|g n _ _ _ A|g n _ _ _ A|g1 g2 n1 n2 Rs V1 V2 Bc Lc Cv]; [destruct A|destruct A|destruct A|].
  set (Y := fun p => new_spots wy f w stdin a p \/ new_spots wy f w stdin' a' p). destruct (pair_good _ _ _ _ _ _ _ W G1 G2 Rs) as [D1 D2]. fold Y in D1, D2. cbn in V1, V2. set (F := fun g => g = g1 \/ g = g2).
  assert (HF : forall g, F g -> good f Y g) by (intros g [->| ->]; assumption). assert (HF' : forall g, F g -> bf_wf g /\ bf_same_frame f g) by (intros g Fg; destruct (HF g Fg); auto).
  assert (LC : forall g, good f Y g -> bf_core f <= len (bf_write g)) by (intros g [Wg Fg _ _ _]; rewrite bf_write_len, (bf_frame_core _ _ Fg) by exact Wg; lia).
  assert (M : forall i, i < bf_core f -> exists x g, getN c i = Some x /\ F g /\ getN (bf_write g) i = Some x).
  { intros i Hi. pose proof (LC _ D1). pose proof (LC _ D2). destruct Cv as [Cv|Cv]; (destruct (Cv i) as (x & g & Q); [lia|exact Hi|exists x, g; exact Q]). }
  destruct (total_load pr F f c W HF' Bc M) as (h & LD). destruct (mix_load pr F f c h W HF' Bc) as [Fr Sp]; [|exact LD|].
  { intros i x Hi Ex. destruct (M i Hi) as (y & g & Ey & Fg & Eg). exists g. split; [exact Fg|congruence]. }
  rewrite K in Fr. assert (Zc : file_size_ok c) by (unfold file_size_ok in *; lia). pose proof (bf_load_wf _ _ _ Bc Zc LD) as Wh.
  assert (Kp : forall s, bf_spot f s = true -> bf_spot h s = true) by (intros s Hs; destruct (Sp s) as (g & Fg & ->); now apply (gd_keeps _ _ _ (HF g Fg))).
  exists h. split; [intro pr'; exact (any_build _ _ _ _ LD)|]. split; [exact (frame_version _ _ Fr)|]. split; [exact (bf_frame_capacity _ _ Fr)|]. split; [exact (frame_fpp _ _ Fr)|]. split.
  { pose proof (bf_load_size _ _ _ Bc LD) as Q. rewrite (bf_frame_core _ _ Fr) in Q. rewrite (bf_write_len f W) in Lc. lia. }
  split; [exact Kp|]. split; [|intros d Bd; exact (bf_contains_mono wy f h d W Wh Bd Fr Kp)]. intros s Hs. destruct (Sp s) as (g & Fg & Es). rewrite Es in Hs. exact (gd_only _ _ _ (HF g Fg) s Hs).
Qed.

(** * Concrete runs *)
Definition ia1 (p : path) : insert_args := {| ia_stdin := false; ia_file := [1]; ia_inputs := [p] |}.
Definition ins (p : path) : bloom -> outcome bloom := insert_after Release ref_libm ex_wy (Some 1) txt [] 1 (ia1 p).
Definition get (r : outcome bloom) : bloom := match r with Ok f => f | _ => V1 e0 end.
Lemma read_some pr go c s n : skipn (length s) c <> [] -> n <> 0%nat -> step pr go c (Reading s) c (Reading (s ++ firstn n (skipn (length s) c))).
Proof.
  intros H Hn. apply (st_read pr go c s _ (skipn n (skipn (length s) c))); [|symmetry; apply firstn_skipn]. destruct (skipn (length s) c) as [|x r]; [contradiction|]. destruct n; [contradiction|]. discriminate.
Qed.
Lemma read_all pr go c : c <> [] -> step pr go c (Reading []) c (Reading c).
Proof. intro H. exact (st_read pr go c [] c [] H (eq_sym (app_nil_r c))). Qed.
Lemma write_some pr go c g off n : skipn (N.to_nat off) (bf_write g) <> [] -> n <> 0%nat ->
  step pr go c (Saving g off) (write_at c off (firstn n (skipn (N.to_nat off) (bf_write g)))) (Saving g (off + len (firstn n (skipn (N.to_nat off) (bf_write g))))).
Proof.
  intros H Hn. apply (st_write pr go c g off _ (skipn n (skipn (N.to_nat off) (bf_write g)))); [|symmetry; apply firstn_skipn]. destruct (skipn (N.to_nat off) (bf_write g)) as [|x r]; [contradiction|]. destruct n; [contradiction|]. discriminate.
Qed.
(** A reader that got the first 50 bytes before insert truncated the file, and the rest after insert was done: it has a filter that was
    never in the file. *)
Definition be2c : bloom := Eval vm_compute in get (ins pc be2).
Definition seen50 : list byte := Eval vm_compute in firstn 50 (bf_write be2) ++ skipn 50 (bf_write be2c).
Definition bemix : bloom := Eval vm_compute in get (bf_from_reader Release seen50).
Lemma ins_be2c : ins pc be2 = Ok be2c. Proof. vm_compute. reflexivity. Qed.
Lemma left_load pr go1 go2 f g q c0 : go1 f = Ok g -> bf_write f <> [] -> bf_from_reader pr (bf_write f) = Ok f -> run2 pr go1 go2 c0 (bf_write f) (Reading []) q -> run2 pr go1 go2 c0 (bf_write f) (Ready g) q.
Proof. intros E N1 LD R. eapply run_left; [eapply run_left; [eapply run_left; [exact R|]|]|]; [now apply read_all|apply st_loaded; [apply N.le_refl|exact LD]|now apply st_ready]. Qed.
Lemma right_load pr go1 go2 f g p c0 : go2 f = Ok g -> bf_write f <> [] -> bf_from_reader pr (bf_write f) = Ok f -> run2 pr go1 go2 c0 (bf_write f) p (Reading []) -> run2 pr go1 go2 c0 (bf_write f) p (Ready g).
Proof. intros E N1 LD R. eapply run_right; [eapply run_right; [eapply run_right; [exact R|]|]|]; [now apply read_all|apply st_loaded; [apply N.le_refl|exact LD]|now apply st_ready]. Qed.
Lemma write_all pr go g : bf_write g <> [] -> step pr go [] (Saving g 0) (bf_write g) (Saving g (len (bf_write g))).
Proof. intro H. pose proof (st_write pr go [] g 0 (bf_write g) [] H) as S. change 0 with (len (@nil byte)) in S at 2. rewrite write_at_end in S. apply S. cbn [N.to_nat skipn]. now rewrite app_nil_r. Qed.
Lemma left_save pr go1 go2 g c q c0 : bf_write g <> [] -> run2 pr go1 go2 c0 c (Ready g) q -> run2 pr go1 go2 c0 (bf_write g) Done q.
Proof. intros H R. eapply run_left; [eapply run_left; [eapply run_left; [exact R|]|]|]; [apply st_create|exact (write_all _ _ _ H)|apply st_done; apply N.le_refl]. Qed.
Lemma right_save pr go1 go2 g c p c0 : bf_write g <> [] -> run2 pr go1 go2 c0 c p (Ready g) -> run2 pr go1 go2 c0 (bf_write g) p Done.
Proof. intros H R. eapply run_right; [eapply run_right; [eapply run_right; [exact R|]|]|]; [apply st_create|exact (write_all _ _ _ H)|apply st_done; apply N.le_refl]. Qed.
Example C88_example : bytes_ok (bf_write be2) /\ bf_from_reader Release (bf_write be2) = Ok be2 /\ run2 Release (ins pc) only_read (bf_write be2) (bf_write be2c) Done (Loaded bemix) /\
  bemix <> be2 /\ bemix <> be2c /\ bf_contains_bytes ex_wy be2 da = Ok true /\ bf_contains_bytes ex_wy bemix da = Ok true /\ bf_contains_bytes ex_wy be2c dc = Ok true /\ bf_contains_bytes ex_wy bemix dc = Ok false.
Proof.
  split; [vm_compute; repeat (constructor; [reflexivity|]); constructor|]. split; [vm_compute; reflexivity|]. split; [|split; [discriminate|split; [discriminate|repeat split; vm_compute; reflexivity]]].
  assert (R0 : run2 Release (ins pc) only_read (bf_write be2) (bf_write be2) (Reading []) (Reading (firstn 50 (bf_write be2)))).
  { eapply run_right; [apply run_start|]. apply (read_some Release only_read (bf_write be2) [] 50); [discriminate|discriminate]. }
  eapply run_right; [eapply run_right; [apply (left_save _ _ _ be2c (bf_write be2)); [discriminate|]; apply left_load; [exact ins_be2c|discriminate|vm_compute; reflexivity|exact R0]|]|].
  - apply (read_some Release only_read (bf_write be2c) (firstn 50 (bf_write be2)) 6); [vm_compute; discriminate|discriminate].
  - apply st_loaded; [vm_compute; discriminate|vm_compute; reflexivity].
Qed.
(** The reader can silently lose the attached data: it had read the filter when insert truncated the file. *)
Definition be2d : bloom := Eval vm_compute in match be2 with V1 f => V1 (v1_set_data f [7; 8; 9]) | g => g end.
Definition be2dc : bloom := Eval vm_compute in get (ins pc be2d).
Theorem C88_refuted : exists f g h c, bf_from_reader Release (bf_write f) = Ok f /\ run2 Release (ins pc) only_read (bf_write f) c (Saving g 0) (Loaded h) /\ bf_data f = [7; 8; 9] /\ bf_data h = [].
Proof.
  exists be2d, be2dc, be2, []. split; [vm_compute; reflexivity|]. split; [|split; reflexivity].
  assert (R0 : run2 Release (ins pc) only_read (bf_write be2d) (bf_write be2d) (Reading []) (Reading (firstn 56 (bf_write be2d)))).
  { eapply run_right; [apply run_start|]. apply (read_some Release only_read (bf_write be2d) [] 56); [discriminate|discriminate]. }
  eapply run_right; [eapply run_left; [apply (left_load _ _ _ be2d be2dc); [vm_compute; reflexivity|discriminate|vm_compute; reflexivity|exact R0]|]|].
  - apply st_create.
  - apply st_loaded; [vm_compute; discriminate|vm_compute; reflexivity].
Qed.
(** Both inserts can succeed and one of the lines be lost: each had read the file before the other saved. *)
Definition be_a : bloom := Eval vm_compute in get (ins pa (V1 e0)).
Definition be_c : bloom := Eval vm_compute in get (ins pc (V1 e0)).
Theorem C89_refuted : exists f h c, bf_from_reader Release (bf_write f) = Ok f /\ run2 Release (ins pa) (ins pc) (bf_write f) c Done Done /\ bf_from_reader Release c = Ok h /\
  file_lines txt [pa] [da] /\ bf_contains_bytes ex_wy h da = Ok false.
Proof.
  exists (V1 e0), be_c, (bf_write be_c). split; [vm_compute; reflexivity|]. split; [|split; [vm_compute; reflexivity|split; [exact txt_a|vm_compute; reflexivity]]].
  apply (right_save _ _ _ _ (bf_write be_a)); [discriminate|]. apply (left_save _ _ _ _ (bf_write (V1 e0))); [discriminate|].
  apply left_load; [vm_compute; reflexivity|discriminate|vm_compute; reflexivity|]. apply right_load; [vm_compute; reflexivity|discriminate|vm_compute; reflexivity|]. apply run_start.
Qed.
(** The hypotheses of C89_partial hold of this run, where what was there is kept. *)
Example C89_example : bytes_ok (bf_write be2) /\ file_size_ok (bf_write be2) /\ bf_from_reader Release (bf_write be2) = Ok be2 /\ fs_bytes txt /\ exists c, run2 Release (ins pa) (ins pc) (bf_write be2) c Done Done /\ c <> bf_write be2.
Proof.
  split; [vm_compute; repeat (constructor; [reflexivity|]); constructor|]. split; [vm_compute; reflexivity|]. split; [vm_compute; reflexivity|]. split; [exact txt_bytes|]. exists (bf_write be2c). split; [|vm_compute; discriminate].
  apply (right_save _ _ _ _ (bf_write (get (ins pa be2)))); [discriminate|]. apply (left_save _ _ _ _ (bf_write be2)); [vm_compute; discriminate|].
  apply left_load; [vm_compute; reflexivity|discriminate|vm_compute; reflexivity|]. apply right_load; [exact ins_be2c|discriminate|vm_compute; reflexivity|]. apply run_start.
Qed.
(** If one of the two is killed, the other can succeed and leave a filter that no longer contains an entry that was there: the bytes
    that it had written before the file was truncated under it read as zeros. *)
Definition be1 : bloom := V1 e1.
Definition be1b : bloom := Eval vm_compute in get (ins pb be1).
Definition be1c : bloom := Eval vm_compute in get (ins pc be1).
Definition holed : list byte := Eval vm_compute in write_at (firstn 48 (bf_write be1c)) 50 (skipn 50 (bf_write be1b)).
Theorem C89_killed_refuted : exists f h c, bf_from_reader Release (bf_write f) = Ok f /\ run2 Release (ins pb) (ins pc) (bf_write f) c Done Failed /\ bf_from_reader Release c = Ok h /\
  bf_contains_bytes ex_wy f da = Ok true /\ bf_contains_bytes ex_wy h da = Ok false.
Proof.
  exists be1, (get (bf_from_reader Release holed)), holed. split; [vm_compute; reflexivity|]. split; [|split; [vm_compute; reflexivity|split; vm_compute; reflexivity]].
  assert (R0 : run2 Release (ins pb) (ins pc) (bf_write be1) (bf_write be1) (Ready be1b) (Ready be1c)).
  { apply left_load; [vm_compute; reflexivity|discriminate|vm_compute; reflexivity|]. apply right_load; [vm_compute; reflexivity|discriminate|vm_compute; reflexivity|]. apply run_start. }
  assert (R1 : run2 Release (ins pb) (ins pc) (bf_write be1) (firstn 50 (bf_write be1b)) (Saving be1b 50) (Ready be1c)).
  { eapply run_left; [eapply run_left; [exact R0|apply st_create]|]. exact (write_some Release (ins pb) [] be1b 0 50 ltac:(vm_compute; discriminate) ltac:(discriminate)). }
  assert (R2 : run2 Release (ins pb) (ins pc) (bf_write be1) (firstn 48 (bf_write be1c)) (Saving be1b 50) (Saving be1c 48)).
  { eapply run_right; [eapply run_right; [exact R1|apply st_create]|]. exact (write_some Release (ins pc) [] be1c 0 48 ltac:(vm_compute; discriminate) ltac:(discriminate)). }
  eapply run_left; [eapply run_left; [eapply run_right; [exact R2|apply st_fail; discriminate]|]|].
  - exact (write_some Release (ins pb) (firstn 48 (bf_write be1c)) be1b 50 6 ltac:(vm_compute; discriminate) ltac:(discriminate)).
  - apply st_done. vm_compute. discriminate.
Qed.
