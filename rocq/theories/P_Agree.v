(** Debug and release builds: the debug build panics on an overflow, otherwise both do the same. *)
From Coq Require Import Lia.
From Verif Require Import M_Cli P_Base.
Open Scope N_scope.

(** The debug outcome [d] is a panic, or the release outcome [r]. *)
Definition agree {A} (d r : outcome A) : Prop := d = Panic \/ d = r.
Definition sagree {S A} (d r : S * outcome A) : Prop := snd d = Panic \/ d = r.
Lemma agree_refl {A} (x : outcome A) : agree x x. Proof. now right. Qed.
Lemma sagree_refl {S A} (x : S * outcome A) : sagree x x. Proof. now right. Qed.
Lemma agree_bind {A B} (d r : outcome A) (k k' : A -> outcome B) : agree d r -> (forall a, d = Ok a -> agree (k a) (k' a)) -> agree (obind d k) (obind r k').
Proof. intros [-> | ->] H; [now left|]. destruct r as [a|e|]; cbn [obind]; [now apply H|apply agree_refl..]. Qed.
Lemma agree_if {A} (b : bool) (d d' r r' : outcome A) : agree d r -> agree d' r' -> agree (if b then d else d') (if b then r else r').
Proof. destruct b; auto. Qed.
Lemma add_agree a b : agree (checked_add Debug a b) (checked_add Release a b).
Proof. unfold checked_add. destruct (_ <? _); [apply agree_refl|now left]. Qed.
Lemma mul_agree a b : agree (checked_mul Debug a b) (checked_mul Release a b).
Proof. unfold checked_mul. destruct (_ <? _); [apply agree_refl|now left]. Qed.
Lemma pow2_agree a : agree (next_power_of_two Debug a) (next_power_of_two Release a).
Proof. unfold next_power_of_two. cbv zeta. destruct (_ <? two64); [apply agree_refl|now left]. Qed.
Lemma sum_from_agree l : forall acc, agree (checked_sum_from Debug acc l) (checked_sum_from Release acc l).
Proof. induction l as [|x l IH]; intro acc; [apply agree_refl|]. cbn [checked_sum_from]. apply agree_bind; [apply add_agree|auto]. Qed.
Lemma sum_agree l : agree (checked_sum Debug l) (checked_sum Release l). Proof. apply sum_from_agree. Qed.

(** ** v1 *)
Lemma v1_loop_agree full l : forall b new, sagree (v1_insert_loop Debug full b new l) (v1_insert_loop Release full b new l).
Proof.
  induction l as [|[i|e|] l IH]; intros b new; [apply sagree_refl| |apply sagree_refl..]. cbn [v1_insert_loop]. cbv zeta. destruct (getN b (i / 64)) as [x|]; [|apply sagree_refl]. destruct (negb _ && full); [apply sagree_refl|].
  destruct (v1_get_nth_bit _ i) as [[|]|e|]; [apply IH|now left..].
Qed.
Lemma v1_insert_agree f d : sagree (v1_insert_bytes Debug f d) (v1_insert_bytes Release f d).
Proof.
  unfold v1_insert_bytes. destruct (v1_capacity f =? 0); [apply sagree_refl|]. destruct (v1_loop_agree (v1_capacity f <=? v1_count f) (fp_list (fp_fingerprint (v1_fp f) d)) (v1_bitset f) false) as [E| ->].
  - destruct (v1_insert_loop Debug _ _ _ _) as [b r]. cbn [snd] in E. subst r. now left.
  - destruct (v1_insert_loop Release _ _ _ _) as [b [new|e|]]; [|apply sagree_refl..]. destruct new; [|apply sagree_refl]. destruct (add_agree (v1_count f) 1) as [-> | ->]; [now left|apply sagree_refl].
Qed.
Lemma v1_load_agree r fl p : agree (v1_from_reader_with_flags Debug r fl p) (v1_from_reader_with_flags Release r fl p).
Proof.
  unfold v1_from_reader_with_flags. do 5 (apply agree_bind; [apply agree_refl|intros [? ?] _]). cbv zeta. apply agree_bind; [|intros [? ?] _; apply agree_refl]. apply agree_if; [|apply agree_refl].
  apply agree_bind; [apply mul_agree|intros off _; apply agree_refl].
Qed.

(** ** v2 *)
Lemma v2_loop_agree full l : forall b new, sagree (v2_insert_loop Debug full b new l) (v2_insert_loop Release full b new l).
Proof.
  induction l as [|i l IH]; intros b new; [apply sagree_refl|]. cbn [v2_insert_loop]. cbv zeta. destruct (if full then bs_get b i else Ok true) as [[|]|e|]; try apply sagree_refl. destruct (bs_set b i) as [b' [old|e|]]; try apply sagree_refl.
  destruct (bs_get b' i) as [[|]|e|]; [apply IH|now left..].
Qed.
Lemma v2_insert_iter_agree wy f it : sagree (v2_insert_iter Debug wy f it) (v2_insert_iter Release wy f it).
Proof.
  unfold v2_insert_iter. destruct (negb (it_is_init it)); [apply sagree_refl|]. cbv zeta. destruct (v2_capacity f =? 0); [apply sagree_refl|]. destruct (v2_ibucket f _) as [k|e|]; try apply sagree_refl. destruct (getN (v2_buckets f) k) as [b|]; [|apply sagree_refl].
  destruct (v2_loop_agree (v2_count f =? v2_capacity f) (it_list wy BIT_SET_MOD (it_set_count it (v2_n_hash_buck f))) b false) as [E| ->].
  - destruct (v2_insert_loop Debug _ _ _ _) as [b' r]. cbn [snd] in E. subst r. now left.
  - destruct (v2_insert_loop Release _ _ _ _) as [b' [new|e|]]; try apply sagree_refl. destruct new; [|apply sagree_refl]. destruct (add_agree (v2_count f) 1) as [-> | ->]; [now left|apply sagree_refl].
Qed.
Lemma v2_load_agree r fl p : agree (v2_from_reader_with_flags Debug r fl p) (v2_from_reader_with_flags Release r fl p).
Proof.
  unfold v2_from_reader_with_flags. do 2 (apply agree_bind; [apply agree_refl|intros [? ?] _]). apply agree_if; [apply agree_refl|]. do 3 (apply agree_bind; [apply agree_refl|intros [? ?] _]). cbv zeta.
  do 2 (apply agree_bind; [apply agree_refl|intros [? ?] _]). apply agree_bind; [|intros [? ?] _; apply agree_refl]. apply agree_if; [|apply agree_refl]. apply agree_bind; [apply mul_agree|intros off _; apply agree_refl].
Qed.
Lemma v2_make_agree L n p o : agree (v2_make Debug L n p o) (v2_make Release L n p o).
Proof.
  unfold v2_make. apply agree_if; [apply agree_refl|]. cbv zeta. apply agree_bind; [|intros [[c nb] nh] _; apply agree_refl]. destruct o; try apply agree_refl.
  - apply agree_bind; [apply pow2_agree|intros c _]. apply agree_bind; [apply pow2_agree|intros b _; apply agree_refl].
  - apply agree_bind; [apply pow2_agree|intros c _; apply agree_refl].
Qed.
Lemma v2_update_agree L f : agree (v2_update_count Debug L f) (v2_update_count Release L f).
Proof. unfold v2_update_count. apply agree_bind; [apply sum_agree|intros; apply agree_refl]. Qed.
Lemma v2_merge_agree vop aop L a b : sagree (v2_merge_with vop aop Debug L a b) (v2_merge_with vop aop Release L a b).
Proof.
  unfold v2_merge_with. destruct (negb _); [apply sagree_refl|]. destruct (vop _ _) as [c|e|]; try apply sagree_refl. cbv zeta. destruct (zip_outcome _ _ _) as [bs|e|]; try apply sagree_refl.
  destruct (v2_update_agree L (v2_upd a c bs (v2_count a))) as [-> | ->]; [now left|apply sagree_refl].
Qed.
Lemma v2_common_agree L a b : agree (v2_count_common_entries Debug L a b) (v2_count_common_entries Release L a b).
Proof. unfold v2_count_common_entries. apply agree_if; [apply agree_refl|]. apply agree_bind; [apply agree_refl|intros; apply sum_agree]. Qed.
Lemma v2_size_agree f : agree (v2_size_in_bytes Debug f) (v2_size_in_bytes Release f).
Proof. unfold v2_size_in_bytes. apply agree_bind; [apply mul_agree|intros; apply add_agree]. Qed.

(** ** Generic filter *)
Lemma bf_make_agree L v n p o : agree (bf_with_version_capacity_opt Debug L v n p o) (bf_with_version_capacity_opt Release L v n p o).
Proof. unfold bf_with_version_capacity_opt. apply agree_if; [apply agree_refl|]. apply agree_if; [|apply agree_refl]. apply agree_bind; [apply v2_make_agree|intros; apply agree_refl]. Qed.
Lemma bf_load_agree c p : agree (bf_from_reader_partial Debug c p) (bf_from_reader_partial Release c p).
Proof.
  unfold bf_from_reader_partial. apply agree_bind; [apply agree_refl|intros [fl r] _]. apply agree_if; [apply agree_bind; [apply v1_load_agree|intros; apply agree_refl]|].
  apply agree_if; [apply agree_bind; [apply v2_load_agree|intros; apply agree_refl]|apply agree_refl].
Qed.
Lemma bf_insert_agree wy f d : sagree (bf_insert_bytes Debug wy f d) (bf_insert_bytes Release wy f d).
Proof.
  destruct f as [f|f]; cbn [bf_insert_bytes].
  - destruct (v1_insert_agree f d) as [E| ->]; [|apply sagree_refl]. destruct (v1_insert_bytes Debug f d) as [g r]. left. exact E.
  - destruct (v2_insert_iter_agree wy f (v2_build_index_iter wy (KSlice d))) as [E|E]; unfold v2_insert_bytes, v2_insert; [|rewrite E; apply sagree_refl]. destruct (v2_insert_iter Debug wy f _) as [g r]. left. exact E.
Qed.
Lemma bf_union_agree L a b : sagree (bf_union_merge Debug L a b) (bf_union_merge Release L a b).
Proof.
  unfold bf_union_merge. destruct (bf_has_same_params a b) as [[|]|e|]; try apply sagree_refl. destruct a as [a|a], b as [b|b]; try apply sagree_refl. unfold v2_union_merge. destruct (v2_merge_agree vec_union arr_union L a b) as [E| ->]; [|apply sagree_refl].
  destruct (v2_merge_with _ _ Debug L a b) as [g r]. left. exact E.
Qed.
Lemma bf_common_agree L a b : agree (bf_count_common_entries Debug L a b) (bf_count_common_entries Release L a b).
Proof. unfold bf_count_common_entries. apply agree_bind; [apply agree_refl|intros s _]. apply agree_if; [apply agree_refl|]. destruct a, b; try apply agree_refl. apply v2_common_agree. Qed.
Lemma bf_size_agree f : agree (bf_size_in_bytes Debug f) (bf_size_in_bytes Release f).
Proof. destruct f as [f|f]; [apply mul_agree|apply v2_size_agree]. Qed.
Lemma bf_fill_agree wy ds : forall f, sagree (bf_fill Debug wy f ds) (bf_fill Release wy f ds).
Proof.
  induction ds as [|d ds IH]; intro f; [apply sagree_refl|]. cbn [bf_fill]. destruct (bf_insert_agree wy f d) as [E| ->].
  - destruct (bf_insert_bytes Debug wy f d) as [g r]. cbn [snd] in E. subst r. now left.
  - destruct (bf_insert_bytes Release wy f d) as [g [b|e|]]; [apply IH|apply sagree_refl..].
Qed.

(** ** Commands *)
Lemma insert_lines_agree wy ls : forall f, sagree (insert_lines Debug wy f ls) (insert_lines Release wy f ls).
Proof.
  induction ls as [|[d|] ls IH]; intro f; [apply sagree_refl| |apply sagree_refl]. cbn [insert_lines]. destruct (bf_insert_agree wy f d) as [E| ->].
  - destruct (bf_insert_bytes Debug wy f d) as [g r]. cbn [snd] in E. subst r. now left.
  - destruct (bf_insert_bytes Release wy f d) as [g [b|e|]]; [apply IH|apply sagree_refl..].
Qed.
Lemma process_agree wy w f i : sagree (process_file Debug wy w f i) (process_file Release wy w f i).
Proof. unfold process_file. destruct (fs_open w i); [apply insert_lines_agree|apply sagree_refl..]. Qed.
Lemma worker_agree wy w b : forall f, agree (worker Debug wy w f b) (worker Release wy w f b).
Proof.
  induction b as [|i b IH]; intro f; [apply agree_refl|]. cbn [worker]. destruct (process_agree wy w f i) as [E| ->].
  - destruct (process_file Debug wy w f i) as [g r]. cbn [snd] in E. subst r. now left.
  - destruct (process_file Release wy w f i) as [g [[]|e|]]; [apply IH|apply agree_refl..].
Qed.
Lemma join_agree {A} (g h : A -> outcome bloom) l : (forall x, agree (g x) (h x)) -> agree (join_all (map g l)) (join_all (map h l)).
Proof.
  intro H. induction l as [|x l IH]; [apply agree_refl|]. cbn [map join_all]. destruct (H x) as [-> | ->]; [now left|]. destruct (h x); [|now left..]. apply agree_bind; [exact IH|intros; apply agree_refl].
Qed.
Lemma reduce_agree L l : forall out, agree (reduce Debug L out l) (reduce Release L out l).
Proof.
  induction l as [|f l IH]; intro out; [apply agree_refl|]. cbn [reduce]. destruct (bf_union_agree L out f) as [E| ->].
  - destruct (bf_union_merge Debug L out f) as [g r]. cbn [snd] in E. subst r. now left.
  - destruct (bf_union_merge Release L out f) as [g [[]|e|]]; [apply IH|apply agree_refl..].
Qed.
Lemma parallel_agree L wy par w f files jobs : agree (parallel_insert Debug L wy par w f files jobs) (parallel_insert Release L wy par w f files jobs).
Proof.
  unfold parallel_insert. destruct files as [|p ps]; [apply agree_refl|]. apply agree_bind; [apply join_agree; intro; apply worker_agree|]. intros l _. unfold reduce_all. destruct (rev l); [apply agree_refl|apply reduce_agree].
Qed.
Lemma count_agree par w files jobs : agree (count_lines_parallel Debug par w files jobs) (count_lines_parallel Release par w files jobs).
Proof.
  unfold count_lines_parallel. assert (B : forall b acc, agree (count_lines_batch Debug w acc b) (count_lines_batch Release w acc b)).
  { induction b as [|p b IH]; intro acc; [apply agree_refl|]. cbn [count_lines_batch]. apply agree_bind; [apply agree_refl|intros c _]. apply agree_bind; [apply add_agree|auto]. }
  generalize (batches files (optimal_jobs par jobs)). intro l. generalize 0 at 1 3. induction l as [|b l IH]; intro acc; [apply agree_refl|]. cbn [map sum_joined]. apply agree_bind; [apply B|intros c _]. apply agree_bind; [apply add_agree|auto].
Qed.
Lemma check_output_agree w p : agree (check_output Debug w p) (check_output Release w p).
Proof. unfold check_output. destruct (w p) as [c|]; [|apply agree_refl]. unfold bf_from_reader. destruct (bf_load_agree c false) as [-> | ->]; [now left|apply agree_refl]. Qed.
Lemma create_agree L wy par w jobs a : agree (create_filter Debug L wy par w jobs a) (create_filter Release L wy par w jobs a).
Proof.
  unfold create_filter. apply agree_bind; [apply check_output_agree|intros [] _]. apply agree_bind; [destruct (ca_dataset a); [apply agree_refl|apply count_agree]|intros n _]. apply agree_bind; [apply agree_refl|intros o _].
  apply agree_bind; [apply bf_make_agree|intros f _; apply parallel_agree].
Qed.
Lemma insert_agree L wy par w stdin jobs a : agree (insert_filter Debug L wy par w stdin jobs a) (insert_filter Release L wy par w stdin jobs a).
Proof.
  unfold insert_filter. apply agree_bind; [apply agree_refl|intros c _]. apply agree_bind; [apply bf_load_agree|intros f _]. apply agree_bind; [|intros g _; apply parallel_agree]. apply agree_if; [|apply agree_refl].
  destruct (insert_lines_agree wy (lines stdin) f) as [E| ->]; [|apply agree_refl]. destruct (insert_lines Debug wy f (lines stdin)) as [g r]. cbn [snd] in E. subst r. now left.
Qed.
Lemma cmd_create_agree L wy par w room jobs a : sagree (cmd_create Debug L wy par w room jobs a) (cmd_create Release L wy par w room jobs a).
Proof. unfold cmd_create. destruct (create_agree L wy par w jobs a) as [-> | ->]; [now left|apply sagree_refl]. Qed.
Lemma cmd_insert_agree L wy par w stdin room jobs a : sagree (cmd_insert Debug L wy par w stdin room jobs a) (cmd_insert Release L wy par w stdin room jobs a).
Proof. unfold cmd_insert. destruct (insert_agree L wy par w stdin jobs a) as [-> | ->]; [now left|apply sagree_refl]. Qed.
Lemma show_agree w p : agree (cmd_show Debug w p) (cmd_show Release w p).
Proof. unfold cmd_show. apply agree_bind; [apply agree_refl|intros c _]. apply agree_bind; [apply bf_load_agree|intros f _]. unfold show_bf. apply agree_bind; [apply bf_size_agree|intros; apply agree_refl]. Qed.
