(** What the bench command and its statistics should compute. *)
From Coq Require Import Reals.
From Verif Require Import M_Bench Spec_Bits Spec_Real Spec_Cli.
Open Scope N_scope.

(** A run of statistics updates. *)
Fixpoint stats_run (pr : profile) (s : stats) (es : list stat_event) : outcome stats :=
  match es with [] => Ok s | e :: r => let? s := stats_inc pr s e in stats_run pr s r end.
Definition same_event (a b : stat_event) : bool :=
  match a, b with EvTp, EvTp => true | EvFn, EvFn => true | EvFp, EvFp => true | EvTn, EvTn => true | _, _ => false end.
Definition counted (e : stat_event) (es : list stat_event) : N := len (filter (same_event e) es).
Definition ratio (a b : N) : R := (IZR (Z.of_N a) / IZR (Z.of_N b))%R.

(** In condition [c], the draws mutate line [i]. *)
Definition mutated (d : draws) (c i : N) : Prop := dr_roll d c i < 10 * (c + 1).
Definition draws_ok (d : draws) : Prop := forall c i j, dr_key d c i j < 256.
(** Lines queried in condition [c], number of mutated ones, and of mutated ones that the filter reports. *)
Definition n_mutated (d : draws) (test : list (list byte)) (c : N) : N := len (filter fst (mutate_lines d c 0 test)).
Definition n_found (wy : hasher) (b : bloom) (d : draws) (test : list (list byte)) (c : N) : N :=
  len (filter (fun x => fst x && contained wy b (snd x)) (mutate_lines d c 0 test)).
Definition found_rate (wy : hasher) (b : bloom) (d : draws) (test : list (list byte)) (c : N) : R :=
  ratio (n_found wy b d test c) (n_mutated d test c).
Definition conditions : list N := [0; 1; 2; 3; 4; 5; 6; 7; 8; 9].
Definition sumR (l : list R) : R := fold_right Rplus 0%R l.
(** The average of the ten rates. *)
Definition mean_rate (wy : hasher) (b : bloom) (d : draws) (test : list (list byte)) : R :=
  (sumR (map (found_rate wy b d test) conditions) / 10)%R.
(** The filter that is benchmarked. *)
Inductive bench_subject (pr : profile) (L : libm) (wy : hasher) (w : fs) (a : bench_args) (es : list (list byte)) : bloom -> Prop :=
| bs_file p c b : ba_file a = Some p -> w p = Some c -> bf_from_reader pr c = Ok b -> (forall e, In e es -> bf_contains_bytes wy b e = Ok true) ->
    bench_subject pr L wy w a es b
| bs_fill b : ba_file a = None -> bench_filter pr L wy (ba_version a) (ba_fpp a) (ba_opt a) es = Ok b -> bench_subject pr L wy w a es b.
(** The lines used as queries. *)
Definition bench_test (a : bench_args) (shuffle : list (list byte) -> list (list byte)) (es : list (list byte)) : list (list byte) :=
  firstn (N.to_nat (match ba_test_size a with Some n => n | None => len es end)) (shuffle es).
