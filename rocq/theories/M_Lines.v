(** Text input as the command line tool sees it: std's BufRead::lines and UTF-8 validation (bin/poppy.rs:205, 224,
    326, 346, 384, 423 call it). *)
From Verif Require Export M_Base.
Open Scope N_scope.

(** core::str::from_utf8 (Unicode table 3-7): called by BufRead::read_line. *)
Definition in_rng (lo hi b : N) : bool := (lo <=? b) && (b <=? hi).
Definition cont (b : N) : bool := in_rng 128 191 b.
Fixpoint utf8_valid (s : list byte) : bool :=
  match s with
  | [] => true
  | a :: s1 =>
    if a <? 128 then utf8_valid s1
    else match s1 with
         | [] => false
         | b :: s2 =>
           if in_rng 194 223 a then cont b && utf8_valid s2
           else match s2 with
                | [] => false
                | c :: s3 =>
                  if in_rng 224 239 a then
                    ((if a =? 224 then in_rng 160 191 b else if a =? 237 then in_rng 128 159 b else cont b)
                     && cont c) && utf8_valid s3
                  else match s3 with
                       | [] => false
                       | d :: s4 =>
                         in_rng 240 244 a
                         && ((if a =? 240 then in_rng 144 191 b else if a =? 244 then in_rng 128 143 b else cont b)
                             && cont c && cont d) && utf8_valid s4
                       end
                end
         end
  end.

Definition LF : byte := 10.
Definition CR : byte := 13.

(** Raw segments read by read_until(LF): each includes its LF except possibly the last; no empty last segment. *)
Fixpoint segments (s : list byte) : list (list byte) :=
  match s with
  | [] => []
  | c :: r => if c =? LF then [c] :: segments r
              else match segments r with
                   | [] => [[c]]
                   | x :: xs => (c :: x) :: xs
                   end
  end.

(** std io/mod.rs, Lines::next: "if buf.ends_with(LF) { pop; if buf.ends_with(CR) { pop } }". *)
Definition chomp (seg : list byte) : list byte :=
  match rev seg with
  | x :: r => if x =? LF then match r with
                              | y :: r' => if y =? CR then rev r' else rev r
                              | [] => []
                              end
              else seg
  | [] => []
  end.

(** BufRead::lines: one item per segment; [None] is an InvalidData error (the iteration goes on after it). *)
Definition lines (s : list byte) : list (option (list byte)) :=
  map (fun seg => if utf8_valid seg then Some (chomp seg) else None) (segments s).
