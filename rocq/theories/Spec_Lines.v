(** Text lines: what the entries of a file are. *)
From Verif Require Import M_Lines.
Open Scope N_scope.

Definition ends_cr (l : list byte) : Prop := exists p, l = p ++ [CR].
(** [text s es]: the content [s] has the lines [es]. A line ends with LF or CRLF; the last one may lack a terminator, and
    then it is not empty and keeps a final CR. *)
Inductive text : list byte -> list (list byte) -> Prop :=
| text_end : text [] []
| text_last l : l <> [] -> ~ In LF l -> text l [l]
| text_lf l s es : ~ In LF l -> ~ ends_cr l -> text s es -> text (l ++ LF :: s) (l :: es)
| text_crlf l s es : ~ In LF l -> text s es -> text (l ++ CR :: LF :: s) (l :: es).

(** Valid UTF-8 (Unicode table 3-7), as a grammar of well-formed byte sequences. *)
Inductive utf8_char : list byte -> Prop :=
| u1 a : a <= 127 -> utf8_char [a]
| u2 a b : 194 <= a <= 223 -> 128 <= b <= 191 -> utf8_char [a; b]
| u3_e0 b c : 160 <= b <= 191 -> 128 <= c <= 191 -> utf8_char [224; b; c]
| u3_ec a b c : 225 <= a <= 236 -> 128 <= b <= 191 -> 128 <= c <= 191 -> utf8_char [a; b; c]
| u3_ed b c : 128 <= b <= 159 -> 128 <= c <= 191 -> utf8_char [237; b; c]
| u3_ef a b c : 238 <= a <= 239 -> 128 <= b <= 191 -> 128 <= c <= 191 -> utf8_char [a; b; c]
| u4_f0 b c d : 144 <= b <= 191 -> 128 <= c <= 191 -> 128 <= d <= 191 -> utf8_char [240; b; c; d]
| u4_f1 a b c d : 241 <= a <= 243 -> 128 <= b <= 191 -> 128 <= c <= 191 -> 128 <= d <= 191 -> utf8_char [a; b; c; d]
| u4_f4 b c d : 128 <= b <= 143 -> 128 <= c <= 191 -> 128 <= d <= 191 -> utf8_char [244; b; c; d].
Definition utf8 (s : list byte) : Prop := exists cs, Forall utf8_char cs /\ s = concat cs.
