(** Small specifications of decimal numbers and of names in pointers. *)
From Verif Require Import Base.

(** The decimal digit [a] has the value [d]. *)
Definition digit (a : ascii) (d : N) : Prop := (d < 10)%N ∧ N_of_ascii a = (48 + d)%N.
(** One or more digits, with their value. *)
Inductive digits : string -> N -> Prop :=
| dg_one a d : digit a d -> digits (String a "") d
| dg_more s n a d : digits s n -> digit a d -> digits (s +++ String a "") (10 * n + d)%N.
(** Zero or more digits. *)
Definition opt_digits (s : string) : Prop := s = "" ∨ exists n, digits s n.
(** A number as [strconv.Atoi] takes it: digits, perhaps after a sign, in the range of int64. *)
Inductive int_text : string -> Z -> Prop :=
| it_plain s n : digits s n -> Z.of_N n < 2 ^ 63 -> int_text s (Z.of_N n)
| it_plus s n : digits s n -> Z.of_N n < 2 ^ 63 -> int_text (String "+" s) (Z.of_N n)
| it_minus s n : digits s n -> Z.of_N n <= 2 ^ 63 -> int_text (String "-" s) (- Z.of_N n).

(** RFC 6901: "~" is written "~0", and "/" is written "~1". *)
Fixpoint escaped (k : string) : string :=
  match k with
  | "" => ""
  | String a k' => (if decide (a = "~"%char) then "~0" else if decide (a = "/"%char) then "~1" else String a "") +++ escaped k'
  end.
(** The other direction, from left to right; a "~" before another byte stays. *)
Inductive decoded : string -> string -> Prop :=
| dec_end : decoded "" ""
| dec_tilde s d : decoded s d -> decoded (String "~" (String "0" s)) (String "~" d)
| dec_slash s d : decoded s d -> decoded (String "~" (String "1" s)) (String "/" d)
| dec_other a s d : ~ (a = "~"%char ∧ exists r, s = String "0" r ∨ s = String "1" r) -> decoded s d ->
    decoded (String a s) (String a d).
