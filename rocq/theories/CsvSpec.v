(** Comma-separated tables as RFC 4180 has them, with lines ended by a line feed, and decimal numbers. *)
From Verif Require Import Base BaseSpec F64.

(** A cell: text without comma, quote or end of line, or text in quotes with the quotes in it doubled. *)
Definition quote_mark : ascii := "034"%char.
Definition plain_char (a : ascii) : Prop := a ∉ [quote_mark; ","%char; "010"%char; "013"%char].
Inductive plain_text : string -> Prop :=
| pt_end : plain_text ""
| pt_char a s : plain_char a -> plain_text s -> plain_text (String a s).
Inductive in_quotes : string -> string -> Prop :=
| iq_end : in_quotes "" ""
| iq_char a t s : a ≠ quote_mark -> in_quotes t s -> in_quotes (String a t) (String a s)
| iq_quote t s : in_quotes t s -> in_quotes (String quote_mark (String quote_mark t)) (String quote_mark s).
Inductive cell : string -> string -> Prop :=
| cl_plain s : plain_text s -> cell s s
| cl_quoted t s : in_quotes t s -> cell (String quote_mark t +++ String quote_mark "") s.
Inductive line : string -> list string -> Prop :=
| ln_last t s : cell t s -> line t [s]
| ln_more t s u r : cell t s -> line u r -> line (t +++ "," +++ u) (s :: r).
Inductive table : string -> list (list string) -> Prop :=
| tb_end : table "" []
| tb_line t r u rs : line t r -> table u rs -> table (t +++ String "010" u) (r :: rs).
(** The text is a table in one way only. *)
Definition reads_as (s : string) (rs : list (list string)) : Prop := forall rs', table s rs' <-> rs' = rs.
(** All lines have as many cells as the first. *)
Definition rectangular (rs : list (list string)) : Prop := forall r r', r ∈ rs -> r' ∈ rs -> length r = length r'.

(** An integer as text. *)
Inductive integer : string -> Z -> Prop :=
| ig_plain s n : digits s n -> integer s (Z.of_N n)
| ig_minus s n : digits s n -> n ≠ 0%N -> integer (String "-" s) (- Z.of_N n).
(** A number with [d] decimals: [n] units of the last of them. *)
Inductive decimal (d : nat) : string -> bool -> Z -> Prop :=
| dc_plain i f a b : digits i a -> digits f b -> slength f = d -> decimal d (i +++ "." +++ f) false (Z.of_N a * 10 ^ Z.of_nat d + Z.of_N b)
| dc_minus s n : decimal d s false n -> decimal d (String "-" s) true n.
Inductive shows (d : nat) (s : string) : Z -> Prop :=
| sw_plain n : decimal d s false n -> shows d s n
| sw_minus n : decimal d s true n -> shows d s (- n).
(** A finite float64 is [p / q], up to its sign. *)
Definition magnitude (x : f64) (p q : Z) : Prop :=
  match x with
  | S754_zero _ => p = 0 ∧ q = 1
  | S754_finite _ m e => (0 <= e ∧ p = Z.pos m * 2 ^ e ∧ q = 1) ∨ (e < 0 ∧ p = Z.pos m ∧ q = 2 ^ (- e))
  | _ => False
  end.
Definition negative (x : f64) : bool :=
  match x with S754_zero s | S754_finite s _ _ | S754_infinity s => s | S754_nan => false end.
(** The text has [d] decimals and is the nearest such number to [x], the even one of two. *)
Definition rounded (d : nat) (x : f64) (s : string) : Prop :=
  exists n p q, decimal d s (negative x) n ∧ magnitude x p q ∧
    2 * Z.abs (p * 10 ^ Z.of_nat d - n * q) <= q ∧ (2 * Z.abs (p * 10 ^ Z.of_nat d - n * q) = q -> Z.Even n).
