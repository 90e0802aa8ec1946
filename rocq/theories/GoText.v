(** A concrete model of the number formatting the serializer relies on:
    [strconv.ParseFloat] and [fmt.Sprintf("%v", x)] of Go's standard library.
    The theorems about the text format hold for every [textlib]; this instance supplies
    concrete cases and shows which numbers the format loses. *)
From Verif Require Import Base F64 Tson Serial.

(** The float64 nearest to [(-1)^s * n / d] (round half to even). *)
Definition f64_of_ratio (s : bool) (n d : positive) : f64 :=
  SFdiv f64_prec f64_emax (S754_finite s n 0) (S754_finite false d 0).

Fixpoint pow10 (k : nat) : positive :=
  match k with O => 1 | S k' => 10 * pow10 k' end%positive.

(** [strconv.ParseFloat(s, 64)] for the texts [parseNumber] passes to it
    (internal/tson/serialization.go 665-666): an optional minus sign, digits, and an optional
    point with digits.  At least one digit is needed; a value that rounds to infinity is a
    range error.  Other spellings ParseFloat accepts (exponents, hexadecimal, inf) never
    reach it and give [None] here. *)
Definition go_parse_num (s : string) : option f64 :=
  let '(neg, s1) := match s with
                    | String a s' => if decide (a = "-"%char) then (true, s') else (false, s)
                    | EmptyString => (false, s)
                    end in
  let '(ip, s2) := span_digits s1 in
  let fp := match s2 with
            | EmptyString => Some ""
            | String a s' =>
                if decide (a = "."%char)
                then let '(d, r) := span_digits s' in if decide (r = "") then Some d else None
                else None
            end in
  match fp with
  | None => None
  | Some d =>
      if decide (ip +++ d = "") then None
      else match dec_val 0 (ip +++ d) with
           | N0 => Some (S754_zero neg)
           | Npos n =>
               match f64_of_ratio neg n (pow10 (slength d)) with
               | S754_infinity _ => None
               | x => Some x
               end
           end
  end.

(** *** Shortest decimal digits *)

(** [n/d] rounded to the nearest integer, ties to even. *)
Definition round_div (n d : positive) : N :=
  let '(q, r) := N.div_eucl (Npos n) (Npos d) in
  match N.compare (2 * r) (Npos d) with
  | Lt => q
  | Gt => q + 1
  | Eq => if N.even q then q else q + 1
  end%N.
(** Scale [n/d] by [10^k]. *)
Definition scale10 (n d : positive) (k : Z) : positive * positive :=
  if 0 <=? k then (n * pow10 (Z.to_nat k), d)%positive
  else (n, d * pow10 (Z.to_nat (- k)))%positive.
(** The least [p] with [n/d < 10^p], searched upwards from [p]. *)
Fixpoint dec_exp (fuel : nat) (n d : positive) (p : Z) : Z :=
  match fuel with
  | O => p
  | S f =>
      let '(a, b) := scale10 n d (- p) in
      if (a <? b)%positive then p else dec_exp f n d (p + 1)
  end.
(** Try 1, 2, .. significant digits until the decimal reads back as [x].
    (Go's algorithm takes the shortest decimal inside the rounding interval; the two differ
    only when the nearest decimal of that length lies outside the interval and another one
    lies inside, next to a power of two.) *)
Fixpoint shortest (fuel : nat) (nd : Z) (n d : positive) (p : Z) (x : f64) : N * Z :=
  let '(a, b) := scale10 n d (nd - p) in
  let q := round_div a b in
  match fuel with
  | O => (q, p - nd)
  | S f =>
      let ok := match q with
                | N0 => false
                | Npos m =>
                    let '(a', b') := scale10 m 1 (p - nd) in
                    bool_decide (f64_of_ratio false a' b' = x)
                end in
      if ok then (q, p - nd) else shortest f (nd + 1) n d p x
  end.

Fixpoint zeros (k : nat) : string :=
  match k with O => "" | S k' => String "0" (zeros k') end.
Fixpoint stake (k : nat) (s : string) : string :=
  match k, s with
  | S k', String a s' => String a (stake k' s')
  | _, _ => ""
  end.
Fixpoint sdrop (k : nat) (s : string) : string :=
  match k, s with
  | S k', String _ s' => sdrop k' s'
  | _, _ => s
  end.
Definition exp_text (e : Z) : string :=
  (if e <? 0 then "e-" else "e+") +++
  (let d := dec_text (Z.abs_N e) in if (slength d <? 2)%nat then String "0" d else d).

(** [strconv.FormatFloat(x, 'g', -1, 64)], which is what [%v] prints: exponent form when the
    decimal exponent is below -4 or at least 6.  [q * 10^k] is the number, [q] without
    trailing zeros. *)
Definition layout (neg : bool) (q : N) (k : Z) : string :=
  let d := dec_text q in
  let n := slength d in
  let dp := Z.of_nat n + k in
  let e := dp - 1 in
  (if neg then "-" else "") +++
  (if (e <? -4) || (6 <=? e) then
     stake 1 d +++ (if (n <=? 1)%nat then "" else "." +++ sdrop 1 d) +++ exp_text e
   else if dp <=? 0 then "0." +++ zeros (Z.to_nat (- dp)) +++ d
   else if (Z.of_nat n <=? dp) then d +++ zeros (Z.to_nat (dp - Z.of_nat n))
   else stake (Z.to_nat dp) d +++ "." +++ sdrop (Z.to_nat dp) d).

Definition go_fmt_num (x : f64) : string :=
  match x with
  | S754_zero s => if s then "-0" else "0"
  | S754_infinity s => if s then "-Inf" else "+Inf"
  | S754_nan => "NaN"
  | S754_finite s m e =>
      let '(n, d) := match e with
                     | Zneg k => (m, Pos.shiftl 1 (Npos k))
                     | Z0 => (m, 1%positive)
                     | Zpos k => (Pos.shiftl m (Npos k), 1%positive)
                     end in
      let est := (Z.log2 (Zpos n) - Z.log2 (Zpos d)) * 3 / 10 - 2 in
      let p := dec_exp 64 n d est in
      let '(q, k) := shortest 17 1 n d p (S754_finite false m e) in
      (* rounding up to ten leaves a zero *)
      if (q =? 10)%N then layout s 1 (k + 1) else layout s q k
  end.

(** The library with a given [strconv.IsPrint] table for runes from 0x80 up. *)
Definition go_lib (isp : N -> bool) : textlib := TextLib go_fmt_num go_parse_num isp.
