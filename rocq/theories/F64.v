(** float64: IEEE-754 binary64 as in [Coq.Floats.SpecFloat] (axiom free). *)
From Verif Require Import Base.
From Coq Require Export Floats.SpecFloat.

Notation f64 := spec_float.

Definition f64_prec : Z := 53.
Definition f64_emax : Z := 1024.

#[global] Instance spec_float_eq_dec : EqDecision spec_float.
Proof. solve_decision. Defined.

(** A bit pattern that binary64 can hold. *)
Definition f64_valid (x : f64) : bool := valid_binary f64_prec f64_emax x.

(** Go's [==] on float64: NaN differs from itself, +0 equals -0. *)
Definition f64_eq (x y : f64) : bool := SFeqb x y.

Definition f64_is_nan (x : f64) : bool :=
  match x with S754_nan => true | _ => false end.
Definition f64_finite (x : f64) : bool :=
  match x with S754_zero _ | S754_finite _ _ _ => true | _ => false end.

(** Go's conversion [float64(z)] of an integer, round to nearest even. *)
Definition f64_of_Z (z : Z) : f64 := binary_normalize f64_prec f64_emax z 0 false.

(** Go's conversion [int64(x)]: truncation.  Out-of-range values and NaN are
    implementation-specific in Go; amd64's answer, the least int64, is used. *)
Definition f64_to_int64 (x : f64) : Z :=
  match x with
  | S754_zero _ => 0
  | S754_finite s m e =>
      let a := if 0 <=? e then Z.pos m * 2 ^ e else Z.pos m / 2 ^ (- e) in
      let z := if s then - a else a in
      if in_int64 z then z else int64_min
  | _ => int64_min
  end.
