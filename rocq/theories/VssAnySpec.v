(** Which data sets can come up. *)
From Verif Require Import Base BaseSpec F64 Bytes Vss VssSpec.

(** The numbers [math/rand] returns: [Float64()] divides a whole number below 2^53 by 2^53. *)
Definition go_float (u : f64) : Prop :=
  unit_float u ∧ forall m e, u = S754_finite false m e -> (2 ^ (-53 - e) | Z.pos m).
Definition machine (D : draws) : Prop :=
  (forall n, go_float (d_float D n)) ∧ (forall n b, 0 < b -> 0 <= d_int D n b < b).
(** [x] holds the number [f]. *)
Definition number_in (ts : Z) (x : wjson) (f : f64) : Prop :=
  x = reading (WNum f) ts ∨ exists l, x = WArr l ∧ reading (WNum f) ts ∈ l.
(** What a node with the attributes [A] can get: what fits, and numbers that are not chosen from a list are a
    hundred times what [Float64()] can return. *)
Definition possible (A : string -> wjson -> Prop) (ts : Z) (x : wjson) : Prop :=
  fits A ts x ∧ ((~ direct A ∧ exists y, A "allowed" y) ∨
    forall f, number_in ts x f -> exists u, go_float u ∧ f = SFmul f64_prec f64_emax u (f64_of_Z 100)).
(** What the leaf [x] can become in one round, with numbers as [math/rand] returns them. *)
Definition moves (c m : f64) (ts : Z) (x x' : wjson) : Prop :=
  exists r, go_float r ∧ moved c m r ts x x' ∧
    forall f f', has_value x (WNum f) -> SFltb r c = true -> x' = reading (WNum f') ts ->
      exists u, go_float u ∧ f' = SFmul f64_prec f64_emax u (f64_of_Z 100).
