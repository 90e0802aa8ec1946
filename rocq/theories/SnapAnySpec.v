(** Small specification for [Snapshot] in any state. *)
From Verif Require Import Base Heap Logument.

(** [w] is the latest version up to [v] that has a snapshot. *)
Definition base_of (L : logument) (v w : N) : Prop :=
  is_Some (l_snapshots L !! w) ∧ (w <= v)%N ∧
  forall u, is_Some (l_snapshots L !! u) -> (u <= v)%N -> (u <= w)%N.
