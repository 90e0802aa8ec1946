(** Where BuildFromLeafNodes puts leaves whose path has names in brackets. *)
From Verif Require Import Base BaseSpec Tson TsonSpec PatchSpec Bytes Vss VssSpec.

(** [found d q x]: the data [x] is found in [d] at the path [q]. *)
Inductive found : wjson -> list step -> wjson -> Prop :=
| fd_here d : found d [] d
| fd_key m k v q x : alookup k m = Some v -> found v q x -> found (WObj m) (Key k :: q) x
| fd_elem a i v q x : a !! i = Some v -> found v q x -> found (WArr a) (Elem i :: q) x.
(** The place that belongs to a path: a number in brackets is an element of the member "array", any
    other name in brackets is left out, unless the path ends with it. *)
Inductive way : list string -> list step -> Prop :=
| wy_end : way [] []
| wy_name k l q : ~ index_name k -> way l q -> way (k :: l) (Key k :: q)
| wy_index s i l q : int_text s (Z.of_nat i) -> way l q -> way (("[" +++ s +++ "]") :: l) (Key "array" :: Elem i :: q)
| wy_skip s l q : (forall z, ~ int_text s z) -> l ≠ [] -> way l q -> way (("[" +++ s +++ "]") :: l) q.
(** [gap q w]: [q] is an element that comes before one on the way [w]. *)
Definition gap (q w : list step) : Prop := exists q0 i j, q = q0 ++ [Elem i] ∧ (i < j)%nat ∧ (q0 ++ [Elem j]) `prefix_of` w.
