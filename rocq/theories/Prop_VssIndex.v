(** C69 with names in brackets. *)
From Verif Require Import Base BaseSpec Tson TsonSpec PatchSpec Bytes Vss VssSpec VssIndexSpec VssIndex VssIndexDemo.

(** C69: with names in brackets a leaf goes to the place its path stands for: a number is an element
    of a member "array", which is filled up with nulls before it; nothing else is added. *)
Theorem C69_indices : forall d, is_map d -> ~ stamped d -> keyed schema_name d ->
  (forall l x, leaf_at d l x -> "array" ∉ l ∧ exists q, way (visible l) q) ->
  (forall l l' x x' q q', leaf_at d l x -> leaf_at d l' x' -> way (visible l) q -> way (visible l') q' -> q `prefix_of` q' -> l = l') ->
  exists r, build_from_leaf_nodes d = Ok r ∧
    (forall l x q, leaf_at d l x -> way (visible l) q -> found r q x) ∧
    (forall q x, found r q x -> q = [] ∨ exists l y w, leaf_at d l y ∧ way (visible l) w ∧
       ((exists q', q = w ++ q' ∧ found y q' x) ∨ (q `prefix_of` w ∧ q ≠ w) ∨ (x = WNull ∧ gap q w))).
Proof. exact build_indices. Qed.
Print Assumptions C69_indices.
Example C69_indices_case : is_map rows ∧ ~ stamped rows ∧ keyed schema_name rows ∧
  (forall l x, leaf_at rows l x -> "array" ∉ l ∧ exists q, way (visible l) q) ∧
  (forall l l' x x' q q', leaf_at rows l x -> leaf_at rows l' x' -> way (visible l) q -> way (visible l') q' -> q `prefix_of` q' -> l = l') ∧
  build_from_leaf_nodes rows = Ok rows_built.
Proof. exact rows_build. Qed.
