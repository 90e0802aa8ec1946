(** What the files of the snapshots should be, stated on the initial document and the updates. *)
From stdpp Require Import pretty.
From Verif Require Import Base BaseSpec F64 Tson TsonSpec Bytes Heap Patch PatchSpec Tjson TjsonSpec InitialSpec Sensor Sim SimSpec QuerySpec TemporalSpec.

(** The value and the timestamp at [l], initially [v] and -1, after the updates [us] in their order. *)
Inductive last_set (us : list tpatch) (l : list string) (v : json) : json -> Z -> Prop :=
| ls_none : (forall u, u ∈ us -> tp_path u <> String.concat "." l) -> last_set us l v v (-1)
| ls_last a u b : us = a ++ u :: b -> tp_path u = String.concat "." l ->
    (forall u', u' ∈ b -> tp_path u' <> String.concat "." l) -> last_set us l v (tp_value u) (tp_ts u).
(** The document [d] is [d0], made of [m], after the updates [us]: every scalar as last set, every
    place that is neither inside nor around an updated scalar as in [d0]. *)
Definition state_after (m : list (string * json)) (d0 : tson) (us : list tpatch) (d : tson) : Prop :=
  (forall l v w z, below l (JObj m) = Some v -> scalar v -> last_set us l v w z ->
     exists x, at_path d (keys l) = Some (TLeaf x z) ∧ json_of_prim x = w) ∧
  (forall q, (forall u l, u ∈ us -> updates m u l -> apart (keys l) q) -> at_path d q = at_path d0 q).
(** A patch on a scalar that no document takes: neither an addition nor a replacement nor a removal, or
    one of the first two without a scalar value. *)
Definition refused (u : tpatch) : Prop :=
  (tp_op u <> "add" ∧ tp_op u <> "replace" ∧ tp_op u <> "remove") ∨
  ((tp_op u = "add" ∨ tp_op u = "replace") ∧ (tp_value u = JNull ∨ ~ scalar (tp_value u))).
(** The name of the file number [k]. *)
Definition numbered (k : nat) : string := "snapshot_" +++ pretty k +++ ".json".
(** The documents [ds] are the files number [k] on of the directory. *)
Definition filed (dir : list (string * wjson)) (k : nat) (ds : list tson) : Prop :=
  forall i d, ds !! i = Some d -> alookup (numbered (k + i)) dir = Some (json_written d).
(** No other file differs. *)
Definition else_same (dir dir' : list (string * wjson)) (k n : nat) : Prop :=
  forall name, (forall i, (i < n)%nat -> name <> numbered (k + i)) -> alookup name dir' = alookup name dir.
(** The document [d] shows exactly the sensors, each as the patches [ps] leave it. *)
Definition shows_after (v : vehicle) (ps : list spatch) (d : tson) : Prop :=
  (forall p s l x z, (p, s) ∈ sensors v -> dotted p l -> latest ps p (s_value s) (-1) x z ->
     at_path d (keys l) = Some (TLeaf x z)) ∧
  (forall q x z, at_path d q = Some (TLeaf x z) -> exists p s l, (p, s) ∈ sensors v ∧ dotted p l ∧ q = keys l).
