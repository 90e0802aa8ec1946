(** Small specification: edits of a document that is an array. *)
From Verif Require Import Base BaseSpec F64 Tson Patch PatchSpec.

(** Set the element at an index to a leaf, or remove the element there. *)
Inductive edit : Type := Put (i : nat) (x : tson) | Cut (i : nat).
Inductive edits (op : operation) : edit -> Prop :=
| edits_put i idx p : spells (op_path op) [i] -> int_text i (Z.of_nat idx) -> writes op -> payload (op_value op) p ->
    edits op (Put idx (TLeaf p (op_ts op)))
| edits_cut i idx : spells (op_path op) [i] -> int_text i (Z.of_nat idx) -> op_kind op = ORemove -> edits op (Cut idx).
(** Only an element that is there can be removed. *)
Definition fits (n : nat) (e : edit) : Prop := match e with Put _ _ => True | Cut i => (i < n)%nat end.

(** The array after the edit. *)
Definition made (xs : list tson) (e : edit) : list tson :=
  match e with
  | Put i x => set_elem xs i x
  | Cut i => take i xs ++ drop (S i) xs
  end.
(** What a holder of the old array sees afterwards: never another length. An element set
    behind the end is not seen; after a removal the last element is seen twice. *)
Definition shown (xs : list tson) (e : edit) : list tson :=
  match e with
  | Put i x => <[i := x]> xs
  | Cut i => take i xs ++ drop (S i) xs ++ match last xs with Some x => [x] | None => [] end
  end.

(** All elements are leaves or nulls. *)
Definition flat (xs : list tson) : Prop :=
  Forall (fun x => match x with TNil | TLeaf _ _ => True | _ => False end) xs.
Definition is_put (e : edit) : Prop := match e with Put _ _ => True | Cut _ => False end.
