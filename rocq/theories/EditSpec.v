(** Small specification: what an operation does to the content of a document. *)
From Verif Require Import Base BaseSpec F64 Tson Heap HeapSpec Patch PatchSpec.

(** On every unshared document with content [t] the operation has the outcome [r], and the content is [t']
    afterwards: of the document returned if it succeeds, of the document handed in otherwise. *)
Definition does (op : operation) (t : tson) (r : res unit) (t' : tson) : Prop :=
  forall h v h' x, doc_of h v t -> apply_operation h v op = (h', x) ->
    match r, x with
    | Ok _, Ok v' => doc_of h' v' t'
    | Err, Err | Panic, Panic => doc_of h' v t'
    | _, _ => False
    end.
(** The operations differ in their paths only, and the path of [op] is [k] in front of that of [op']. *)
Definition below (k : string) (op op' : operation) : Prop :=
  op_kind op' = op_kind op ∧ op_value op' = op_value op ∧ op_ts op' = op_ts op ∧
  exists ks, spells (op_path op') ks ∧ spells (op_path op) (k :: ks).
(** What is left of the part a failed operation was about: nothing. *)
Definition left_over (r : res unit) (t : tson) : tson := match r with Err => TNil | _ => t end.
