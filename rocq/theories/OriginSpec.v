(** What it means that a value is in a document, and that it was handed to a log. *)
From Verif Require Import Base F64 Tson Heap Patch PatchSpec Logument LogSpec ChainSpec.

(** The document has a leaf with the value and the timestamp. *)
Inductive shown (x : prim) (ts : Z) : tson -> Prop :=
| sh_here : shown x ts (TLeaf x ts)
| sh_member m k c : (k, c) ∈ m -> shown x ts c -> shown x ts (TObj m)
| sh_element l c : c ∈ l -> shown x ts c -> shown x ts (TArr l).
(** The operation gives the value with the timestamp. *)
Definition gives (op : operation) (x : prim) (ts : Z) : Prop := writes op ∧ payload (op_value op) x ∧ op_ts op = ts.
(** The operation was in the patch of [New], or handed to the log by one of the calls. *)
Definition handed_to (L0 : logument) (cs : list call) (op : operation) : Prop := op ∈ pending L0 ∨ exists c, c ∈ cs ∧ op ∈ handed c.
(** The path is written in names, and the value is no array and no object. *)
Definition direct (op : operation) : Prop :=
  (exists names, spells (op_path op) names) ∧ (op_value op = ANil ∨ exists x, payload (op_value op) x).
