(** Small specifications for patches: addressed nodes, spelled paths, free ways. *)
From Verif Require Import Base BaseSpec F64 Tson Heap Patch.

(** One step down into a document. *)
Inductive step := Key (k : string) | Elem (i : nat).
#[global] Instance step_eq_dec : EqDecision step.
Proof. solve_decision. Defined.
(** The node reached by steps. *)
Fixpoint at_path (t : tson) (q : list step) : option tson :=
  match q with
  | [] => Some t
  | Key k :: q' => match t with TObj m => alookup k m ≫= fun c => at_path c q' | _ => None end
  | Elem i :: q' => match t with TArr xs => xs !! i ≫= fun c => at_path c q' | _ => None end
  end.
(** Neither leads through the other. *)
Definition apart (p q : list step) : Prop := ¬ p `prefix_of` q ∧ ¬ q `prefix_of` p.

(** [path] spells the member names [ks]: escaped names without "/" and ".", separated
    by "/" or ".". *)
Definition has_char (c : ascii) (k : string) : Prop := exists a b, k = a +++ String c b.
Definition plain (k : string) : Prop := ¬ has_char slash k ∧ ¬ has_char dot k.
Inductive spells : string -> list string -> Prop :=
| sp_last k : plain k -> spells (escaped k) [k]
| sp_more k sep path ks : plain k -> sep = slash ∨ sep = dot -> spells path ks ->
    spells (escaped k +++ String sep path) (k :: ks).

(** All intermediate members are objects. *)
Inductive through_objects : tson -> list string -> Prop :=
| to_last m k : through_objects (TObj m) [k]
| to_in m k c ks : alookup k m = Some c -> through_objects c ks -> through_objects (TObj m) (k :: ks).
(** All intermediate members are objects, up to one that is missing or null; from there
    on no name reads as a number. *)
Inductive free_way : tson -> list string -> Prop :=
| fw_last m k : free_way (TObj m) [k]
| fw_in m k c ks : alookup k m = Some c -> free_way c ks -> free_way (TObj m) (k :: ks)
| fw_new m k ks : alookup k m = None ∨ alookup k m = Some TNil -> ks <> [] ->
    Forall (fun k => forall z, ~ int_text k z) ks -> free_way (TObj m) (k :: ks).

(** The leaf payload an operation value stands for. *)
Inductive payload : any -> prim -> Prop :=
| pl_str s : payload (AStr s) (PStr s)
| pl_num f : payload (ANum f) (PNum f)
| pl_int z : payload (AInt z) (PNum (f64_of_Z z))
| pl_bool b : payload (ABool b) (PBool b).
Definition writes (op : operation) : Prop := op_kind op = OAdd ∨ op_kind op = OReplace.
(** [xs] with element [i] set, the gap filled with nulls. *)
Definition set_elem (xs : list tson) (i : nat) (c : tson) : list tson :=
  <[i := c]> (xs ++ replicate (S i - length xs) TNil).
Notation keys ks := (map Key ks).
