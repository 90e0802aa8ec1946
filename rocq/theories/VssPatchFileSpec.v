(** What the patch files of the vehicle data generator should hold, stated on the patches. *)
From Verif Require Import Base BaseSpec Tson TsonInd TsonSpec F64 Serial TextSpec PatchSpec Heap Patch DiffSpec JsonSpec Bytes Vss VssSpec VssPatchSpec.

(** An operation as decoded JSON. *)
Definition as_op (k p : string) (v : json) (f : f64) : json :=
  JObj [("op", JStr k); ("path", JStr p); ("value", v); ("timestamp", JNum f)].

Section files.
Context (L : textlib).
(** A value whose Go syntax is its JSON. *)
Definition value_files (v : json) : Prop :=
  match v with
  | JBool _ => True
  | JStr s => clean L s
  | JNum f => num_kept L (fmt_num L) f
  | _ => False
  end.
(** An operation with such a value, names that need no escapes, and a timestamp that is a whole
    number and is read back. *)
Definition op_files (o : json) : Prop :=
  exists k p v f z, o = as_op k p v f ∧ bare k ∧ bare p ∧ value_files v ∧ read_stamp f z ∧ parse_num L (z_text z) = Some f.
(** The operation that is read for it. *)
Definition op_reads (o : json) (p : operation) : Prop :=
  exists k v f, o = as_op k (op_path p) v f ∧ kind_name (op_kind p) k ∧ any_json (op_value p) v ∧ read_stamp f (op_ts p).
Definition cell_files (v : wjson) : Prop := value_files (json_of_prim (as_prim v)).
(** A data set with such names and values. *)
Definition filed (d : wjson) : Prop :=
  keyed bare d ∧ forall q v t, cell d q v t -> cell_files v ∧ int64 t.
Definition draws_file (D : draws) : Prop :=
  (forall n, num_kept L (fmt_num L) (SFmul f64_prec f64_emax (d_float D n) (f64_of_Z 100))) ∧
  forall z, -100 <= z <= 100 -> num_kept L (fmt_num L) (f64_of_Z z).
Definition schema_files (d : wjson) : Prop :=
  keyed bare d ∧ forall ns l, attr d ns "allowed" (WArr l) -> Forall cell_files l.
End files.
