(** What the patches of the vehicle data generator should be, stated on the data. *)
From Verif Require Import Base BaseSpec Tson TsonInd TsonSpec F64 Serial Heap Patch PatchSpec DiffSpec JsonSpec Bytes Vss VssSpec.

(** The value [v] with the timestamp [ts] and nothing else. *)
Definition holds (x v : wjson) (ts : Z) : Prop := exists m, x = WObj m ∧ m ≡ₚ [("value", v); ("timestamp", WInt ts)].
(** [cell d q v ts]: the pointer [q] leads to the value [v] with the timestamp [ts], a leaf of [d]
    or an element of one. *)
Definition cell (d : wjson) (q : list step) (v : wjson) (ts : Z) : Prop :=
  exists l x, leaf_at d l x ∧
    (q = map Key l ∧ holds x v ts ∨
     exists i xs y, q = map Key l ++ [Elem i] ∧ x = WArr xs ∧ xs !! i = Some y ∧ holds y v ts).

Section kept.
Context (T : textlib) (num : f64 -> string).
(** An integer whose text and whose float64 are read back. *)
Definition int_writes (z : Z) : Prop := int_kept T z ∧ num_kept T num (f64_of_Z z).
(** A plain value whose text is read back as its float64 or as itself. *)
Definition value_writes (v : wjson) : Prop :=
  match v with
  | WBool _ => True
  | WStr s => utf8 s
  | WNum f => num_kept T num f
  | WInt z => int_writes z
  | _ => False
  end.
(** A timestamp of which the texts before and after rounding are read. *)
Definition stamp_writes (ts : Z) : Prop :=
  int_kept T ts ∧ forall z, read_stamp (f64_of_Z ts) z -> int_kept T z.
Definition cell_writes (x : wjson) : Prop := exists v ts, holds x v ts ∧ value_writes v ∧ stamp_writes ts.
(** A data set with nothing but such cells, in which no branch is empty. *)
Record telemetry (d : wjson) : Prop := Telemetry {
  tl_map : is_map d;
  tl_open : ~ stamped d;
  tl_names : keyed (fun k => schema_name k ∧ utf8 k) d;
  tl_visible : forall l x, leaf_at d l x -> visible l = l;
  tl_leaf : forall l x, leaf_at d l x -> cell_writes x ∨ exists xs, x = WArr xs ∧ Forall cell_writes xs;
  tl_full : forall l, l ≠ [] -> ~ item d l (WObj []) }.
(** The numbers drawn can be written. *)
Definition draws_write (D : draws) : Prop :=
  (forall n, num_kept T num (SFmul f64_prec f64_emax (d_float D n) (f64_of_Z 100))) ∧ forall z, -100 <= z <= 100 -> int_writes z.
(** A schema of which all names and all values allowed can be written. *)
Definition schema_writes (d : wjson) : Prop :=
  keyed utf8 d ∧ forall ns l, attr d ns "allowed" (WArr l) -> Forall value_writes l.
(** Any number of rounds of GenerateNext, with their patches. *)
Inductive logged (c m : f64) : wjson -> list json -> wjson -> Prop :=
| lg_none d : logged c m d [] d
| lg_more R ord ts d d' p ps e : (forall p, fair (R p)) -> (forall p, draws_write (R p)) -> stamp_writes ts -> (forall t, same_doc t (ord t)) ->
    generate_next T num c m R ord ts (Vss true d) = Ok (Vss true d', p) -> logged c m d' ps e -> logged c m d (p :: ps) e.
End kept.

(** The leaf value the text of [v] is read as. *)
Definition as_prim (v : wjson) : prim :=
  match v with
  | WBool b => PBool b
  | WNum f => PNum f
  | WInt z => PNum (f64_of_Z z)
  | WStr s => PStr s
  | _ => PBool false
  end.
(** The timestamps are rounded to the same number. *)
Definition same_stamp (t t' : Z) : Prop := exists z, read_stamp (f64_of_Z t) z ∧ read_stamp (f64_of_Z t') z.
(** The operation for the cell, as decoded JSON. *)
Definition renewal (q : list step) (v : wjson) (t : Z) (o : json) : Prop :=
  exists z, read_stamp (f64_of_Z t) z ∧
    o = JObj [("op", JStr "replace"); ("path", JStr (written q)); ("value", json_of_prim (as_prim v)); ("timestamp", JNum (f64_of_Z z))].
Definition op_pointer (o : json) : option json :=
  match o with JObj m => alookup "path" m | _ => None end.
