(** What the files of the vehicle data generator should hold, stated on the data. *)
From Verif Require Import Base BaseSpec Tson TsonInd TsonSpec F64 Serial TextSpec PatchSpec JsonSpec Bytes Vss VssSpec VssPatchSpec.

Section saves.
Context (L : textlib).
(** A plain value whose text in a TSON file is read back. *)
Definition value_saves (v : wjson) : Prop :=
  match v with
  | WBool _ => True
  | WStr s => clean L s
  | WNum f => plain_num L f
  | WInt z => int_kept L z
  | _ => False
  end.
Definition cell_saves (x : wjson) : Prop := exists v ts, holds x v ts ∧ value_saves v ∧ 0 <= ts <= int64_max.
(** A data set with nothing but such cells, and names that are read back. *)
Record storable (d : wjson) : Prop := Storable {
  so_map : is_map d;
  so_open : ~ stamped d;
  so_names : keyed (clean L) d;
  so_leaf : forall l x, leaf_at d l x -> cell_saves x ∨ exists xs, x = WArr xs ∧ Forall cell_saves xs }.
(** The numbers drawn are read back. *)
Definition draws_save (D : draws) : Prop :=
  (forall n, plain_num L (SFmul f64_prec f64_emax (d_float D n) (f64_of_Z 100))) ∧ forall z, -100 <= z <= 100 -> int_kept L z.
(** So are all names and all values allowed of a schema. *)
Definition schema_saves (d : wjson) : Prop :=
  keyed (clean L) d ∧ forall ns l, attr d ns "allowed" (WArr l) -> Forall value_saves l.
(** A first data set for the schema [d], and any number of rounds. *)
Inductive generated (d : wjson) (c m : f64) : wjson -> Prop :=
| gd_first size R ord ts b r : (forall p, fair (R p)) -> (forall p, draws_save (R p)) -> 0 <= ts <= int64_max -> (forall l, ord l ≡ₚ l) ->
    generate size R ord ts (Vss b d) = Ok (Vss true r) -> generated d c m r
| gd_next R ts r r' : generated d c m r -> (forall p, fair (R p)) -> (forall p, draws_save (R p)) -> 0 <= ts <= int64_max ->
    next_data c m R ts (Vss true r) = Ok r' -> generated d c m r'.
End saves.
(** [branch d l]: below the names [l] there is a map, and neither it nor a map around it has a
    timestamp. *)
Inductive branch : wjson -> list string -> Prop :=
| br_here m : ~ stamped (WObj m) -> branch (WObj m) []
| br_in m k v l : ~ stamped (WObj m) -> (k, v) ∈ m -> branch v l -> branch (WObj m) (k :: l).
(** The document [t] is the data [d], with its cells as leaves. *)
Record shown (d : wjson) (t : tson) : Prop := Shown {
  sn_wf : wf t;
  sn_cell : forall q p z, at_path t q = Some (TLeaf p z) <-> exists v, cell d q v z ∧ p = as_prim v;
  sn_branch : forall l, (exists m, at_path t (map Key l) = Some (TObj m)) <-> branch d l;
  sn_array : forall l n, (exists ys, at_path t (map Key l) = Some (TArr ys) ∧ length ys = n) <-> exists xs, leaf_at d l (WArr xs) ∧ length xs = n }.
(** The value [v] with a timestamp, as TSON sees it. *)
Definition stamped_value (m : members) (v : wjson) : Prop :=
  exists t, m ≡ₚ [("value", v); ("timestamp", t)] ∧ ((exists z, t = WInt z) ∨ exists f, t = WNum f).
(** Data that cannot be written as TSON: a timestamp on something that is no plain value, or an
    integer without timestamp. *)
Inductive unsaved : wjson -> Prop :=
| us_int z : unsaved (WInt z)
| us_cell m v : stamped_value m v -> ~ plain_value v -> unsaved (WObj m)
| us_obj m k v : (forall w, ~ stamped_value m w) -> (k, v) ∈ m -> unsaved v -> unsaved (WObj m)
| us_arr l v : v ∈ l -> unsaved v -> unsaved (WArr l).
