(** What the web demo should send for the files of a run. *)
From Verif Require Import Base BaseSpec Tson TsonInd TsonSpec F64 Serial TextSpec Heap Patch PatchSpec JsonSpec Bytes Vss VssSpec VssPatchSpec.

(** The cell at [q] has another value or another rounded timestamp in [d'] than in [d]. *)
Definition changed (d d' : wjson) (q : list step) : Prop :=
  exists v0 t0 v t, cell d q v0 t0 ∧ cell d' q v t ∧ (~ TsonSpec.prim_eq (as_prim v0) (as_prim v) ∨ ~ same_stamp t0 t).
(** [newest D k r p z]: among the data sets 2 to [k], the last one in which the cell at [r] is not as in
    the first one has the value [p] there, and the timestamp [z] when rounded. *)
Definition newest (D : Z -> wjson) (k : Z) (r : list step) (p : prim) (z : Z) : Prop :=
  exists j v t, 2 <= j <= k ∧ changed (D 1) (D j) r ∧ (forall j', j < j' <= k -> ~ changed (D 1) (D j') r) ∧
    cell (D j) r v t ∧ p = as_prim v ∧ read_stamp (f64_of_Z t) z.
(** The text for the data sets up to [k]: null without changes, and else a document with the leaves of
    the first data set and, below a member with an empty name, those that changed. *)
Definition sent (T : textlib) (D : Z -> wjson) (k : Z) (s : string) : Prop :=
  (forall j r, 2 <= j <= k -> ~ changed (D 1) (D j) r) ∧ s = "null" ∨
  (exists j r, 2 <= j <= k ∧ changed (D 1) (D j) r) ∧
  exists t, s = marshal_indent T t "" "  " ∧ forall q p z, at_path t q = Some (TLeaf p z) <->
    (exists v, cell (D 1) q v z ∧ p = as_prim v) ∨ exists r, q = Key "" :: r ∧ newest D k r p z.
(** The nodes of the schema have names without "/" that are no integers. *)
Definition web_names (d : wjson) : Prop :=
  forall q k, node d q -> k ∈ q -> ~ has_char slash k ∧ forall z, ~ int_text k z.
