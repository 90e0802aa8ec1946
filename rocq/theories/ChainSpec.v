(** Small specifications for logs that are fed with generated patches. *)
From Verif Require Import Base F64 Tson TsonInd TsonSpec Heap HeapSpec Patch PatchSpec Diff DiffSpec Logument LogSpec.

(** The patch that [GeneratePatch], or [GeneratePatchWithTimestamp], makes of two documents. *)
Definition diff (with_ts : bool) (a b : tson) : res (list operation) :=
  if with_ts then generate_patch_with_timestamp a b else generate_patch a b.
(** The two agree in what such patches compare. *)
Definition equal_for (with_ts : bool) : tson -> tson -> Prop := if with_ts then same_content else same_values.
Definition usable (t : tson) : Prop := (exists m, t = TObj m) ∧ wf t ∧ nan_free t ∧ well_named t.

(** [ps] are the patches between the consecutive documents of [d :: ds]; none is empty. *)
Inductive stages (with_ts : bool) : tson -> list (list operation) -> list tson -> Prop :=
| sg_end d : usable d -> stages with_ts d [] []
| sg_next d e ops ps ds : usable d -> bridged with_ts d e -> diff with_ts d e = Ok ops -> ops <> [] ->
    stages with_ts e ps ds -> stages with_ts d (ops :: ps) (e :: ds).
(** The patches of the log are those of [ps], in order, without the leading slashes. *)
Definition records (L : logument) (ps : list (list operation)) : Prop :=
  length (l_version L) = S (length ps) ∧
  forall i ops, ps !! i = Some ops -> l_patches L !! (N.of_nat i + 1)%N = Some (map unslash ops).

(** The operations a call hands to the log. *)
Definition handed (c : call) : list operation :=
  match c with
  | CStore p => ops_of p
  | CSet op | CTestSet op => [op]
  | _ => []
  end.
(** An operation of some patch between two object documents. *)
Definition from_diff (p : operation) : Prop :=
  exists with_ts m m' ops, wf (TObj m) ∧ wf (TObj m') ∧ diff with_ts (TObj m) (TObj m') = Ok ops ∧ p ∈ ops.
(** The two objects have the same members, except for the one with the empty name. *)
Definition same_named_members (m m' : list (string * tson)) : Prop :=
  forall k, k <> "" -> alookup k m' = alookup k m.

(** The scalar the operation carries, if any, equals itself: it is not NaN. *)
Definition no_nan (p : operation) : Prop := forall x, payload (op_value p) x -> TsonSpec.prim_eq x x.
Definition same_outcome {A B} (x : res A) (y : res B) : Prop :=
  match x, y with Ok _, Ok _ | Err, Err | Panic, Panic => True | _, _ => False end.
