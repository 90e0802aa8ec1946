(** Small specifications for generated patches. *)
From stdpp Require Import pretty.
From Verif Require Import Base F64 Tson TsonInd TsonSpec Heap Patch PatchSpec.

(** The names that lead to a node, and the path text written for it.  Empty names leave no
    trace except at the end; without them it is the RFC 6901 pointer. *)
Definition step_name (s : step) : string :=
  match s with Key k => k | Elem i => pretty i end.
Definition written (q : list step) : string :=
  let names := map step_name q in
  pointer (filter (fun k => k <> "") names) +++ (if decide (last names = Some "") then "/" else "").

(** An operation writes the leaf with payload [x] and timestamp [ts]. *)
Definition carries (p : operation) (x : prim) (ts : Z) : Prop :=
  writes p ∧ payload (op_value p) x ∧ op_ts p = ts.

(** The leaf that [b] has at [q] is one that [a] has, too: at the same place, or, inside
    arrays of different length, in an equal element of the other array. *)
Inductive kept : tson -> tson -> list step -> Prop :=
| kp_leaf x y ts ts' : prim_eq x y -> kept (TLeaf x ts) (TLeaf y ts') []
| kp_member m m' k u v q : alookup k m = Some u -> alookup k m' = Some v -> kept u v q ->
    kept (TObj m) (TObj m') (Key k :: q)
| kp_elem l l' i u v q : length l = length l' -> l !! i = Some u -> l' !! i = Some v -> kept u v q ->
    kept (TArr l) (TArr l') (Elem i :: q)
| kp_moved l l' i u v q : length l <> length l' -> u ∈ l -> l' !! i = Some v -> same_content u v ->
    kept (TArr l) (TArr l') (Elem i :: q).
(** The same with timestamps, for [GeneratePatchWithTimestamp]: inside arrays of different
    length the element at the same index must be equal, or it is a container and its
    changes are dropped. *)
Inductive kept_ts : tson -> tson -> list step -> Prop :=
| kt_leaf x y ts : prim_eq x y -> kept_ts (TLeaf x ts) (TLeaf y ts) []
| kt_member m m' k u v q : alookup k m = Some u -> alookup k m' = Some v -> kept_ts u v q ->
    kept_ts (TObj m) (TObj m') (Key k :: q)
| kt_elem l l' i u v q : length l = length l' -> l !! i = Some u -> l' !! i = Some v -> kept_ts u v q ->
    kept_ts (TArr l) (TArr l') (Elem i :: q)
| kt_same l l' i u v q : length l <> length l' -> l !! i = Some u -> l' !! i = Some v -> same_content u v ->
    kept_ts (TArr l) (TArr l') (Elem i :: q)
| kt_dropped l l' i v q : length l <> length l' -> (i < length l)%nat -> l' !! i = Some v -> container v ->
    kept_ts (TArr l) (TArr l') (Elem i :: q).

(** [M] pairs equal elements one to one, and leaves no equal elements on both sides. *)
Record matching (os ms : list tson) (M : list (nat * nat)) : Prop := {
  mt_old : NoDup (map fst M);
  mt_new : NoDup (map snd M);
  mt_equal : forall i j, (i, j) ∈ M -> exists x y, os !! i = Some x ∧ ms !! j = Some y ∧ same_content x y;
  mt_maximal : forall i j x y, os !! i = Some x -> ms !! j = Some y -> same_content x y ->
    i ∈ map fst M ∨ j ∈ map snd M }.
(** The indices below [n] that are not in [used], in ascending order. *)
Definition leftover (n : nat) (used : list nat) : list nat := filter (fun i => i ∉ used) (seq 0 n).

(** No number of the document is NaN. *)
Inductive nan_free : tson -> Prop :=
| nf_nil : nan_free TNil
| nf_str s ts : nan_free (TLeaf (PStr s) ts)
| nf_bool b ts : nan_free (TLeaf (PBool b) ts)
| nf_num f ts : f64_is_nan f = false -> nan_free (TLeaf (PNum f) ts)
| nf_obj m : Forall (fun kv => nan_free (snd kv)) m -> nan_free (TObj m)
| nf_arr l : Forall nan_free l -> nan_free (TArr l).

(** Going down along [q] in both documents, through common members and the elements of
    arrays of equal length, leads to [x] in the one and [y] in the other. *)
Inductive meets : tson -> tson -> list step -> tson -> tson -> Prop :=
| ms_here a b : meets a b [] a b
| ms_member m m' k u v q x y : alookup k m = Some u -> alookup k m' = Some v -> meets u v q x y ->
    meets (TObj m) (TObj m') (Key k :: q) x y
| ms_elem l l' i u v q x y : length l = length l' -> l !! i = Some u -> l' !! i = Some v -> meets u v q x y ->
    meets (TArr l) (TArr l') (Elem i :: q) x y.
(** The member of [a] at [q] is missing in [b], or it is an element of an array whose
    length differs. *)
Definition gone (a b : tson) (q : list step) : Prop :=
  (exists q0 k m m', q = q0 ++ [Key k] ∧ meets a b q0 (TObj m) (TObj m') ∧ is_Some (alookup k m) ∧ alookup k m' = None) ∨
  (exists q0 i l l', q = q0 ++ [Elem i] ∧ meets a b q0 (TArr l) (TArr l') ∧ length l <> length l' ∧ (i < length l)%nat).
(** A block of consecutive elements. *)
Definition block {A} (s l : list A) : Prop := exists l1 l2, l = l1 ++ s ++ l2.

(** The operation with the leading slash of its path removed. *)
Definition unslash (p : operation) : operation :=
  Op (op_kind p) (match op_path p with String _ rest => rest | EmptyString => EmptyString end) (op_value p) (op_ts p).
(** All names are non-empty and have no "/" and ".". *)
Inductive well_named : tson -> Prop :=
| wn_nil : well_named TNil
| wn_leaf x ts : well_named (TLeaf x ts)
| wn_obj m : Forall (fun kv => (fst kv <> "" ∧ plain (fst kv)) ∧ well_named (snd kv)) m -> well_named (TObj m)
| wn_arr l : Forall well_named l -> well_named (TArr l).
(** The new array has elements of the old one in their order and then further ones; an old
    element is dropped only if no equal one follows in the new array. *)
Inductive trimmed : list tson -> list tson -> Prop :=
| tr_end l' : trimmed [] l'
| tr_keep u v l l' : same_content u v -> trimmed l l' -> trimmed (u :: l) (v :: l')
| tr_drop u l l' : (forall v, v ∈ l' -> ~ same_content u v) -> trimmed l l' -> trimmed (u :: l) l'.
(** The arrays begin alike; from there on the new one has leaves only, and none that the old
    one has at the same index. *)
Inductive parted : list tson -> list tson -> Prop :=
| pa_keep u v l l' : same_content u v -> parted l l' -> parted (u :: l) (v :: l')
| pa_apart l l' : (forall v, v ∈ l' -> exists x ts, v = TLeaf x ts) ->
    (forall i u v, l !! i = Some u -> l' !! i = Some v -> ~ same_content u v) -> parted l l'.
(** Documents that differ in members, in elements of arrays of equal length that are no
    containers in the new one, and in arrays trimmed (or, for patches with timestamps, parted)
    as above. *)
Inductive bridged (with_ts : bool) : tson -> tson -> Prop :=
| br_scalar a b : ~ container b -> bridged with_ts a b
| br_arr l l' : Forall2 (fun u v => ~ container v ∨ if with_ts then same_content u v else same_values u v) l l' ->
    Z.of_nat (length l) <= int64_max -> bridged with_ts (TArr l) (TArr l')
| br_uneven l l' : length l <> length l' -> (if with_ts then parted l l' else trimmed l l') ->
    Z.of_nat (length l) <= int64_max -> Z.of_nat (length l') <= int64_max -> bridged with_ts (TArr l) (TArr l')
| br_obj m m' : (forall k u v, alookup k m = Some u -> alookup k m' = Some v -> bridged with_ts u v) ->
    bridged with_ts (TObj m) (TObj m').
(** Well-formed, and without NaN. *)
Definition fine (t : tson) : Prop := wf t ∧ nan_free t.
(** Member [k] has the same values in both objects, or is missing in both. *)
Definition member_same (m m' : list (string * tson)) (k : string) : Prop :=
  match alookup k m, alookup k m' with
  | Some u, Some v => same_values u v
  | None, None => True
  | _, _ => False
  end.

(** Documents with the same members and elements, whose leaves at one place have one type. *)
Inductive same_frame : tson -> tson -> Prop :=
| sr_nil : same_frame TNil TNil
| sr_str s s' ts ts' : same_frame (TLeaf (PStr s) ts) (TLeaf (PStr s') ts')
| sr_num f f' ts ts' : same_frame (TLeaf (PNum f) ts) (TLeaf (PNum f') ts')
| sr_bool b b' ts ts' : same_frame (TLeaf (PBool b) ts) (TLeaf (PBool b') ts')
| sr_arr l l' : Forall2 same_frame l l' -> same_frame (TArr l) (TArr l')
| sr_obj m m' : (forall k, is_Some (alookup k m) <-> is_Some (alookup k m')) ->
    (forall k u v, alookup k m = Some u -> alookup k m' = Some v -> same_frame u v) -> same_frame (TObj m) (TObj m').
(** The operation that replaces the leaf at [q]. *)
Definition replacing (q : list step) (y : prim) (ts : Z) (p : operation) : Prop :=
  op_kind p = OReplace ∧ op_path p = written q ∧ payload (op_value p) y ∧ op_ts p = ts.
