(** What the experiment's queries should say, stated on the initial document and the updates. *)
From Verif Require Import Base BaseSpec F64 Tson TsonSpec Heap Patch PatchSpec Logument LogSpec Tjson TjsonSpec InitialSpec.

(** A name that stands for itself in a dotted patch path. *)
Definition path_name (k : string) : Prop := free_of ["/"; "."; "~"]%char k.
Definition both_name (k : string) : Prop := simple_name k ∧ path_name k.
(** [u] gives the scalar at [l] of the document a new scalar value. *)
Definition updates (m : list (string * json)) (u : tpatch) (l : list string) : Prop :=
  (tp_op u = "add" ∨ tp_op u = "replace") ∧ tp_path u = String.concat "." l ∧
  scalar (tp_value u) ∧ tp_value u ≠ JNull ∧
  exists v, below l (JObj m) = Some v ∧ scalar v.
(** [stands us l v t w z]: at the time [t] the scalar at [l], initially [v], has the value [w] with
    the timestamp [z]: the initial value (timestamp -1) as long as no update has come, then that of
    the latest update, which must be the only one at its time. *)
Inductive stands (us : list tpatch) (l : list string) (v : json) (t : Z) : json -> Z -> Prop :=
| std_initial : (forall u, u ∈ us -> tp_path u = String.concat "." l -> t < tp_ts u) ->
    stands us l v t v (-1)
| std_update u : u ∈ us -> tp_path u = String.concat "." l -> tp_ts u <= t ->
    (forall u', u' ∈ us -> tp_path u' = String.concat "." l -> tp_ts u' <= t -> u' = u ∨ tp_ts u' < tp_ts u) ->
    stands us l v t (tp_value u) (tp_ts u).
(** The place [q] of a document is neither inside nor around a scalar updated by the time [t]. *)
Definition untouched (us : list tpatch) (m : list (string * json)) (t : Z) (q : list step) : Prop :=
  forall u l, u ∈ us -> tp_ts u <= t -> updates m u l -> apart (keys l) q.
(** The document [d] shows the state at the time [t]: every scalar what stands, the rest as in
    [d0]. *)
Definition state_at (m : list (string * json)) (d0 : tson) (us : list tpatch) (t : Z) (d : tson) : Prop :=
  (forall l v w z, below l (JObj m) = Some v -> scalar v -> stands us l v t w z ->
     exists x, at_path d (keys l) = Some (TLeaf x z) ∧ json_of_prim x = w) ∧
  (forall q, untouched us m t q -> at_path d q = at_path d0 q).

(** At most one update per path and time. *)
Definition distinct_times (us : list tpatch) (path : string) : Prop :=
  forall a u b u' c, us = a ++ u :: b ++ u' :: c -> tp_path u = path -> tp_path u' = path -> tp_ts u ≠ tp_ts u'.
(** In the window an update on [path] at the time [z] sets a number above the threshold, and the
    update before it in the window, if there is one, set a different value. *)
Definition event (us : list tpatch) (path : string) (s e : Z) (threshold : f64) (z : Z) : Prop :=
  exists u f, u ∈ us ∧ tp_path u = path ∧ tp_ts u = z ∧ s <= z <= e ∧
    tp_value u = JNum f ∧ SFltb threshold f = true ∧
    forall u', u' ∈ us -> tp_path u' = path -> s <= tp_ts u' < z ->
      (forall u'', u'' ∈ us -> tp_path u'' = path -> ~ tp_ts u' < tp_ts u'' < z) ->
      ~ same_json (tp_value u') (tp_value u).
(** Every update of the scalar at [l] changes what stood just before it. *)
Definition changing (us : list tpatch) (l : list string) (v : json) : Prop :=
  forall u w z, u ∈ us -> tp_path u = String.concat "." l -> stands us l v (tp_ts u - 1) w z -> ~ alike w (tp_value u).
(** The operations of a list on [path] in the window. *)
Definition on_path (path : string) (s e : Z) (p : operation) : Prop := op_path p = path ∧ s <= op_ts p <= e.
#[global] Instance on_path_dec path s e p : Decision (on_path path s e p).
Proof. unfold on_path. apply _. Defined.
(** An operation setting a number above the threshold. *)
Definition over (threshold : f64) (p : operation) : Prop :=
  match op_value p with ANum f => SFltb threshold f = true | _ => False end.
#[global] Instance over_dec threshold p : Decision (over threshold p).
Proof. unfold over. destruct (op_value p); apply _. Defined.
