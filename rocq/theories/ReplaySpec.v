(** Small specifications for logs over an object document. *)
From Verif Require Import Base F64 Tson TsonSpec Heap HeapSpec Patch PatchSpec Logument LogSpec.

(** Applying [ops], in order, to an unshared object document with content [t] succeeds and
    leaves content [t']. *)
Definition applied (t : tson) (ops : list operation) (t' : tson) : Prop :=
  exists h l h' r, doc_of h (VObj l) t ∧ apply_patch h (VObj l) ops = (h', Ok r) ∧ doc_of h' (VObj l) t'.

(** Calls that store, commit, or take snapshots of versions from [k] on, going upwards. *)
Fixpoint ascending (k : N) (cs : list call) : Prop :=
  match cs with
  | [] => True
  | CSnapshot v :: cs' => (k <= v)%N ∧ ascending v cs'
  | (CStore _ | CAppend | CTemporalTrack _ _) :: cs' => ascending k cs'
  | _ => False
  end.
(** The patch of version [v] has an operation; version 0 needs none. *)
Definition has_ops (L : logument) (v : N) : Prop := v <> 0%N -> patch_at L v <> [].

(** The leaf holds the value of an operation.  An [int] value equals no leaf: numbers in
    documents are float64. *)
Inductive leaf_shows : any -> tson -> Prop :=
| ls_str s ts : leaf_shows (AStr s) (TLeaf (PStr s) ts)
| ls_num f g ts : f64_eq f g = true -> leaf_shows (ANum g) (TLeaf (PNum f) ts)
| ls_bool b ts : leaf_shows (ABool b) (TLeaf (PBool b) ts).

(** The snapshot of version [u] has no timestamp after [ts]. *)
Definition by_time (h : heap) (L : logument) (ts : Z) (u : N) : Prop :=
  exists s t z, l_snapshots L !! u = Some s ∧ read h s = Some t ∧ latest_timestamp t = Ok z ∧ z <= ts.
Definition snapped (L : logument) (u : N) : Prop := is_Some (l_snapshots L !! u).
(** [w] is the last version such that it and all earlier snapshots are from times up to
    [ts]; version 0 if there is none. *)
Definition chosen (h : heap) (L : logument) (ts : Z) (w : N) : Prop :=
  (w = 0%N ∧ ¬ by_time h L ts 0) ∨
  (snapped L w ∧ (forall u, snapped L u -> (u <= w)%N -> by_time h L ts u) ∧
   (forall u, snapped L u -> (w < u)%N -> exists u', snapped L u' ∧ (w < u' <= u)%N ∧ ¬ by_time h L ts u')).
(** [sel] has, for every path with an operation up to [ts], exactly one, and it is a latest one. *)
Definition latest_per_path (ts : Z) (ops sel : list operation) : Prop :=
  NoDup (map op_path sel) ∧
  (forall p, p ∈ sel -> p ∈ ops ∧ op_ts p <= ts ∧
     forall q, q ∈ ops -> op_path q = op_path p -> op_ts q <= ts -> op_ts q <= op_ts p) ∧
  (forall q, q ∈ ops -> op_ts q <= ts -> exists p, p ∈ sel ∧ op_path p = op_path q).

(** The same document up to timestamps: same members in the same order, payloads equal
    or Go-equal. *)
Inductive alike : tson -> tson -> Prop :=
| al_nil : alike TNil TNil
| al_leaf p q ts ts' : p = q ∨ prim_eq p q -> alike (TLeaf p ts) (TLeaf q ts')
| al_arr l l' : Forall2 alike l l' -> alike (TArr l) (TArr l')
| al_obj m m' : Forall2 (fun a b => fst a = fst b ∧ alike (snd a) (snd b)) m m' -> alike (TObj m) (TObj m').

(** All operations write scalars to members that can be reached in [t]; two operations
    either have the same path or write to places neither of which contains the other. *)
Definition independent (t : tson) (ops : list operation) : Prop :=
  (forall p, p ∈ ops -> writes p ∧ (exists x, payload (op_value p) x) ∧
     exists ks, spells (op_path p) ks ∧ free_way t ks) ∧
  (forall p q ks ks', p ∈ ops -> q ∈ ops -> spells (op_path p) ks -> spells (op_path q) ks' ->
     op_path p = op_path q ∨ apart (keys ks) (keys ks')).
