(** The Go heap seen by TSON documents that are edited in place. *)
From Verif Require Import Base F64 Tson.

Definition loc := nat.

(** A run-time [Value]: nil, a leaf struct, a map reference, or a slice.  A slice is a
    backing array and a length; every slice in the modelled code starts at offset 0 of
    its backing array, and the capacity is the length of the backing array. *)
Inductive val : Type :=
| VNil
| VLeaf (p : prim) (ts : Z)
| VObj (l : loc)
| VArr (l : loc) (n : nat).

(** Heap cells: the content of a map, or a backing array. *)
Inductive cell : Type :=
| CObj (m : list (string * val))
| CArr (b : list val).

Definition heap := list cell.

Definition obj_at (h : heap) (l : loc) : list (string * val) :=
  match h !! l with Some (CObj m) => m | _ => [] end.
Definition arr_at (h : heap) (l : loc) : list val :=
  match h !! l with Some (CArr b) => b | _ => [] end.

Definition alloc (h : heap) (c : cell) : heap * loc := (h ++ [c], length h).

(** [obj[k]]: nil when missing. *)
Definition get_key (h : heap) (l : loc) (k : string) : val :=
  default VNil (alookup k (obj_at h l)).
(** [obj[k] = v]. *)
Definition set_key (h : heap) (l : loc) (k : string) (v : val) : heap :=
  <[l := CObj (ainsert k v (obj_at h l))]> h.
(** [delete(obj, k)]. *)
Definition del_key (h : heap) (l : loc) (k : string) : heap :=
  <[l := CObj (adelete k (obj_at h l))]> h.
(** [arr[i]] and [arr[i] = v] with [i] in range. *)
Definition get_idx (h : heap) (l : loc) (i : nat) : val := default VNil (arr_at h l !! i).
Definition set_idx (h : heap) (l : loc) (i : nat) (v : val) : heap :=
  <[l := CArr (<[i := v]> (arr_at h l))]> h.

(** [make(tson.Array, n')] and [copy] of a slice of length [n] into it. *)
Definition extend (h : heap) (l : loc) (n n' : nat) : heap * loc :=
  alloc h (CArr (take n (arr_at h l) ++ replicate (n' - n) VNil)).

(** [append(arr[:i], arr[i+1:]...)] for [i < n]: the tail moves down inside the backing
    array; what lies behind the new end stays. *)
Definition remove_idx (h : heap) (l : loc) (n i : nat) : heap :=
  let b := arr_at h l in
  <[l := CArr (take i b ++ drop (S i) (take n b) ++ drop (n - 1) b)]> h.

(** Allocate a fresh copy of a document (what [Unmarshal] builds). *)
Fixpoint alloc_tree (h : heap) (t : tson) : heap * val :=
  match t with
  | TNil => (h, VNil)
  | TLeaf p ts => (h, VLeaf p ts)
  | TObj m =>
      let '(h1, kvs) :=
        (fix go (h : heap) (m : list (string * tson)) : heap * list (string * val) :=
           match m with
           | [] => (h, [])
           | (k, t) :: m' =>
               let '(h1, v) := alloc_tree h t in
               let '(h2, kvs) := go h1 m' in (h2, (k, v) :: kvs)
           end) h m in
      let '(h2, l) := alloc h1 (CObj kvs) in (h2, VObj l)
  | TArr ts =>
      let '(h1, vs) :=
        (fix go (h : heap) (ts : list tson) : heap * list val :=
           match ts with
           | [] => (h, [])
           | t :: ts' =>
               let '(h1, v) := alloc_tree h t in
               let '(h2, vs) := go h1 ts' in (h2, v :: vs)
           end) h ts in
      let '(h2, l) := alloc h1 (CArr vs) in (h2, VArr l (length vs))
  end.

(** Read a document as a tree; [None] when the recursion bound is hit (never for
    documents without cycles, see [read_doc]). *)
Fixpoint read_fuel (fuel : nat) (h : heap) (v : val) {struct fuel} : option tson :=
  match fuel with
  | O => None
  | S f =>
      match v with
      | VNil => Some TNil
      | VLeaf p ts => Some (TLeaf p ts)
      | VObj l =>
          m ← (fix go (m : list (string * val)) : option (list (string * tson)) :=
             match m with
             | [] => Some []
             | (k, v) :: m' => t ← read_fuel f h v; ts ← go m'; Some ((k, t) :: ts)
             end) (obj_at h l);
          Some (TObj m)
      | VArr l n =>
          ts ← (fix go (vs : list val) : option (list tson) :=
             match vs with
             | [] => Some []
             | v :: vs' => t ← read_fuel f h v; ts ← go vs'; Some (t :: ts)
             end) (take n (arr_at h l));
          Some (TArr ts)
      end
  end.
Definition read (h : heap) (v : val) : option tson := read_fuel (length h + 2) h v.
