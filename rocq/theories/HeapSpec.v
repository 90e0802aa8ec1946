(** Documents in memory without internal sharing. *)
From Verif Require Import Base F64 Tson Heap.

(** A document tree with the location of every container. *)
Inductive ltree : Type :=
| LNil
| LLeaf (p : prim) (ts : Z)
| LObj (l : loc) (m : list (string * ltree))
| LArr (l : loc) (xs : list ltree).

(** The Go value of a tree, its content, its locations. *)
Definition root (t : ltree) : val :=
  match t with
  | LNil => VNil
  | LLeaf p ts => VLeaf p ts
  | LObj l _ => VObj l
  | LArr l xs => VArr l (length xs)
  end.
Fixpoint erase (t : ltree) : tson :=
  match t with
  | LNil => TNil
  | LLeaf p ts => TLeaf p ts
  | LObj _ m => TObj (map (fun kv => (fst kv, erase (snd kv))) m)
  | LArr _ xs => TArr (map erase xs)
  end.
Fixpoint locs (t : ltree) : list loc :=
  match t with
  | LNil | LLeaf _ _ => []
  | LObj l m => l :: concat (map (fun kv => locs (snd kv)) m)
  | LArr l xs => l :: concat (map locs xs)
  end.
Definition roots (m : list (string * ltree)) : list (string * val) :=
  map (fun kv => (fst kv, root (snd kv))) m.
Definition erases (m : list (string * ltree)) : list (string * tson) :=
  map (fun kv => (fst kv, erase (snd kv))) m.

(** The heap holds the tree; behind an array's end there may be anything. *)
Inductive own (h : heap) : ltree -> Prop :=
| own_nil : own h LNil
| own_leaf p ts : own h (LLeaf p ts)
| own_obj l m : h !! l = Some (CObj (roots m)) -> Forall (fun kv => own h (snd kv)) m -> own h (LObj l m)
| own_arr l xs spare :
    h !! l = Some (CArr (map root xs ++ spare)) -> Forall (own h) xs -> own h (LArr l xs).

(** [v] is a document with content [t], and no part of it is shared. *)
Definition holds (h : heap) (lt : ltree) : Prop := own h lt ∧ NoDup (locs lt).
Definition doc_of (h : heap) (v : val) (t : tson) : Prop :=
  exists lt, holds h lt ∧ root lt = v ∧ erase lt = t.

(** Several documents that share nothing, neither inside nor with each other. *)
Definition docs_of (h : heap) (ds : list (val * tson)) : Prop :=
  exists lts, Forall (own h) lts ∧ NoDup (concat (map locs lts)) ∧
    map (fun lt => (root lt, erase lt)) lts = ds.
