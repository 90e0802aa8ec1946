(** When no patch can be generated. *)
From Verif Require Import Base F64 Tson TsonInd TsonSpec.

Definition is_leaf (t : tson) : Prop := exists x ts, t = TLeaf x ts.
(** Both null, both objects, both arrays, or leaves of one type. *)
Inductive same_kind : tson -> tson -> Prop :=
| sk_nil : same_kind TNil TNil
| sk_str s s' ts ts' : same_kind (TLeaf (PStr s) ts) (TLeaf (PStr s') ts')
| sk_num f f' ts ts' : same_kind (TLeaf (PNum f) ts) (TLeaf (PNum f') ts')
| sk_bool b b' ts ts' : same_kind (TLeaf (PBool b) ts) (TLeaf (PBool b') ts')
| sk_obj m m' : same_kind (TObj m) (TObj m')
| sk_arr l l' : same_kind (TArr l) (TArr l').
(** Each element of [l'] that is no leaf has an equal element of [l] for itself. *)
Definition reused (l l' : list tson) : Prop :=
  exists f : nat -> nat,
    (forall j v, l' !! j = Some v -> ~ is_leaf v -> exists u, l !! f j = Some u ∧ same_content u v) ∧
    (forall j j' v v', l' !! j = Some v -> l' !! j' = Some v' -> ~ is_leaf v -> ~ is_leaf v' -> f j = f j' -> j = j').
(** The elements of [l'] beyond the end of [l] are leaves. *)
Definition plain_tail (l l' : list tson) : Prop :=
  forall j v, (length l <= j)%nat -> l' !! j = Some v -> is_leaf v.

(** [obstacle ts broken a b]: there is a place in [a] and [b] for which no operation can be
    generated.  It makes the diff panic if [broken] and fail otherwise; [ts] tells whether
    timestamps are compared. *)
Inductive obstacle (ts : bool) : bool -> tson -> tson -> Prop :=
| ob_leaf x t b : ~ same_kind (TLeaf x t) b -> obstacle ts true (TLeaf x t) b
| ob_obj m b : ~ same_kind (TObj m) b -> obstacle ts true (TObj m) b
| ob_arr l b : ~ same_kind (TArr l) b -> ~ is_leaf b -> obstacle ts false (TArr l) b
| ob_nil b : container b -> obstacle ts false TNil b
| ob_gone m m' k : alookup k m = Some TNil -> alookup k m' = None -> obstacle ts true (TObj m) (TObj m')
| ob_new m m' k v : alookup k m = None -> alookup k m' = Some v -> ~ is_leaf v -> obstacle ts false (TObj m) (TObj m')
| ob_turned m m' k u v : alookup k m = Some u -> alookup k m' = Some v -> ~ same_kind u v -> ~ is_leaf v ->
    obstacle ts false (TObj m) (TObj m')
| ob_member br m m' k u v : alookup k m = Some u -> alookup k m' = Some v -> same_kind u v -> obstacle ts br u v ->
    obstacle ts br (TObj m) (TObj m')
| ob_elem br l l' i u v : length l = length l' -> l !! i = Some u -> l' !! i = Some v -> obstacle ts br u v ->
    obstacle ts br (TArr l) (TArr l')
| ob_length l l' : length l ≠ length l' -> ~ (if ts then plain_tail l l' else reused l l') ->
    obstacle ts true (TArr l) (TArr l').
