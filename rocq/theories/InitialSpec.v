(** What the initial patches should say, stated on the JSON document. *)
From stdpp Require Import pretty.
From Verif Require Import Base BaseSpec F64 Tson TsonSpec Tjson TjsonSpec.

(** [place j l n]: the node [n] is found in [j] below the names [l]; elements of arrays have
    their index as a name. *)
Inductive place : json -> list string -> json -> Prop :=
| pl_here j : place j [] j
| pl_member m k v l n : (k, v) ∈ m -> place v l n -> place (JObj m) (k :: l) n
| pl_element xs i v l n : xs !! i = Some v -> place v l n -> place (JArr xs) (pretty i :: l) n.

Definition scalar (j : json) : Prop := ~ jcontainer j.

(** The value of the initial patch on a node: a scalar itself, and the scalar members of an
    object that has any.  There is none on an array. *)
Inductive content : json -> json -> Prop :=
| ct_scalar j : scalar j -> content j j
| ct_object m c : c ≠ [] -> sublist c m -> (forall kv, kv ∈ m -> kv ∈ c <-> scalar (snd kv)) ->
    content (JObj m) (JObj c).

(** Every member name satisfies [P], and the members of an object have different names. *)
Inductive named (P : string -> Prop) : json -> Prop :=
| nd_scalar j : scalar j -> named P j
| nd_arr l : Forall (named P) l -> named P (JArr l)
| nd_obj m : NoDup (map fst m) -> Forall P (map fst m) -> Forall (fun kv => named P (snd kv)) m ->
    named P (JObj m).
Definition nonempty (k : string) : Prop := k ≠ "".
(** A name that survives in a dotted path. *)
Definition simple_name (k : string) : Prop := k ≠ "" ∧ free_of ["/"; "."]%char k.

(** No object has the two members "timestamp" and "value". *)
Inductive unstamped : tson -> Prop :=
| us_nil : unstamped TNil
| us_leaf p ts : unstamped (TLeaf p ts)
| us_arr l : Forall unstamped l -> unstamped (TArr l)
| us_obj m : ~ ("timestamp" ∈ map fst m ∧ "value" ∈ map fst m) ->
    Forall (fun kv => unstamped (snd kv)) m -> unstamped (TObj m).
Inductive unstamped_json : json -> Prop :=
| uj_scalar j : scalar j -> unstamped_json j
| uj_arr l : Forall unstamped_json l -> unstamped_json (JArr l)
| uj_obj m : ~ ("timestamp" ∈ map fst m ∧ "value" ∈ map fst m) ->
    Forall (fun kv => unstamped_json (snd kv)) m -> unstamped_json (JObj m).

(** The file [j] without its timestamps: an object with the members "timestamp" and "value" stands
    for its value, and for "" if that is null. *)
Inductive stripped : json -> json -> Prop :=
| st_scalar j : scalar j -> stripped j j
| st_arr l l' : Forall2 stripped l l' -> stripped (JArr l) (JArr l')
| st_null m : "timestamp" ∈ map fst m -> ("value", JNull) ∈ m -> stripped (JObj m) (JStr "")
| st_leaf m v : "timestamp" ∈ map fst m -> ("value", v) ∈ m -> v ≠ JNull -> stripped (JObj m) v
| st_obj m m' : ~ ("timestamp" ∈ map fst m ∧ "value" ∈ map fst m) ->
    Forall2 (fun a b => fst a = fst b ∧ stripped (snd a) (snd b)) m m' -> stripped (JObj m) (JObj m').

(** The value at [l] at the time [t]: the initial value [v] as long as no update on [l] has come,
    otherwise that of the update that came last, if it is the only one at its time. *)
Inductive shown (us : list tpatch) (l : list string) (v : json) (t : Z) : json -> Prop :=
| sh_initial : (forall u, u ∈ us -> sets u l -> t < tp_ts u) -> shown us l v t v
| sh_update u : u ∈ us -> sets u l -> tp_ts u <= t ->
    (forall u', u' ∈ us -> sets u' l -> tp_ts u' <= t -> u' = u ∨ tp_ts u' < tp_ts u) ->
    shown us l v t (tp_value u).
