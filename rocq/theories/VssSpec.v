(** What the vehicle data generator should do, stated on the data. *)
From stdpp Require Import pretty.
From Verif Require Import Base BaseSpec TjsonSpec F64 Bytes Vss.

Definition is_map (d : wjson) : Prop := exists m, d = WObj m.
(** Every name in [d] satisfies [P], and the members of a map have different names. *)
Inductive keyed (P : string -> Prop) : wjson -> Prop :=
| ky_obj m : NoDup (map fst m) -> Forall (fun kv => P (fst kv) ∧ keyed P (snd kv)) m -> keyed P (WObj m)
| ky_arr l : Forall (keyed P) l -> keyed P (WArr l)
| ky_scalar d : ~ is_map d -> (forall l, d ≠ WArr l) -> keyed P d.

(** [item d l x]: the data [x] is found in [d] below the names [l]. *)
Inductive item : wjson -> list string -> wjson -> Prop :=
| it_here d : item d [] d
| it_in m k v l x : (k, v) ∈ m -> item v l x -> item (WObj m) (k :: l) x.
(** The names of metadata. *)
Definition metadata : list string := ["description"; "uuid"; "type"; "comment"; "deprecated"; "deprecation"].
(** The same, when members named by [keys] are ignored in all maps that do not consist of maps
    only. *)
Inductive kept (keys : list string) : wjson -> list string -> wjson -> Prop :=
| kp_here d : kept keys d [] d
| kp_in m k v l x : (k, v) ∈ m -> k ∉ keys ∨ (forall kv, kv ∈ m -> is_map (snd kv)) -> kept keys v l x ->
    kept keys (WObj m) (k :: l) x.

(** [leaf_at d l x]: [x] is found below the names [l]; it is no map or has a timestamp, and no map
    around it has one. *)
Definition stamped (d : wjson) : Prop := exists m, d = WObj m ∧ "timestamp" ∈ map fst m.
Inductive leaf_at : wjson -> list string -> wjson -> Prop :=
| la_here d : ~ is_map d ∨ stamped d -> leaf_at d [] d
| la_in m k v l x : ~ stamped (WObj m) -> (k, v) ∈ m -> leaf_at v l x -> leaf_at (WObj m) (k :: l) x.

(** The path of a leaf: its names, without "children" except at the front. *)
Definition visible (l : list string) : list string :=
  match l with
  | [] => []
  | k :: l' => k :: List.filter (fun n => negb (String.eqb n "children")) l'
  end.
Definition dotted (l : list string) : string := String.concat "." (visible l).
(** A name that survives in such a path. *)
Definition clear_name (k : string) : Prop := k ≠ "" ∧ k ≠ "children" ∧ free_of ["."%char] k.
(** A name in brackets, such as [\[3\]]. *)
Definition index_name (k : string) : Prop := exists s, k = "[" +++ s +++ "]".

(** ** Random numbers *)
(** A number [rand.Float64()] can return: a multiple of 2^-53 below 1. *)
Inductive unit_float : f64 -> Prop :=
| uf_zero : unit_float (S754_zero false)
| uf_more m e : 2 ^ 52 <= Z.pos m < 2 ^ 53 -> -105 <= e <= -53 -> unit_float (S754_finite false m e).
(** The numbers drawn are those [math/rand] can return. *)
Definition fair (D : draws) : Prop :=
  (forall n, unit_float (d_float D n)) ∧ (forall n b, 0 < b -> 0 <= d_int D n b < b).
(** At least 0 and below 100. *)
Definition below_hundred (f : f64) : Prop := SFleb (S754_zero false) f = true ∧ SFltb f (f64_of_Z 100) = true.

(** ** Generate *)
(** A name that is one piece of a dotted path. *)
Definition schema_name (k : string) : Prop := k ≠ "" ∧ free_of ["."%char] k.
(** The attribute [n] of the node [ns] of the schema [d]. *)
Definition attr (d : wjson) (ns : list string) (n : string) (x : wjson) : Prop :=
  exists l, leaf_at d l x ∧ visible l = ns ++ [n].
Definition node (d : wjson) (ns : list string) : Prop := exists n x, attr d ns n x.
(** A schema: every attribute belongs to a node, has a path of its own, and no node is below
    another one. *)
Record schema (d : wjson) : Prop := Schema {
  sc_map : is_map d;
  sc_names : keyed schema_name d;
  sc_deep : forall l x, leaf_at d l x -> (2 <= length (visible l))%nat;
  sc_distinct : forall l l' x x', leaf_at d l x -> leaf_at d l' x' -> visible l = visible l' -> l = l';
  sc_flat : forall ns ns', node d ns -> node d ns' -> ns `prefix_of` ns' -> ns = ns';
  sc_allowed : forall ns x, attr d ns "allowed" x -> exists v l, x = WArr (v :: l) }.

(** The value [v] with the timestamp [ts]. *)
Definition reading (v : wjson) (ts : Z) : wjson := WObj [("value", v); ("timestamp", WInt ts)].
Definition sample (s : string) : Prop := exists n : nat, (1 <= n <= 20)%nat ∧ s = "TEST_STRING_VALUE_" +++ pretty n.
Inductive in_range : string -> wjson -> Prop :=
| ir_float t f : t ∈ ["float"; "double"] -> below_hundred f -> in_range t (WNum f)
| ir_int t z : t ∈ ["int16"; "int32"] -> -100 <= z <= 100 -> in_range t (WInt z)
| ir_uint t z : t ∈ ["uint8"; "uint16"; "uint32"] -> 0 <= z <= 100 -> in_range t (WInt z)
| ir_string s : sample s -> in_range "string" (WStr s).
(** What a node with the attributes [A] may get at the time [ts]. *)
Definition direct (A : string -> wjson -> Prop) : Prop :=
  A "datatype" (WStr "boolean") ∨ A "datatype" (WStr "int8") ∨ A "datatype" (WStr "uint8")
  ∨ (A "datatype" (WStr "float") ∧ A "unit" (WStr "percent")).
Inductive fits (A : string -> wjson -> Prop) (ts : Z) : wjson -> Prop :=
| ft_bool b : A "datatype" (WStr "boolean") -> fits A ts (reading (WBool b) ts)
| ft_small t z : t ∈ ["int8"; "uint8"] -> A "datatype" (WStr t) -> 0 <= z < 100 -> fits A ts (reading (WInt z) ts)
| ft_percent f : A "datatype" (WStr "float") -> A "unit" (WStr "percent") -> below_hundred f ->
    fits A ts (reading (WNum f) ts)
| ft_allowed l v : ~ direct A -> A "allowed" (WArr l) -> v ∈ l -> fits A ts (reading v ts)
| ft_value t v : ~ direct A -> (forall x, ~ A "allowed" x) -> A "datatype" (WStr t) -> in_range t v ->
    fits A ts (reading v ts)
| ft_array t l : (forall x, ~ A "allowed" x) -> t ∈ ["float"; "string"; "uint8"] -> A "datatype" (WStr (t +++ "[]")) ->
    (1 <= length l <= 5)%nat -> Forall (fun x => exists v, in_range t v ∧ x = reading v ts) l -> fits A ts (WArr l)
| ft_none : (forall x, ~ A "allowed" x) -> (forall x, A "datatype" x -> x = WNull) -> fits A ts (reading WNull ts).
Definition datatypes : list string :=
  ["boolean"; "int8"; "uint8"; "float"; "double"; "int16"; "int32"; "uint16"; "uint32"; "string";
   "float[]"; "string[]"; "uint8[]"].
Definition known (A : string -> wjson -> Prop) : Prop :=
  (exists x, A "allowed" x) ∨ forall x, A "datatype" x -> x = WNull ∨ exists t, t ∈ datatypes ∧ x = WStr t.

(** ** GenerateNext *)
Definition plain_value (v : wjson) : Prop :=
  match v with WBool _ | WNum _ | WInt _ | WStr _ => True | _ => False end.
Definition has_value (x v : wjson) : Prop := exists m, x = WObj m ∧ ("value", v) ∈ m.
(** A leaf of a data set: a plain value with a timestamp, or an array of such. *)
Definition data_leaf (x : wjson) : Prop :=
  (exists v, has_value x v ∧ plain_value v) ∨ (exists l, x = WArr l ∧ Forall (fun y => exists v, has_value y v) l).
Record dataset (d : wjson) : Prop := Dataset {
  ds_map : is_map d;
  ds_open : ~ stamped d;
  ds_names : keyed schema_name d;
  ds_visible : forall l x, leaf_at d l x -> visible l = l;
  ds_leaf : forall l x, leaf_at d l x -> data_leaf x }.
(** A schema whose nodes all get data: the datatypes are known, and the values allowed are plain. *)
Definition typed (d : wjson) : Prop := forall ns, node d ns ->
  (exists t, t ∈ datatypes ∧ attr d ns "datatype" (WStr t)) ∧ (forall l, attr d ns "allowed" (WArr l) -> Forall plain_value l).
(** The value that replaces [v]. *)
Inductive similar : wjson -> wjson -> Prop :=
| si_bool b : similar (WBool b) (WBool (negb b))
| si_str s s' : sample s' -> similar (WStr s) (WStr s')
| si_int z z' : -100 <= z' <= 100 -> similar (WInt z) (WInt z')
| si_num f f' : below_hundred f' -> similar (WNum f) (WNum f').
(** [moved c m r ts x x']: the leaf [x] becomes [x'] at the time [ts], where [c] and [m] are the
    rates of change and renewal and [r] the number drawn for the leaf. *)
Inductive moved (c m r : f64) (ts : Z) : wjson -> wjson -> Prop :=
| mv_array l l' : Forall2 (fun x x' => exists v, has_value x v ∧ x' = reading v ts) l l' -> moved c m r ts (WArr l) (WArr l')
| mv_changed x v v' : SFltb r c = true -> has_value x v -> similar v v' -> moved c m r ts x (reading v' ts)
| mv_renewed x v : SFltb r c = false -> SFltb r (SFadd f64_prec f64_emax c m) = true -> has_value x v ->
    moved c m r ts x (reading v ts)
| mv_kept x : is_map x -> SFltb r c = false -> SFltb r (SFadd f64_prec f64_emax c m) = false -> moved c m r ts x x.
(** Any number of rounds of GenerateNext, each with its own random numbers and time. *)
Inductive rounds (c m : f64) : wjson -> wjson -> Prop :=
| ro_none d : rounds c m d d
| ro_more R ts d d' e : (forall p, fair (R p)) -> next_data c m R ts (Vss true d) = Ok d' -> rounds c m d' e -> rounds c m d e.
(** The leaves hold values of one type; arrays hold the same values. *)
Inductive same_type : wjson -> wjson -> Prop :=
| sy_bool x y b b' : has_value x (WBool b) -> has_value y (WBool b') -> same_type x y
| sy_num x y f f' : has_value x (WNum f) -> has_value y (WNum f') -> same_type x y
| sy_int x y z z' : has_value x (WInt z) -> has_value y (WInt z') -> same_type x y
| sy_str x y s s' : has_value x (WStr s) -> has_value y (WStr s') -> same_type x y
| sy_arr l l' : Forall2 (fun x y => exists v, has_value x v ∧ has_value y v) l l' -> same_type (WArr l) (WArr l').
