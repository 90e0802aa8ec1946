(** Small specifications for the document operations: agreement of documents, addressed
    nodes, collected timestamps, plain JSON. *)
From Verif Require Import Base BaseSpec F64 Tson TsonInd.

(** Go's [==] on leaf payloads: numbers by float comparison (so -0 equals 0). *)
Definition prim_eq (p q : prim) : Prop :=
  match p, q with
  | PStr s, PStr s' => s = s'
  | PNum f, PNum g => f64_eq f g = true
  | PBool b, PBool c => b = c
  | _, _ => False
  end.

(** Same structure and values, up to member order, with timestamps related by [R]. *)
Inductive agree (R : Z -> Z -> Prop) : tson -> tson -> Prop :=
| ag_nil : agree R TNil TNil
| ag_leaf p q ts ts' : prim_eq p q -> R ts ts' -> agree R (TLeaf p ts) (TLeaf q ts')
| ag_arr l l' : Forall2 (agree R) l l' -> agree R (TArr l) (TArr l')
| ag_obj m m' m'' :
    m ≡ₚ m' -> Forall2 (fun a b => fst a = fst b ∧ agree R (snd a) (snd b)) m' m'' ->
    agree R (TObj m) (TObj m'').
(** Values and timestamps agree. *)
Definition same_content : tson -> tson -> Prop := agree eq.
(** Values agree, timestamps are free. *)
Definition same_values : tson -> tson -> Prop := agree (fun _ _ => True).

Definition container (t : tson) : Prop := (exists m, t = TObj m) ∨ (exists l, t = TArr l).

(** All timestamps of a document. *)
Fixpoint stamps (t : tson) : list Z :=
  match t with
  | TNil => []
  | TLeaf _ ts => [ts]
  | TObj m => concat (map (fun kv => stamps (snd kv)) m)
  | TArr l => concat (map stamps l)
  end.

(** The node reached from [t] by member names and decimal indices. *)
Inductive node_at : tson -> list string -> tson -> Prop :=
| na_here t : node_at t [] t
| na_member m k v ks r : (k, v) ∈ m -> node_at v ks r -> node_at (TObj m) (k :: ks) r
| na_element l k i v ks r :
    int_text k (Z.of_nat i) -> l !! i = Some v -> node_at v ks r ->
    node_at (TArr l) (k :: ks) r.

(** The RFC 6901 pointer of a list of keys. *)
Fixpoint pointer (ks : list string) : string :=
  match ks with
  | [] => ""
  | k :: ks' => "/" +++ escaped k +++ pointer ks'
  end.

(** [k] is made of the parts [ps], which have no slashes, with slashes between them. *)
Definition parted (k : string) (ps : list string) : Prop :=
  k = String.concat "/" ps ∧ ps <> [] ∧ Forall (fun p => ~ exists a b, p = a +++ "/" +++ b) ps.
Definition contains_slash (k : string) : Prop := exists a b, k = a +++ String slash b.

(** ** JSON *)
Inductive jwf : json -> Prop :=
| jwf_null : jwf JNull
| jwf_bool b : jwf (JBool b)
| jwf_num f : jwf (JNum f)
| jwf_str s : jwf (JStr s)
| jwf_arr l : Forall jwf l -> jwf (JArr l)
| jwf_obj m : NoDup (akeys m) -> Forall (fun kv => jwf (snd kv)) m -> jwf (JObj m).

(** The same JSON data up to member order. *)
Inductive same_json : json -> json -> Prop :=
| sj_null : same_json JNull JNull
| sj_bool b : same_json (JBool b) (JBool b)
| sj_num f : same_json (JNum f) (JNum f)
| sj_str s : same_json (JStr s) (JStr s)
| sj_arr l l' : Forall2 same_json l l' -> same_json (JArr l) (JArr l')
| sj_obj m m' m'' :
    m ≡ₚ m' -> Forall2 (fun a b => fst a = fst b ∧ same_json (snd a) (snd b)) m' m'' ->
    same_json (JObj m) (JObj m'').

Definition jcontainer (j : json) : Prop := (exists m, j = JObj m) ∨ (exists l, j = JArr l).
Definition jscalar (j : json) : bool :=
  match j with JBool _ | JNum _ | JStr _ => true | _ => false end.

(** No null anywhere. *)
Fixpoint jnull_free (j : json) : bool :=
  match j with
  | JNull => false
  | JArr l => forallb jnull_free l
  | JObj m => forallb (fun kv => jnull_free (snd kv)) m
  | _ => true
  end.
(** Some member or element is a scalar. *)
Fixpoint scalar_inside (j : json) : bool :=
  match j with
  | JArr l => existsb (fun v => jscalar v || scalar_inside v) l
  | JObj m => existsb (fun kv => jscalar (snd kv) || scalar_inside (snd kv)) m
  | _ => false
  end.

(** The document with every timestamp dropped. *)
Fixpoint plain_json (t : tson) : json :=
  match t with
  | TNil => JNull
  | TLeaf p _ => json_of_prim p
  | TObj m => JObj (map (fun kv => (fst kv, plain_json (snd kv))) m)
  | TArr l => JArr (map plain_json l)
  end.

(** ** Reading compatible TSON *)
(** [z] is the number (-1)^s * m * 2^e without its fraction. *)
Definition int_part (s : bool) (m : positive) (e z : Z) : Prop :=
  exists a, z = (if s then - a else a)
    ∧ a * 2 ^ Z.max 0 (- e) <= Z.pos m * 2 ^ Z.max 0 e < (a + 1) * 2 ^ Z.max 0 (- e).
(** The timestamp read from a number; what int64 cannot hold becomes its least value. *)
Inductive read_stamp : f64 -> Z -> Prop :=
| rs_zero s : read_stamp (S754_zero s) 0
| rs_int s m e z : int_part s m e z -> - 2 ^ 63 <= z < 2 ^ 63 -> read_stamp (S754_finite s m e) z
| rs_big s m e z : int_part s m e z -> ~ (- 2 ^ 63 <= z < 2 ^ 63) -> read_stamp (S754_finite s m e) (- 2 ^ 63)
| rs_inf s : read_stamp (S754_infinity s) (- 2 ^ 63)
| rs_nan : read_stamp S754_nan (- 2 ^ 63).
(** An object with the two members "value" and "timestamp", the latter a number, and no others. *)
Definition leaf_shape (m : list (string * json)) (v : json) (f : f64) : Prop :=
  m ≡ₚ [("value", v); ("timestamp", JNum f)].
Inductive reads : json -> tson -> Prop :=
| rd_leaf m p f ts : leaf_shape m (json_of_prim p) f -> read_stamp f ts -> reads (JObj m) (TLeaf p ts)
| rd_bad m v f : leaf_shape m v f -> v = JNull ∨ jcontainer v -> reads (JObj m) TNil
| rd_obj m ms : (forall v f, ~ leaf_shape m v f) ->
    Forall2 (fun a b => fst a = fst b ∧ reads (snd a) (snd b)) m ms -> reads (JObj m) (TObj ms)
| rd_arr l ls : Forall2 reads l ls -> reads (JArr l) (TArr ls).
(** Some scalar or null is not the value or timestamp of a leaf. *)
Inductive stray : json -> Prop :=
| sy_here j : ~ jcontainer j -> stray j
| sy_member m k v : (forall v f, ~ leaf_shape m v f) -> (k, v) ∈ m -> stray v -> stray (JObj m)
| sy_elem l v : v ∈ l -> stray v -> stray (JArr l).
