(** JSON text written by encoding/json for documents.  The text is given as a tree with the
    members in written order; strings are assumed to be valid UTF-8. *)
From Verif Require Import Base F64 Tson.

Inductive wjson : Type :=
| WNull
| WBool (b : bool)
| WNum (f : f64)
| WInt (z : Z)
| WStr (s : string)
| WArr (l : list wjson)
| WObj (m : list (string * wjson)).

(** Go's [<] on strings, which [sort.Strings] and encoding/json use. *)
Fixpoint str_lt (s t : string) : bool :=
  match s, t with
  | _, EmptyString => false
  | EmptyString, _ => true
  | String a s', String b t' => if decide (a = b) then str_lt s' t' else N.ltb (N_of_ascii a) (N_of_ascii b)
  end.
(** The members of a Go map in the order of their sorted keys. *)
Fixpoint insert_member {V} (k : string) (v : V) (m : list (string * V)) : list (string * V) :=
  match m with
  | [] => [(k, v)]
  | (k', v') :: m' => if str_lt k k' then (k, v) :: m else (k', v') :: insert_member k v m'
  end.
Definition sort_members {V} (m : list (string * V)) : list (string * V) :=
  foldr (fun kv => insert_member (fst kv) (snd kv)) [] m.

Definition write_prim (p : prim) : wjson :=
  match p with PStr s => WStr s | PNum f => WNum f | PBool b => WBool b end.

(** [json.Marshal] of a document: struct fields in the order of their declaration
    (internal/tson/tson.go 44-47), map members by key. *)
Fixpoint json_written (t : tson) : wjson :=
  match t with
  | TNil => WNull
  | TLeaf p ts => WObj [("value", write_prim p); ("timestamp", WInt ts)]
  | TObj m => WObj (sort_members (map (fun kv => (fst kv, json_written (snd kv))) m))
  | TArr l => WArr (map json_written l)
  end.

(** [ToCompatibleTsonBytes] (internal/tson/tson.go 208-212). *)
Definition to_bytes (t : tson) : res wjson :=
  if encodable t then Ok (json_written t) else Err.

(** [json.Unmarshal] into [any]: every number becomes a float64. *)
Fixpoint unmarshal_any (w : wjson) : json :=
  match w with
  | WNull => JNull
  | WBool b => JBool b
  | WNum f => JNum f
  | WInt z => JNum (f64_of_Z z)
  | WStr s => JStr s
  | WArr l => JArr (map unmarshal_any l)
  | WObj m => JObj (map (fun kv => (fst kv, unmarshal_any (snd kv))) m)
  end.

(** [toSortedInterface] (internal/tson/tson.go 491-534).  The result's maps are written as
    lists in the order of insertion.  Members are converted in the order of the list
    instead of the order of their keys; only the choice of the reported error depends on
    that. *)
Fixpoint sorted_interface (t : tson) : res wjson :=
  match t with
  | TNil => Err
  | TLeaf p ts => Ok (WObj [("value", write_prim p); ("timestamp", WInt ts)])
  | TObj m =>
      do ms <- (fix go (m : list (string * tson)) : res (list (string * wjson)) :=
         match m with
         | [] => Ok []
         | (k, v) :: m' => do c <- sorted_interface v; do cs <- go m'; Ok ((k, c) :: cs)
         end) m;
      Ok (WObj (sort_members ms))
  | TArr l =>
      do ls <- (fix go (l : list tson) : res (list wjson) :=
         match l with
         | [] => Ok []
         | v :: l' => do c <- sorted_interface v; do cs <- go l'; Ok (c :: cs)
         end) l;
      Ok (WArr ls)
  end.

(** [json.Marshal] of maps, slices and scalars. *)
Fixpoint write_any (w : wjson) : wjson :=
  match w with
  | WArr l => WArr (map write_any l)
  | WObj m => WObj (sort_members (map (fun kv => (fst kv, write_any (snd kv))) m))
  | _ => w
  end.
Fixpoint any_encodable (w : wjson) : bool :=
  match w with
  | WNum f => f64_finite f
  | WArr l => forallb any_encodable l
  | WObj m => forallb (fun kv => any_encodable (snd kv)) m
  | _ => true
  end.

(** [ToCompatibleTsonBytesSorted] (internal/tson/tson.go 481-489). *)
Definition to_bytes_sorted (t : tson) : res wjson :=
  do v <- sorted_interface t; if any_encodable v then Ok (write_any v) else Err.

(** [parseValue], [parseObject], [parseArray], [parseLeaf] (internal/tson/tson.go 390-461) on
    decoded JSON.  They are not called by other functions of the package. *)
Fixpoint parse_value (j : json) : res tson :=
  match j with
  | JNull => Ok TNil
  | JObj m =>
      match check_leaf m with
      | Some (JStr s, ts) => Ok (TLeaf (PStr s) ts)
      | Some (JNum f, ts) => Ok (TLeaf (PNum f) ts)
      | Some (JBool b, ts) => Ok (TLeaf (PBool b) ts)
      | Some (_, _) => Err
      | None =>
          do ms <- (fix go (m : list (string * json)) : res (list (string * tson)) :=
             match m with
             | [] => Ok []
             | (k, v) :: m' => do t <- parse_value v; do ts <- go m'; Ok ((k, t) :: ts)
             end) m;
          Ok (TObj ms)
      end
  | JArr l =>
      do ls <- (fix go (l : list json) : res (list tson) :=
         match l with
         | [] => Ok []
         | v :: l' => do t <- parse_value v; do ts <- go l'; Ok (t :: ts)
         end) l;
      Ok (TArr ls)
  | _ => Err
  end.
