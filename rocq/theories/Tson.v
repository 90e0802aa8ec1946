(** TSON documents as trees, and the read-only operations and conversions of
    internal/tson/tson.go. *)
From Verif Require Import Base F64.

(** A leaf payload: [Leaf[string]], [Leaf[float64]], [Leaf[bool]]
    (internal/tson/tson.go 40-49). *)
Inductive prim : Type :=
| PStr (s : string)
| PNum (f : f64)
| PBool (b : bool).

#[global] Instance prim_eq_dec : EqDecision prim.
Proof. solve_decision. Defined.

(** [Value] (internal/tson/tson.go 24-49).  [TNil] is the nil interface.  The list of an
    object stands for the map together with one iteration order.  A nil map and a
    nil slice are not distinguished from empty ones. *)
Inductive tson : Type :=
| TNil
| TLeaf (p : prim) (ts : Z)
| TObj (m : list (string * tson))
| TArr (l : list tson).

(** [DefaultTimestamp] (internal/tson/tson.go 52). *)
Definition default_timestamp : Z := -1.

(** JSON data decoded into [any] by encoding/json: nil, bool, float64, string,
    []any, map[string]any. *)
Inductive json : Type :=
| JNull
| JBool (b : bool)
| JNum (f : f64)
| JStr (s : string)
| JArr (l : list json)
| JObj (m : list (string * json)).

(** ** GetValue *)

(** The inner [getValue] (internal/tson/tson.go 61-101).  With no part left the Go code
    indexes [parts[0]] of an empty slice and panics on containers. *)
Fixpoint get_parts (t : tson) (parts : list string) : res tson :=
  match parts with
  | [] => match t with TObj _ | TArr _ => Panic | _ => Err end
  | k :: rest =>
      match t with
      | TObj m =>
          match alookup k m with
          | None => Err
          | Some v => match rest with [] => Ok v | _ => get_parts v rest end
          end
      | TArr l =>
          match parse_int k with
          | None => Err
          | Some i =>
              if (i <? 0) || (Z.of_nat (length l) <=? i) then Err
              else match nth_error l (Z.to_nat i) with
                   | None => Err
                   | Some v => match rest with [] => Ok v | _ => get_parts v rest end
                   end
          end
      | _ => Err
      end
  end.

(** [GetValue] (internal/tson/tson.go 59-108): decode, split on "/", drop the first piece. *)
Definition get_value (t : tson) (path : string) : res tson :=
  get_parts t (tail (split_on slash (rfc_decode path))).

(** ** GetLatestTimestamp (internal/tson/tson.go 148-177) *)
Fixpoint latest_timestamp (t : tson) : res Z :=
  match t with
  | TNil => Panic
  | TLeaf _ ts => Ok ts
  | TObj m =>
      (fix go (acc : Z) (m : list (string * tson)) : res Z :=
         match m with
         | [] => Ok acc
         | (_, v) :: m' => do ts <- latest_timestamp v; go (if acc <? ts then ts else acc) m'
         end) 0 m
  | TArr l =>
      (fix go (acc : Z) (l : list tson) : res Z :=
         match l with
         | [] => Ok acc
         | v :: l' => do ts <- latest_timestamp v; go (if acc <? ts then ts else acc) l'
         end) 0 l
  end.

(** ** ToArray (internal/tson/tson.go 186-201) *)
Fixpoint to_array (l : list tson) : res (list prim) :=
  match l with
  | [] => Ok []
  | TLeaf p _ :: l' => do ps <- to_array l'; Ok (p :: ps)
  | _ :: _ => Err
  end.

(** ** Conversions *)

(** The JSON image of a scalar. *)
Definition json_of_prim (p : prim) : json :=
  match p with PStr s => JStr s | PNum f => JNum f | PBool b => JBool b end.

(** The JSON image of a leaf struct, decoded back into [any]: the int64 timestamp
    becomes a float64 (struct tags at internal/tson/tson.go 44-47). *)
Definition json_of_leaf (p : prim) (ts : Z) : json :=
  JObj [("value", json_of_prim p); ("timestamp", JNum (f64_of_Z ts))].

Fixpoint compat_image (t : tson) : json :=
  match t with
  | TNil => JNull
  | TLeaf p ts => json_of_leaf p ts
  | TObj m => JObj (map (fun kv => (fst kv, compat_image (snd kv))) m)
  | TArr l => JArr (map compat_image l)
  end.

(** encoding/json refuses NaN and infinities. *)
Definition prim_encodable (p : prim) : bool :=
  match p with PNum f => f64_finite f | _ => true end.
Fixpoint encodable (t : tson) : bool :=
  match t with
  | TNil => true
  | TLeaf p _ => prim_encodable p
  | TObj m => forallb (fun kv => encodable (snd kv)) m
  | TArr l => forallb encodable l
  end.
Fixpoint json_encodable (j : json) : bool :=
  match j with
  | JNum f => f64_finite f
  | JArr l => forallb json_encodable l
  | JObj m => forallb (fun kv => json_encodable (snd kv)) m
  | _ => true
  end.

(** [ToCompatibleTson] (internal/tson/tson.go 259-271): [json.Marshal] followed by
    [json.Unmarshal] into [any]; bytes are not modelled.  Strings are assumed to be
    valid UTF-8 (encoding/json replaces invalid bytes). *)
Definition to_compatible (t : tson) : res json :=
  if encodable t then Ok (compat_image t) else Err.

(** [checkLeaf] (internal/tson/tson.go 463-479) on decoded JSON, where every number is a
    float64. *)
Definition check_leaf (m : list (string * json)) : option (json * Z) :=
  if decide (length m = 2%nat) then
    match alookup "value" m, alookup "timestamp" m with
    | Some v, Some (JNum t) => Some (v, f64_to_int64 t)
    | _, _ => None
    end
  else None.

(** [convert] inside [FromCompatibleTsonBytes] (internal/tson/tson.go 217-247). *)
Fixpoint from_compatible (j : json) : res tson :=
  match j with
  | JObj m =>
      match check_leaf m with
      | Some (JStr s, ts) => Ok (TLeaf (PStr s) ts)
      | Some (JNum f, ts) => Ok (TLeaf (PNum f) ts)
      | Some (JBool b, ts) => Ok (TLeaf (PBool b) ts)
      | Some (_, _) => Ok TNil
      | None =>
          do ms <- (fix go (m : list (string * json)) : res (list (string * tson)) :=
             match m with
             | [] => Ok []
             | (k, v) :: m' => do t <- from_compatible v; do ts <- go m'; Ok ((k, t) :: ts)
             end) m;
          Ok (TObj ms)
      end
  | JArr l =>
      do ls <- (fix go (l : list json) : res (list tson) :=
         match l with
         | [] => Ok []
         | v :: l' => do t <- from_compatible v; do ts <- go l'; Ok (t :: ts)
         end) l;
      Ok (TArr ls)
  | _ => Panic
  end.

(** [removeTimestamp] inside [ToJson] (internal/tson/tson.go 277-318), on decoded JSON. *)
Fixpoint remove_timestamp (o : json) : json :=
  match o with
  | JObj m =>
      JObj (map (fun kv =>
        (fst kv,
         match snd kv with
         | JObj c => match check_leaf c with Some (v, _) => v | None => remove_timestamp (snd kv) end
         | _ => remove_timestamp (snd kv)
         end)) m)
  | JArr l =>
      JArr (map (fun v =>
         match v with
         | JObj c => match check_leaf c with Some (v', _) => v' | None => remove_timestamp v end
         | _ => remove_timestamp v
         end) l)
  | _ => o
  end.

(** [ToJson] (internal/tson/tson.go 275-324) into a nil [any].  The error of
    [ToCompatibleTson] is dropped, leaving nil. *)
Definition to_json (t : tson) : json :=
  match to_compatible t with Ok j => remove_timestamp j | _ => JNull end.

(** [addTimestamp] inside [FromJson] (internal/tson/tson.go 329-359); the [Leaf] structs it
    writes into the caller's containers are shown by their JSON image. *)
Fixpoint add_timestamp (o : json) : json :=
  match o with
  | JObj m =>
      JObj (map (fun kv =>
        (fst kv,
         match snd kv with
         | JStr s => json_of_leaf (PStr s) default_timestamp
         | JNum f => json_of_leaf (PNum f) default_timestamp
         | JBool b => json_of_leaf (PBool b) default_timestamp
         | _ => add_timestamp (snd kv)
         end)) m)
  | JArr l =>
      JArr (map (fun v =>
         match v with
         | JStr s => json_of_leaf (PStr s) default_timestamp
         | JNum f => json_of_leaf (PNum f) default_timestamp
         | JBool b => json_of_leaf (PBool b) default_timestamp
         | _ => add_timestamp v
         end) l)
  | _ => o
  end.

(** [FromJson] (internal/tson/tson.go 328-368) on decoded JSON: the caller's data afterwards,
    and the result.  A failing [json.Marshal] makes the later [json.Unmarshal] fail. *)
Definition from_json (o : json) : json * res tson :=
  let o' := add_timestamp o in
  (o', if json_encodable o' then from_compatible o' else Err).

(** [reflect.DeepEqual] on decoded JSON. *)
Fixpoint deep_eq (a b : json) : bool :=
  match a, b with
  | JNull, JNull => true
  | JBool x, JBool y => Bool.eqb x y
  | JNum x, JNum y => f64_eq x y
  | JStr x, JStr y => bool_decide (x = y)
  | JArr l, JArr l' =>
      (fix go (l l' : list json) : bool :=
         match l, l' with
         | [], [] => true
         | x :: l1, y :: l2 => deep_eq x y && go l1 l2
         | _, _ => false
         end) l l'
  | JObj m, JObj m' =>
      Nat.eqb (length m) (length m') &&
      forallb (fun kv => match alookup (fst kv) m' with
                         | Some y => deep_eq (snd kv) y
                         | None => false
                         end) m
  | _, _ => false
  end.

(** [Equal] (internal/tson/tson.go 111-126). *)
Definition equal (a b : tson) : res bool :=
  do ja <- to_compatible a; do jb <- to_compatible b; Ok (deep_eq ja jb).

(** [EqualWithoutTimestamp] (internal/tson/tson.go 129-145).  The JSON trees are re-encoded
    and re-decoded, which keeps finite data unchanged. *)
Definition equal_without_timestamp (a b : tson) : res bool :=
  Ok (deep_eq (to_json a) (to_json b)).
