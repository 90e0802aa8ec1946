(** The generator of vehicle data: internal/vssgen/vss.go and internal/vssgen/extension.go.
    Plain data ([any]) is a [wjson]: a map is an association list whose order stands for the
    order in which Go visits it, [WInt] is an int or int64.  The functions build new maps, but
    share leaves with their input; as nothing writes into a leaf unless the path of one node
    goes through another leaf, sharing is not modelled. *)
From Verif Require Import Base F64 Tson Bytes Serial GoText Heap Patch Diff Json.

Definition members : Type := list (string * wjson).

(** [VssJson] (internal/vssgen/vss.go 35-38). *)
Record vss : Type := Vss { v_init : bool; v_data : wjson }.

(** ** NewVssJson *)
(** [remove] inside [removeKeys] (internal/vssgen/vss.go 61-73).  [seen] are the members already
    visited; a member deleted before its turn is not visited. *)
Definition unlisted (keys : list string) (kv : string * wjson) : bool :=
  negb (bool_decide (fst kv ∈ keys)).
Fixpoint remove (keys : list string) (d : wjson) : wjson :=
  match d with
  | WObj m =>
      WObj ((fix loop (deleted : bool) (seen todo : members) : members :=
         match todo with
         | [] => seen
         | (k, v) :: todo' =>
             if deleted && bool_decide (k ∈ keys) then loop deleted seen todo'
             else match v with
                  | WObj _ => loop deleted (seen ++ [(k, remove keys v)]) todo'
                  | _ => loop true (List.filter (unlisted keys) (seen ++ [(k, v)])) todo'
                  end
         end) false [] m)
  | _ => d
  end.
(** [removeKeys] (internal/vssgen/vss.go 55-76). *)
Definition remove_keys (keys : list string) (v : vss) : res vss :=
  if v_init v then Ok v
  else match v_data v with
       | WObj _ => Ok (Vss false (remove keys (v_data v)))
       | _ => Panic
       end.
(** [NewVssJson] (internal/vssgen/vss.go 41-52).  [file] is what [json.Unmarshal] leaves in [data]:
    null if the file cannot be read or is not JSON. *)
Definition dropped_keys : list string :=
  ["description"; "uuid"; "type"; "comment"; "deprecated"; "deprecation"].
Definition new_vss (file : wjson) : res vss := remove_keys dropped_keys (Vss false file).

(** ** LeafNodes (internal/vssgen/vss.go 96-136) *)
Definition full_key (parent key : string) : string :=
  if decide (parent = "") then key
  else if decide (key = "children") then parent
  else parent +++ "." +++ key.
Fixpoint leaf (parent : string) (d : wjson) : members :=
  match d with
  | WObj m =>
      match alookup "timestamp" m with
      | Some _ => [(parent, d)]
      | None =>
          (fix go (m : members) : members :=
             match m with
             | [] => []
             | (k, v) :: m' =>
                 match v with
                 | WObj _ => leaf (full_key parent k) v
                 | _ => [(full_key parent k, v)]
                 end ++ go m'
             end) m
      end
  | _ => []
  end.
Definition leaf_nodes (d : wjson) : members := leaf "" d.

(** ** Generate *)
(** What [math/rand] returns while a node is handled: the results of the n-th call of
    [Float64()] and of [Intn(bound)]. *)
Record draws : Type := Draws { d_float : nat -> f64; d_int : nat -> Z -> Z }.
Definition f64_mul (x y : f64) : f64 := SFmul f64_prec f64_emax x y.
Definition f64_add (x y : f64) : f64 := SFadd f64_prec f64_emax x y.
Definition f64_lt (x y : f64) : bool := SFltb x y.
Definition hundred : f64 := f64_of_Z 100.
Definition one_half : f64 := SFdiv f64_prec f64_emax (f64_of_Z 1) (f64_of_Z 2).

Definition tson_leaf (v : wjson) (ts : Z) : wjson := WObj [("value", v); ("timestamp", WInt ts)].
Definition is_text (v : option wjson) (s : string) : bool :=
  match v with Some (WStr t) => bool_decide (t = s) | _ => false end.
Definition absent (v : option wjson) : bool := match v with None | Some WNull => true | _ => false end.
(** [testStrings] and [genRandomString] (internal/vssgen/vss.go 413-415, 423-445). *)
Definition test_strings : list string :=
  map (fun i => "TEST_STRING_VALUE_" +++ dec_text (N.of_nat i)) (seq 1 20).
Definition random_string (D : draws) (n : nat) : string :=
  nth (Z.to_nat (d_int D n 20)) test_strings "".

(** The loops over [rand.Intn(5)+1] (internal/vssgen/vss.go 210-215, 228-233, 241-246): the bound is
    drawn again before every element; [fuel] is 5. *)
Fixpoint gen_array (fuel : nat) (D : draws) (elem : nat -> wjson) (ts : Z) (i : nat) : list wjson :=
  match fuel with
  | O => []
  | S fuel' =>
      if Z.of_nat i <? d_int D (2 * i) 5 + 1
      then tson_leaf (elem (2 * i + 1)%nat) ts :: gen_array fuel' D elem ts (S i)
      else []
  end.
(** The switch of [Generate] (internal/vssgen/vss.go 176-252); [None] when no case applies. *)
Definition gen_value (D : draws) (ts : Z) (meta : members) : res (option wjson) :=
  let dtype := is_text (alookup "datatype" meta) in
  let percent := is_text (alookup "unit" meta) "percent" in
  if dtype "boolean" then Ok (Some (tson_leaf (WBool (f64_lt (d_float D 0) one_half)) ts))
  else if dtype "int8" || dtype "uint8" || (dtype "float" && percent) then
    let f := f64_mul (d_float D 0) hundred in
    Ok (Some (tson_leaf (if dtype "float" then WNum f else WInt (f64_to_int64 f)) ts))
  else match alookup "allowed" meta with
  | Some (WArr []) => Panic
  | Some (WArr l) => Ok (Some (tson_leaf (nth (Z.to_nat (d_int D 0 (Z.of_nat (length l)))) l WNull) ts))
  | Some _ => Panic
  | None =>
      if dtype "double" || dtype "float" then Ok (Some (tson_leaf (WNum (f64_mul (d_float D 0) hundred)) ts))
      else if dtype "float[]" then
        Ok (Some (WArr (gen_array 5 D (fun n => WNum (f64_mul (d_float D n) hundred)) ts 0)))
      else if dtype "int16" || dtype "int32" then Ok (Some (tson_leaf (WInt (d_int D 0 201 - 100)) ts))
      else if dtype "string" then Ok (Some (tson_leaf (WStr (random_string D 0)) ts))
      else if dtype "string[]" then
        Ok (Some (WArr (gen_array 5 D (fun n => WStr (random_string D n)) ts 0)))
      else if dtype "uint16" || dtype "uint32" then Ok (Some (tson_leaf (WInt (d_int D 0 101)) ts))
      else if dtype "uint8[]" then Ok (Some (WArr (gen_array 5 D (fun n => WInt (d_int D n 101)) ts 0)))
      else if absent (alookup "datatype" meta) then Ok (Some (tson_leaf WNull ts))
      else Ok None
  end.

(** The loop over the names of a path and the assignment after it (internal/vssgen/vss.go 159-174,
    277-292).  [v] is [None] if nothing is assigned.  When the last name exists already, the
    assignment goes into the map found there. *)
Fixpoint place (v : option wjson) (parts : list string) (m : members) : res members :=
  match parts with
  | [] => Ok m
  | k :: rest =>
      match alookup k m, rest with
      | None, [] => Ok (ainsert k (default (WObj []) v) m)
      | None, _ => do n <- place v rest []; Ok (ainsert k (WObj n) m)
      | Some (WObj n), [] =>
          match v with
          | Some w => Ok (ainsert k (WObj (ainsert k w n)) m)
          | None => Ok m
          end
      | Some (WObj n), _ => do n' <- place v rest n; Ok (ainsert k (WObj n') m)
      | Some _, _ => Panic
      end
  end.

(** [key[:idx]] and [key[idx+1:]] for the last dot (internal/vssgen/vss.go 146-150). *)
Fixpoint last_dot (s : string) : option (string * string) :=
  match s with
  | EmptyString => None
  | String a s' =>
      match last_dot s' with
      | Some (p, n) => Some (String a p, n)
      | None => if decide (a = dot) then Some ("", s') else None
      end
  end.
(** The first loop of [Generate] (internal/vssgen/vss.go 142-152): metadata by node. *)
Fixpoint group (l : members) (acc : list (string * members)) : res (list (string * members)) :=
  match l with
  | [] => Ok acc
  | (key, val) :: l' =>
      match last_dot key with
      | None => Panic
      | Some (p, n) => group l' (ainsert p (ainsert n val (default [] (alookup p acc))) acc)
      end
  end.
(** The second loop (internal/vssgen/vss.go 154-253); the draws are given by node, and the first
    [Float64()] decides whether the node is kept. *)
Definition shift (D : draws) : draws := Draws (fun n => d_float D (S n)) (d_int D).
Fixpoint gen_nodes (size : f64) (R : string -> draws) (ts : Z) (l : list (string * members)) (acc : members)
  : res members :=
  match l with
  | [] => Ok acc
  | (parent, meta) :: l' =>
      if f64_lt size (d_float (R parent) 0) then gen_nodes size R ts l' acc
      else do v <- gen_value (shift (R parent)) ts meta;
           do acc' <- place v (split_on dot parent) acc;
           gen_nodes size R ts l' acc'
  end.
(** [Generate] (internal/vssgen/vss.go 139-263).  [ord] is the order in which Go visits the map of
    nodes, [ts] the current time. *)
Definition generate (size : f64) (R : string -> draws)
    (ord : list (string * members) -> list (string * members)) (ts : Z) (v : vss) : res vss :=
  do nodes <- group (leaf_nodes (v_data v)) [];
  do m <- gen_nodes size R ts (ord nodes) [];
  Ok (Vss true (WObj m)).

(** ** GenerateNext *)
(** [x.(map[string]any)["value"]], nil if missing. *)
Definition value_of (x : wjson) : res wjson :=
  match x with WObj m => Ok (default WNull (alookup "value" m)) | _ => Panic end.
Fixpoint restamp (ts : Z) (l : list wjson) : res (list wjson) :=
  match l with
  | [] => Ok []
  | x :: l' => do v <- value_of x; do r <- restamp ts l'; Ok (tson_leaf v ts :: r)
  end.
(** The new content of a leaf (internal/vssgen/vss.go 294-340).  The code matches [int] only; the
    data of [Generate] and [GenerateNext] holds int64 in timestamps alone, so a [WInt] value is an int. *)
Definition next_value (change maintain : f64) (D : draws) (ts : Z) (value : wjson) : res (option wjson) :=
  match value with
  | WArr l => do r <- restamp ts l; Ok (Some (WArr r))
  | _ =>
      let r := d_float D 0 in
      if f64_lt r change then
        do v <- value_of value;
        Ok match v with
           | WStr _ => Some (tson_leaf (WStr (random_string D 0)) ts)
           | WBool b => Some (tson_leaf (WBool (negb b)) ts)
           | WInt _ => Some (tson_leaf (WInt (d_int D 0 201 - 100)) ts)
           | WNum _ => Some (tson_leaf (WNum (f64_mul (d_float D 1) hundred)) ts)
           | _ => None
           end
      else if f64_lt r (f64_add change maintain) then
        do v <- value_of value; Ok (Some (tson_leaf v ts))
      else Ok (Some value)
  end.
(** The loop over the leaves (internal/vssgen/vss.go 275-342). *)
Fixpoint next_nodes (change maintain : f64) (R : string -> draws) (ts : Z) (l acc : members) : res members :=
  match l with
  | [] => Ok acc
  | (path, value) :: l' =>
      do v <- next_value change maintain (R path) ts value;
      do acc' <- place v (split_on dot path) acc;
      next_nodes change maintain R ts l' acc'
  end.
Definition next_data (change maintain : f64) (R : string -> draws) (ts : Z) (v : vss) : res wjson :=
  if v_init v then do m <- next_nodes change maintain R ts (leaf_nodes (v_data v)) []; Ok (WObj m)
  else Panic.

(** [mapToJson] (internal/vssgen/vss.go 418-421), which drops the error. *)
Definition map_to_json (num : f64 -> string) (d : wjson) : string :=
  if any_encodable d then wtext num (write_any d) else "".
(** The patch (internal/vssgen/vss.go 354-373).  [ord] is the order in which Go visits the maps of
    the two documents; errors of the diff and of [json.Marshal] are dropped. *)
Definition next_patch (T : textlib) (num : f64 -> string) (ord : tson -> tson) (old new : wjson) : res json :=
  match from_compatible_bytes T (map_to_json num old), from_compatible_bytes T (map_to_json num new) with
  | Ok origin, Ok modified =>
      match generate_patch_with_timestamp (ord origin) (ord modified) with
      | Panic => Panic
      | r =>
          let ops := match r with Ok ops => Some ops | _ => None end in
          match decode_any T (default "" (patch_json num ops)) with Ok j => Ok j | _ => Ok JNull end
      end
  | _, _ => Panic
  end.
(** [GenerateNext] (internal/vssgen/vss.go 266-377). *)
Definition generate_next (T : textlib) (num : f64 -> string) (change maintain : f64) (R : string -> draws)
    (ord : tson -> tson) (ts : Z) (v : vss) : res (vss * json) :=
  do d <- next_data change maintain R ts v;
  match v_data v with
  | WObj _ => do p <- next_patch T num ord (v_data v) d; Ok (Vss true d, p)
  | _ => Panic
  end.

(** ** BuildFromLeafNodes *)
Fixpoint drop_last (s : string) : string :=
  match s with
  | EmptyString => EmptyString
  | String _ EmptyString => EmptyString
  | String a s' => String a (drop_last s')
  end.
(** The text between the brackets of a name like [\[3\]]. *)
Definition bracketed (s : string) : option string :=
  match s with
  | String a s' => if decide (a = "["%char) then if ends_with "]" s' then Some (drop_last s') else None else None
  | EmptyString => None
  end.
Definition pad_nil (l : list wjson) (n : nat) : list wjson := l ++ repeat WNull (n - length l).
(** [buildNestedStructure] (internal/vssgen/extension.go 59-124).  Allocating an array of any length is
    assumed to succeed. *)
Fixpoint build (v : wjson) (parts : list string) (m : members) : res members :=
  match parts with
  | [] => Ok m
  | part :: rest =>
      match bracketed part with
      | Some idx_str =>
          match parse_int idx_str with
          | None => build v rest m
          | Some idx =>
              match default (WArr []) (alookup "array" m) with
              | WArr arr =>
                  if idx <? 0 then Panic
                  else
                    let i := Z.to_nat idx in
                    let arr' := pad_nil arr (S i) in
                    match rest with
                    | [] => Ok (ainsert "array" (WArr (<[i := v]> arr')) m)
                    | _ =>
                        match nth i arr' WNull with
                        | WNull => do n <- build v rest []; Ok (ainsert "array" (WArr (<[i := WObj n]> arr')) m)
                        | WObj n => do n' <- build v rest n; Ok (ainsert "array" (WArr (<[i := WObj n']> arr')) m)
                        | _ => Panic
                        end
                    end
              | _ => Panic
              end
          end
      | None =>
          match rest with
          | [] => Ok (ainsert part v m)
          | _ =>
              match default (WObj []) (alookup part m) with
              | WObj n => do n' <- build v rest n; Ok (ainsert part (WObj n') m)
              | _ => Ok m
              end
          end
      end
  end.
(** [BuildFromLeafNodes] (internal/vssgen/extension.go 44-56). *)
Fixpoint build_all (l acc : members) : res members :=
  match l with
  | [] => Ok acc
  | (path, v) :: l' => do acc' <- build v (split_on dot path) acc; build_all l' acc'
  end.
Definition build_from_leaf_nodes (d : wjson) : res wjson :=
  do m <- build_all (leaf_nodes d) []; Ok (WObj m).

(** ** Save *)
(** [fmt.Sprintf("%.f", f)]: no digits after the point, ties to even. *)
Definition go_fmt0 (x : f64) : string :=
  match x with
  | S754_zero s => if s then "-0" else "0"
  | S754_infinity s => if s then "-Inf" else "+Inf"
  | S754_nan => "NaN"
  | S754_finite s m e =>
      (if s then "-" else "") +++
      dec_text match e with
               | Zneg k => round_div m (Pos.shiftl 1 (Npos k))
               | Z0 => Npos m
               | Zpos k => Npos (Pos.shiftl m (Npos k))
               end
  end.
Section save.
(** [fmt0 f] is [fmt.Sprintf("%.f", f)]. *)
Context (L : textlib) (fmt0 : f64 -> string).
(** [checkLeaf] (internal/tson/tson.go 463-479). *)
Definition any_leaf (m : members) : option (wjson * Z) :=
  if decide (length m = 2%nat) then
    match alookup "value" m, alookup "timestamp" m with
    | Some v, Some (WNum t) => Some (v, f64_to_int64 t)
    | Some v, Some (WInt t) => Some (v, t)
    | _, _ => None
    end
  else None.
(** [formatPrimitive] (internal/tson/serialization.go 420-431). *)
Definition format_primitive (v : wjson) : res string :=
  match v with
  | WStr s => Ok (quote L s)
  | WNum f => Ok (fmt_num L f)
  | WInt z => Ok (z_text z)
  | WBool b => Ok (if b then "true" else "false")
  | _ => Err
  end.
(** [marshalIndentValue] on plain data (internal/tson/serialization.go 186-286). *)
Fixpoint indent_any (cur ind : string) (c : ctx) (d : wjson) : res string :=
  match d with
  | WNull => Ok "null"
  | WBool b => Ok (if b then "true" else "false")
  | WNum f => Ok (fmt0 f)
  | WInt _ => Err
  | WStr s => Ok (quote L s)
  | WObj m =>
      match any_leaf m with
      | Some (v, ts) =>
          do p <- format_primitive v;
          Ok match c with
             | CObject => p
             | CArray => ts_text ts +++ " " +++ p
             | CTop => p +++ " " +++ ts_text ts
             end
      | None =>
          do body <- (fix go (first : bool) (m : members) : res string :=
            match m with
            | [] => Ok ""
            | (k, v) :: m' =>
                do here <- match v with
                           | WObj n => match any_leaf n with
                                       | Some (x, ts) => do p <- format_primitive x; Ok (" " +++ ts_text ts +++ ": " +++ p)
                                       | None => do s <- indent_any (cur +++ ind) ind CObject v; Ok (": " +++ s)
                                       end
                           | _ => do s <- indent_any (cur +++ ind) ind CObject v; Ok (": " +++ s)
                           end;
                do rest <- go false m';
                Ok ((if first then "" else "," +++ newline) +++ cur +++ ind +++ quote L k +++ here +++ rest)
            end) true m;
          Ok ("{" +++ newline +++ body +++ newline +++ cur +++ "}")
      end
  | WArr l =>
      do body <- (fix go (first : bool) (l : list wjson) : res string :=
        match l with
        | [] => Ok ""
        | v :: l' =>
            do s <- indent_any (cur +++ ind) ind CArray v;
            do rest <- go false l';
            Ok ((if first then "" else "," +++ newline) +++ cur +++ ind +++ s +++ rest)
        end) true l;
      Ok ("[" +++ newline +++ body +++ newline +++ cur +++ "]")
  end.
(** [Save] of a data set (internal/vssgen/vss.go 380-389, 406-409): the content of the file, which is
    empty after an error. *)
Definition save_data (d : wjson) : string :=
  match indent_any "" "    " CTop d with Ok s => s | _ => "" end.
(** Strings with a comma and a line feed between them ([strings.Join]). *)
Fixpoint join_lines (l : list string) : string :=
  match l with
  | [] => ""
  | [s] => s
  | s :: l' => s +++ "," +++ newline +++ join_lines l'
  end.
(** [compound v] is [fmt.Sprintf("%#v", v)] and [no_text v] is [fmt.Sprintf("%s", v)] for the values
    where these are not given below. *)
Context (compound : json -> string) (no_text : option json -> string).
(** [%#v] (Go syntax) of a decoded value; for numbers it is the text of [%v]. *)
Definition go_syntax (v : option json) : string :=
  match v with
  | None | Some JNull => "<nil>"
  | Some (JBool b) => if b then "true" else "false"
  | Some (JNum f) => fmt_num L f
  | Some (JStr s) => quote L s
  | Some c => compound c
  end.
Definition raw_text (v : option json) : string :=
  match v with Some (JStr s) => s | _ => no_text v end.
(** One line of the file of a patch (internal/vssgen/vss.go 392-401): the type assertions panic on
    what is no operation with a number as timestamp. *)
Definition patch_line (o : json) : res string :=
  match o with
  | JObj m =>
      match alookup "timestamp" m with
      | Some (JNum t) =>
          Ok ("    { ""op"": """ +++ raw_text (alookup "op" m) +++ """, ""path"": """ +++ raw_text (alookup "path" m) +++
              """, ""value"": " +++ go_syntax (alookup "value" m) +++ ", ""timestamp"": " +++ z_text (f64_to_int64 t) +++ " }")
      | _ => Panic
      end
  | _ => Panic
  end.
Fixpoint patch_lines (l : list json) : res (list string) :=
  match l with
  | [] => Ok []
  | o :: l' => do s <- patch_line o; do r <- patch_lines l'; Ok (s :: r)
  end.
(** [Save] of a patch (internal/vssgen/vss.go 390-409). *)
Definition save_patch (p : json) : res string :=
  match p with
  | JArr l => do r <- patch_lines l; Ok ("[" +++ newline +++ join_lines r +++ newline +++ "]")
  | _ => Panic
  end.
(** [ToMapStringInterface] (internal/vssgen/extension.go 18-41) on a data set. *)
Definition to_map (d : wjson) : res json :=
  match decode_any L (save_data d) with
  | Ok (JObj m) => Ok (JObj m)
  | Ok JNull => Ok JNull
  | _ => Err
  end.
End save.
