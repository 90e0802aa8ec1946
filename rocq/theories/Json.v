(** Patches as JSON text: internal/tsonpatch/tsonpatch.go 34-116, with the part of encoding/json
    it calls, on bytes. *)
From Verif Require Import Base F64 Tson Serial Heap Patch Bytes.

(** ** encoding/json: from bytes to a tree *)
(** The syntax tree of a text; numbers keep their literal, members their order. *)
Inductive jtree : Type :=
| JtNull
| JtBool (b : bool)
| JtNum (lit : string)
| JtStr (s : string)
| JtArr (l : list jtree)
| JtObj (m : list (string * jtree)).

Definition is_ws (a : ascii) : bool :=
  let n := bv a in (n =? 32)%N || (n =? 9)%N || (n =? 10)%N || (n =? 13)%N.
Fixpoint skip_ws (s : string) : string :=
  match s with
  | String a s' => if is_ws a then skip_ws s' else s
  | EmptyString => s
  end.

(** The scanner's states for numbers: the literal and what follows it. *)
Fixpoint scan_digits (s : string) : string * string :=
  match s with
  | String a s' => if is_digit a then let '(d, r) := scan_digits s' in (String a d, r) else ("", s)
  | EmptyString => ("", s)
  end.
Definition scan_digits1 (s : string) : option (string * string) :=
  match scan_digits s with
  | (EmptyString, _) => None
  | dr => Some dr
  end.
Definition scan_int (s : string) : option (string * string) :=
  match s with
  | String a s' => if decide (a = "0"%char) then Some ("0", s') else scan_digits1 s
  | EmptyString => None
  end.
Definition scan_frac (s : string) : option (string * string) :=
  match s with
  | String a s' =>
      if decide (a = "."%char) then
        match scan_digits1 s' with Some (d, r) => Some (String a d, r) | None => None end
      else Some ("", s)
  | EmptyString => Some ("", s)
  end.
Definition scan_sign (s : string) : string * string :=
  match s with
  | String a s' => if decide (a = "+"%char ∨ a = "-"%char) then (String a "", s') else ("", s)
  | EmptyString => ("", s)
  end.
Definition scan_exp (s : string) : option (string * string) :=
  match s with
  | String a s' =>
      if decide (a = "e"%char ∨ a = "E"%char) then
        let '(g, s1) := scan_sign s' in
        match scan_digits1 s1 with Some (d, r) => Some (String a (g +++ d), r) | None => None end
      else Some ("", s)
  | EmptyString => Some ("", s)
  end.
Definition scan_number (s : string) : option (string * string) :=
  let '(g, s1) :=
    match s with
    | String a s' => if decide (a = "-"%char) then ("-", s') else ("", s)
    | EmptyString => ("", s)
    end in
  match scan_int s1 with
  | None => None
  | Some (i, s2) =>
      match scan_frac s2 with
      | None => None
      | Some (f, s3) =>
          match scan_exp s3 with
          | None => None
          | Some (e, s4) => Some (g +++ i +++ f +++ e, s4)
          end
      end
  end.

(** [utf8.AppendRune] for valid runes. *)
Definition byte_of (n : N) : ascii := ascii_of_N n.
Definition rune_text (r : N) : string :=
  if (r <? 128)%N then String (byte_of r) ""
  else if (r <? 2048)%N then
    String (byte_of (192 + r / 64)) (String (byte_of (128 + r mod 64)) "")
  else if (r <? 65536)%N then
    String (byte_of (224 + r / 4096)) (String (byte_of (128 + (r / 64) mod 64))
      (String (byte_of (128 + r mod 64)) ""))
  else
    String (byte_of (240 + r / 262144)) (String (byte_of (128 + (r / 4096) mod 64))
      (String (byte_of (128 + (r / 64) mod 64)) (String (byte_of (128 + r mod 64)) ""))).
Definition replacement : string := rune_text 65533.
(** [unquoteBytes]: four hexadecimal digits. *)
Definition hex_val (a : ascii) : option N :=
  let n := bv a in
  if in_range 48 n 57 then Some (n - 48)%N
  else if in_range 97 n 102 then Some (n - 87)%N
  else if in_range 65 n 70 then Some (n - 55)%N
  else None.
Definition hex4 (a b c d : ascii) : option N :=
  match hex_val a, hex_val b, hex_val c, hex_val d with
  | Some x, Some y, Some z, Some w => Some (((x * 16 + y) * 16 + z) * 16 + w)%N
  | _, _, _, _ => None
  end.
Definition high_surrogate (r : N) : bool := in_range 55296 r 56319.
Definition low_surrogate (r : N) : bool := in_range 56320 r 57343.
(** The low half announced by a following [\uXXXX], if there is one. *)
Definition low_after (s : string) : option N :=
  match s with
  | String p (String q (String a (String b (String c (String d _))))) =>
      if decide (p = backslash ∧ q = "u"%char) then
        match hex4 a b c d with
        | Some r => if low_surrogate r then Some r else None
        | None => None
        end
      else None
  | _ => None
  end.
Definition escape_value (a : ascii) : option ascii :=
  let n := bv a in
  if (n =? 34)%N || (n =? 92)%N || (n =? 47)%N then Some a
  else if (n =? 98)%N then Some (byte_of 8)
  else if (n =? 102)%N then Some (byte_of 12)
  else if (n =? 110)%N then Some (byte_of 10)
  else if (n =? 114)%N then Some (byte_of 13)
  else if (n =? 116)%N then Some (byte_of 9)
  else None.
Definition prepend (p : string) (r : option (string * string)) : option (string * string) :=
  match r with Some (v, rest) => Some (p +++ v, rest) | None => None end.
(** The rest of a string literal after the opening quote: its value, and what follows the
    closing quote.  A broken surrogate pair and every byte that is not UTF-8 become U+FFFD. *)
Fixpoint scan_chars (s : string) : option (string * string) :=
  match s with
  | EmptyString => None
  | String a s1 =>
      if decide (a = dquote) then Some ("", s1)
      else if decide (a = backslash) then
        match s1 with
        | EmptyString => None
        | String e s2 =>
            if decide (e = "u"%char) then
              match s2 with
              | String h1 (String h2 (String h3 (String h4 s6))) =>
                  match hex4 h1 h2 h3 h4 with
                  | None => None
                  | Some r =>
                      if high_surrogate r then
                        match low_after s6, s6 with
                        | Some r', String _ (String _ (String _ (String _ (String _ (String _ s12))))) =>
                            prepend (rune_text (65536 + (r - 55296) * 1024 + (r' - 56320))) (scan_chars s12)
                        | _, _ => prepend replacement (scan_chars s6)
                        end
                      else if low_surrogate r then prepend replacement (scan_chars s6)
                      else prepend (rune_text r) (scan_chars s6)
                  end
              | _ => None
              end
            else
              match escape_value e with
              | Some c => prepend (String c "") (scan_chars s2)
              | None => None
              end
        end
      else if (bv a <? 32)%N then None
      else if (bv a <? 128)%N then prepend (String a "") (scan_chars s1)
      else
        match s1 with
        | String b s2 =>
            if utf8_2 a b then prepend (String a (String b "")) (scan_chars s2)
            else
              match s2 with
              | String c s3 =>
                  if utf8_3 a b c then prepend (String a (String b (String c ""))) (scan_chars s3)
                  else
                    match s3 with
                    | String d s4 =>
                        if utf8_4 a b c d then prepend (String a (String b (String c (String d "")))) (scan_chars s4)
                        else prepend replacement (scan_chars s1)
                    | EmptyString => prepend replacement (scan_chars s1)
                    end
              | EmptyString => prepend replacement (scan_chars s1)
              end
        | EmptyString => prepend replacement (scan_chars s1)
        end
  end.

(** [prefix p s]: what follows [p] in [s]. *)
Fixpoint after (p s : string) : option string :=
  match p, s with
  | EmptyString, _ => Some s
  | String a p', String b s' => if decide (a = b) then after p' s' else None
  | _, EmptyString => None
  end.

(** Values, the elements of an array after its first bracket and white space, and the members
    of an object likewise.  The limit of 10000 nested containers is left out. *)
Fixpoint scan_value (n : nat) (s : string) : option (jtree * string) :=
  match n with
  | O => None
  | S n' =>
      match s with
      | EmptyString => None
      | String a s1 =>
          if decide (a = "{"%char) then
            match skip_ws s1 with
            | String b s2 => if decide (b = "}"%char) then Some (JtObj [], s2)
                             else match scan_members n' (String b s2) with
                                  | Some (m, r) => Some (JtObj m, r)
                                  | None => None
                                  end
            | EmptyString => None
            end
          else if decide (a = "["%char) then
            match skip_ws s1 with
            | String b s2 => if decide (b = "]"%char) then Some (JtArr [], s2)
                             else match scan_elems n' (String b s2) with
                                  | Some (l, r) => Some (JtArr l, r)
                                  | None => None
                                  end
            | EmptyString => None
            end
          else if decide (a = dquote) then
            match scan_chars s1 with Some (v, r) => Some (JtStr v, r) | None => None end
          else match after "null" s with
          | Some r => Some (JtNull, r)
          | None =>
          match after "true" s with
          | Some r => Some (JtBool true, r)
          | None =>
          match after "false" s with
          | Some r => Some (JtBool false, r)
          | None => match scan_number s with Some (lit, r) => Some (JtNum lit, r) | None => None end
          end end end
      end
  end
with scan_elems (n : nat) (s : string) : option (list jtree * string) :=
  match n with
  | O => None
  | S n' =>
      match scan_value n' s with
      | None => None
      | Some (t, r) =>
          match skip_ws r with
          | String b r1 =>
              if decide (b = "]"%char) then Some ([t], r1)
              else if decide (b = ","%char) then
                match scan_elems n' (skip_ws r1) with
                | Some (l, r2) => Some (t :: l, r2)
                | None => None
                end
              else None
          | EmptyString => None
          end
      end
  end
with scan_members (n : nat) (s : string) : option (list (string * jtree) * string) :=
  match n with
  | O => None
  | S n' =>
      match s with
      | String a s1 =>
          if decide (a = dquote) then
            match scan_chars s1 with
            | None => None
            | Some (k, r) =>
                match skip_ws r with
                | String c r1 =>
                    if decide (c = ":"%char) then
                      match scan_value n' (skip_ws r1) with
                      | None => None
                      | Some (t, r2) =>
                          match skip_ws r2 with
                          | String b r3 =>
                              if decide (b = "}"%char) then Some ([(k, t)], r3)
                              else if decide (b = ","%char) then
                                match scan_members n' (skip_ws r3) with
                                | Some (m, r4) => Some ((k, t) :: m, r4)
                                | None => None
                                end
                              else None
                          | EmptyString => None
                          end
                      end
                    else None
                | EmptyString => None
                end
            end
          else None
      | EmptyString => None
      end
  end.
(** [json.Valid] and the tree of a whole text. *)
Definition scan (s : string) : option jtree :=
  match scan_value (S (slength s)) (skip_ws s) with
  | Some (t, r) => match skip_ws r with EmptyString => Some t | _ => None end
  | None => None
  end.

(** ** encoding/json: from a tree to Go values *)
(** Into [any]; a member written twice counts once, with its last value. *)
Section decode.
Context (T : textlib).
Fixpoint to_any (t : jtree) : res json :=
  match t with
  | JtNull => Ok JNull
  | JtBool b => Ok (JBool b)
  | JtNum lit => match parse_num T lit with Some f => Ok (JNum f) | None => Err end
  | JtStr s => Ok (JStr s)
  | JtArr l =>
      do vs <- (fix go (l : list jtree) : res (list json) :=
         match l with
         | [] => Ok []
         | x :: l' => do v <- to_any x; do vs <- go l'; Ok (v :: vs)
         end) l;
      Ok (JArr vs)
  | JtObj m =>
      do vs <- (fix go (m : list (string * jtree)) : res (list (string * json)) :=
         match m with
         | [] => Ok []
         | (k, x) :: m' => do v <- to_any x; do vs <- go m'; Ok ((k, v) :: vs)
         end) m;
      Ok (JObj (fold_left (fun acc kv => ainsert (fst kv) (snd kv) acc) vs []))
  end.
Definition any_of_json (j : json) : any :=
  match j with
  | JNull => ANil
  | JBool b => ABool b
  | JNum f => ANum f
  | JStr s => AStr s
  | JArr l => ASlice l
  | JObj m => AMap m
  end.

(** [OpType] (internal/tsonpatch/tsonpatch.go 35-45) as a string and back. *)
Definition op_name (k : opkind) : string :=
  match k with
  | OAdd => "add" | ORemove => "remove" | OReplace => "replace"
  | OMove => "move" | OCopy => "copy" | OTest => "test" | OOther s => s
  end.
Definition op_of_name (s : string) : opkind :=
  if decide (s = "add") then OAdd else if decide (s = "remove") then ORemove
  else if decide (s = "replace") then OReplace else if decide (s = "move") then OMove
  else if decide (s = "copy") then OCopy else if decide (s = "test") then OTest else OOther s.

(** The matching of member names ignores case; besides the ASCII letters, U+017F stands for
    "s".  (U+212A stands for "k", which no field name has.) *)
Fixpoint fold_name (s : string) : string :=
  match s with
  | String a s1 =>
      if in_range 65 (bv a) 90 then String (byte_of (bv a + 32)) (fold_name s1)
      else
        match s1 with
        | String b s2 =>
            if (bv a =? 197)%N && (bv b =? 191)%N then String "s" (fold_name s2)
            else String a (fold_name s1)
        | EmptyString => String a ""
        end
  | EmptyString => ""
  end.

(** One member into the struct [Operation] (struct tags at internal/tsonpatch/tsonpatch.go
    81-86): null leaves a string or a number alone and clears the value. *)
Definition set_field (o : operation) (k : string) (t : jtree) : res operation :=
  let name := fold_name k in
  if decide (name = "op") then
    match t with
    | JtNull => Ok o
    | JtStr s => Ok (Op (op_of_name s) (op_path o) (op_value o) (op_ts o))
    | _ => Err
    end
  else if decide (name = "path") then
    match t with
    | JtNull => Ok o
    | JtStr s => Ok (Op (op_kind o) s (op_value o) (op_ts o))
    | _ => Err
    end
  else if decide (name = "value") then
    do v <- to_any t; Ok (Op (op_kind o) (op_path o) (any_of_json v) (op_ts o))
  else if decide (name = "timestamp") then
    match t with
    | JtNull => Ok o
    | JtNum lit => match parse_int lit with
                   | Some z => Ok (Op (op_kind o) (op_path o) (op_value o) z)
                   | None => Err
                   end
    | _ => Err
    end
  else Ok o.
Definition zero_op : operation := Op (OOther "") "" ANil 0.
Fixpoint set_fields (o : operation) (m : list (string * jtree)) : res operation :=
  match m with
  | [] => Ok o
  | (k, t) :: m' => do o' <- set_field o k t; set_fields o' m'
  end.
Definition to_op (t : jtree) : res operation :=
  match t with
  | JtNull => Ok zero_op
  | JtObj m => set_fields zero_op m
  | _ => Err
  end.
Fixpoint to_ops (l : list jtree) : res (list operation) :=
  match l with
  | [] => Ok []
  | t :: l' => do o <- to_op t; do os <- to_ops l'; Ok (o :: os)
  end.
(** [Unmarshal] (internal/tsonpatch/tsonpatch.go 67-74); the nil slice is [None]. *)
Definition unmarshal (s : string) : res (option (list operation)) :=
  match scan s with
  | None => Err
  | Some JtNull => Ok None
  | Some (JtArr l) => do os <- to_ops l; Ok (Some os)
  | Some _ => Err
  end.
(** What [Store] and [NewLogument] make of a text (internal/logument/logument.go 134-145). *)
Definition read_patch (s : string) : option (option (list operation)) :=
  match unmarshal s with Ok r => Some r | _ => None end.
End decode.

(** ** Writing *)
(** [json.Marshal] of strings: [appendString] with HTML escaping.  (Newer releases write \b and
    \f where older ones write \u0008 and \u000c; this is the newer form.) *)
Definition u_escape (r : N) : string := String backslash (String "u" (hex_text 4 r)).
Definition quote_byte (a : ascii) : string :=
  let n := bv a in
  if (n =? 34)%N || (n =? 92)%N then String backslash (String a "")
  else if (n =? 8)%N then String backslash "b"
  else if (n =? 12)%N then String backslash "f"
  else if (n =? 10)%N then String backslash "n"
  else if (n =? 13)%N then String backslash "r"
  else if (n =? 9)%N then String backslash "t"
  else if (n <? 32)%N || (n =? 60)%N || (n =? 62)%N || (n =? 38)%N then u_escape n
  else String a "".
Fixpoint json_chars (s : string) : string :=
  match s with
  | EmptyString => ""
  | String a s1 =>
      if (bv a <? 128)%N then quote_byte a +++ json_chars s1
      else
        match s1 with
        | String b s2 =>
            if utf8_2 a b then String a (String b (json_chars s2))
            else
              match s2 with
              | String c s3 =>
                  if utf8_3 a b c then
                    (if (rune_3 a b c =? 8232)%N || (rune_3 a b c =? 8233)%N then u_escape (rune_3 a b c)
                     else String a (String b (String c ""))) +++ json_chars s3
                  else
                    match s3 with
                    | String d s4 =>
                        if utf8_4 a b c d then String a (String b (String c (String d (json_chars s4))))
                        else u_escape 65533 +++ json_chars s1
                    | EmptyString => u_escape 65533 +++ json_chars s1
                    end
              | EmptyString => u_escape 65533 +++ json_chars s1
              end
        | EmptyString => u_escape 65533 +++ json_chars s1
        end
  end.
Definition json_string (s : string) : string := String dquote (json_chars s +++ String dquote "").

Section write.
(** The text encoding/json writes for a finite float64. *)
Context (num : f64 -> string).
Fixpoint wtext (w : wjson) : string :=
  match w with
  | WNull => "null"
  | WBool b => if b then "true" else "false"
  | WNum f => num f
  | WInt z => z_text z
  | WStr s => json_string s
  | WArr l => "[" +++ String.concat "," (map wtext l) +++ "]"
  | WObj m => "{" +++ String.concat "," (map (fun kv => json_string (fst kv) +++ ":" +++ wtext (snd kv)) m) +++ "}"
  end.
Fixpoint w_of_json (j : json) : wjson :=
  match j with
  | JNull => WNull
  | JBool b => WBool b
  | JNum f => WNum f
  | JStr s => WStr s
  | JArr l => WArr (map w_of_json l)
  | JObj m => WObj (map (fun kv => (fst kv, w_of_json (snd kv))) m)
  end.
(** [json.Marshal] of an operation's value: what is written, and [None] for the error, which
    only NaN and infinities cause. *)
Definition w_of_any (v : any) : wjson :=
  match v with
  | ANil => WNull
  | AStr s => WStr s
  | ANum f => WNum f
  | AInt z => WInt z
  | ABool b => WBool b
  | AMap m => write_any (w_of_json (JObj m))
  | ASlice l => write_any (w_of_json (JArr l))
  | ATson t => json_written t
  end.
Definition enc (v : any) : option string :=
  if any_encodable (w_of_any v) then Some (wtext (w_of_any v)) else None.
(** [ToCompatibleTsonBytes] (internal/tson/tson.go 208-212) down to the bytes. *)
Definition compatible_bytes (t : tson) : res string :=
  match to_bytes t with Ok w => Ok (wtext w) | Err => Err | Panic => Panic end.
(** [Operation.String] (internal/tsonpatch/tsonpatch.go 88-101), which drops the error. *)
Definition quoted (s : string) : string := String dquote (s +++ String dquote "").
Definition op_string (o : operation) : string :=
  "{ " +++ quoted "op" +++ ": " +++ quoted (op_name (op_kind o))
  +++ ", " +++ quoted "path" +++ ": " +++ quoted (op_path o)
  +++ ", " +++ quoted "value" +++ ": " +++ default "" (enc (op_value o))
  +++ ", " +++ quoted "timestamp" +++ ": " +++ z_text (op_ts o) +++ " }".
Definition is_nil (v : any) : bool := match v with ANil => true | _ => false end.
(** [Operation.Marshal] (internal/tsonpatch/tsonpatch.go 103-116). *)
Definition op_marshal (o : operation) : option string :=
  let head := "{ " +++ quoted "op" +++ ": " +++ quoted (op_name (op_kind o))
              +++ ", " +++ quoted "path" +++ ": " +++ quoted (op_path o) in
  let tail := ", " +++ quoted "timestamp" +++ ": " +++ z_text (op_ts o) +++ " }" in
  if negb (is_nil (op_value o)) || bool_decide (op_kind o = OReplace)
     || bool_decide (op_kind o = OAdd) || bool_decide (op_kind o = OTest)
  then match enc (op_value o) with
       | Some v => Some (head +++ ", " +++ quoted "value" +++ ": " +++ v +++ tail)
       | None => None
       end
  else Some (head +++ tail).
(** [Patch.String] (internal/tsonpatch/tsonpatch.go 50-57). *)
Definition newline : string := String (byte_of 10) "".
Definition patch_string (p : list operation) : string :=
  "[" +++ newline +++ String.concat ("," +++ newline) (map (fun o => "    " +++ op_string o) p)
  +++ newline +++ "]".
(** [json.Marshal] of a [Patch], with the struct tags of [Operation]: a nil value is left
    out. *)
Definition op_json (o : operation) : option string :=
  let tail := "," +++ quoted "timestamp" +++ ":" +++ z_text (op_ts o) +++ "}" in
  let head := "{" +++ quoted "op" +++ ":" +++ json_string (op_name (op_kind o))
              +++ "," +++ quoted "path" +++ ":" +++ json_string (op_path o) in
  match op_value o with
  | ANil => Some (head +++ tail)
  | v => match enc v with
         | Some t => Some (head +++ "," +++ quoted "value" +++ ":" +++ t +++ tail)
         | None => None
         end
  end.
Fixpoint op_jsons (p : list operation) : option (list string) :=
  match p with
  | [] => Some []
  | o :: p' => match op_json o, op_jsons p' with
               | Some s, Some l => Some (s :: l)
               | _, _ => None
               end
  end.
(** A nil slice is written as null. *)
Definition patch_json (p : option (list operation)) : option string :=
  match p with
  | None => Some "null"
  | Some p => match op_jsons p with
              | Some l => Some ("[" +++ String.concat "," l +++ "]")
              | None => None
              end
  end.
End write.

(** ** Documents as JSON text *)
(** [json.Unmarshal] into [any]. *)
Definition decode_any (T : textlib) (s : string) : res json :=
  match scan s with Some t => to_any T t | None => Err end.
(** [FromCompatibleTsonBytes] (internal/tson/tson.go 216-255). *)
Definition from_compatible_bytes (T : textlib) (s : string) : res tson :=
  do j <- decode_any T s; from_compatible j.
(** [FromJsonBytes] (internal/tson/tson.go 383-390), with the decoded data [FromJson] leaves. *)
Definition from_json_bytes (T : textlib) (s : string) : res tson :=
  do j <- decode_any T s; snd (from_json j).
(** [ToJsonBytes] (internal/tson/tson.go 372-379). *)
Definition to_json_bytes (num : f64 -> string) (t : tson) : res string :=
  let w := write_any (w_of_json (to_json t)) in
  if any_encodable w then Ok (wtext num w) else Err.
