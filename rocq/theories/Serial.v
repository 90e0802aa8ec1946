(** The TSON text format: internal/tson/serialization.go. *)
From Verif Require Import Base F64 Tson.

(** Library functions the serializer calls: [fmt.Sprintf("%v", x)] and
    [strconv.ParseFloat(s, 64)] for float64 ([None] is the error), and [strconv.IsPrint]
    for runes from 0x80 up.  Every theorem holds for all such functions unless it says
    otherwise. *)
Record textlib : Type := TextLib {
  fmt_num : f64 -> string;
  parse_num : string -> option f64;
  is_print : N -> bool
}.

Definition bv (a : ascii) : N := N_of_ascii a.
Definition dquote : ascii := ascii_of_N 34.
Definition backslash : ascii := ascii_of_N 92.
Definition lt_char : ascii := "<"%char.
Definition gt_char : ascii := ">"%char.

(** Lower-case hexadecimal with [n] digits. *)
Definition hex_digit (n : N) : ascii :=
  ascii_of_N (if (n <? 10)%N then 48 + n else 87 + n).
Fixpoint hex_text (n : nat) (x : N) : string :=
  match n with
  | O => ""
  | S n' => hex_text n' (x / 16) +++ String (hex_digit (x mod 16)) ""
  end.

(** [strconv.appendEscapedRune] for runes below 0x80 and invalid bytes. *)
Definition quote_ascii (a : ascii) : string :=
  let n := bv a in
  if decide (a = dquote) then String backslash (String a "")
  else if decide (a = backslash) then String backslash (String a "")
  else if (N.leb 32 n && N.ltb n 127)%N then String a ""
  else if (n =? 7)%N then String backslash "a"
  else if (n =? 8)%N then String backslash "b"
  else if (n =? 12)%N then String backslash "f"
  else if (n =? 10)%N then String backslash "n"
  else if (n =? 13)%N then String backslash "r"
  else if (n =? 9)%N then String backslash "t"
  else if (n =? 11)%N then String backslash "v"
  else String backslash (String "x" (hex_text 2 n)).
Definition quote_bad_byte (a : ascii) : string :=
  String backslash (String "x" (hex_text 2 (bv a))).

(** UTF-8 sequences accepted by [utf8.DecodeRuneInString]. *)
Definition in_range (lo n hi : N) : bool := (N.leb lo n && N.leb n hi)%N.
Definition cont (a : ascii) : bool := in_range 128 (bv a) 191.
Definition utf8_2 (a b : ascii) : bool := in_range 194 (bv a) 223 && cont b.
Definition utf8_3 (a b c : ascii) : bool :=
  cont c &&
  (((bv a =? 224)%N && in_range 160 (bv b) 191) ||
   ((in_range 225 (bv a) 236 || in_range 238 (bv a) 239) && cont b) ||
   ((bv a =? 237)%N && in_range 128 (bv b) 159)).
Definition utf8_4 (a b c d : ascii) : bool :=
  cont c && cont d &&
  (((bv a =? 240)%N && in_range 144 (bv b) 191) ||
   (in_range 241 (bv a) 243 && cont b) ||
   ((bv a =? 244)%N && in_range 128 (bv b) 143)).
Definition rune_2 (a b : ascii) : N := ((bv a - 192) * 64 + (bv b - 128))%N.
Definition rune_3 (a b c : ascii) : N :=
  ((bv a - 224) * 4096 + (bv b - 128) * 64 + (bv c - 128))%N.
Definition rune_4 (a b c d : ascii) : N :=
  ((bv a - 240) * 262144 + (bv b - 128) * 4096 + (bv c - 128) * 64 + (bv d - 128))%N.

Section serial.
Context (L : textlib).

Definition quote_rune (r : N) (raw : string) : string :=
  if is_print L r then raw
  else if (r <? 65536)%N then String backslash (String "u" (hex_text 4 r))
  else String backslash (String "U" (hex_text 8 r)).

(** [strconv.Quote] without the outer quotes; [%q] is the same. *)
Fixpoint quote_body (s : string) : string :=
  match s with
  | EmptyString => ""
  | String a s0 =>
      if (bv a <? 128)%N then quote_ascii a +++ quote_body s0
      else match s0 with
      | EmptyString => quote_bad_byte a
      | String b s1 =>
          if utf8_2 a b then quote_rune (rune_2 a b) (String a (String b "")) +++ quote_body s1
          else match s1 with
          | EmptyString => quote_bad_byte a +++ quote_body s0
          | String c s2 =>
              if utf8_3 a b c
              then quote_rune (rune_3 a b c) (String a (String b (String c ""))) +++ quote_body s2
              else match s2 with
              | EmptyString => quote_bad_byte a +++ quote_body s0
              | String d s3 =>
                  if utf8_4 a b c d
                  then quote_rune (rune_4 a b c d)
                         (String a (String b (String c (String d "")))) +++ quote_body s3
                  else quote_bad_byte a +++ quote_body s0
              end
          end
      end
  end.
Definition quote (s : string) : string :=
  String dquote (quote_body s +++ String dquote "").

(** The text of a leaf payload ([%q] or [%v]). *)
Definition prim_text (p : prim) : string :=
  match p with
  | PStr s => quote s
  | PNum f => fmt_num L f
  | PBool b => if b then "true" else "false"
  end.

(** A printed timestamp: [<ts>], or [<>] when negative. *)
Definition ts_text (ts : Z) : string :=
  if 0 <=? ts then "<" +++ z_text ts +++ ">" else "<>".

Inductive ctx : Type := CTop | CObject | CArray.

(** Leaf cases of [marshalTson] (internal/tson/serialization.go 55-98) and of
    [marshalIndentValue] (371-412). *)
Definition leaf_text (c : ctx) (p : prim) (ts : Z) : string :=
  match c with
  | CArray => ts_text ts +++ " " +++ prim_text p
  | CObject => prim_text p
  | CTop => prim_text p +++ " " +++ ts_text ts
  end.

(** The timestamp printed after a key (internal/tson/serialization.go 118-137). *)
Definition key_ts (v : tson) : string :=
  match v with TLeaf _ ts => " " +++ ts_text ts | _ => "" end.

(** [marshalTson], [marshalObject], [marshalArray]
    (internal/tson/serialization.go 49-170). *)
Fixpoint marshal_val (c : ctx) (t : tson) : res string :=
  match t with
  | TNil => Err
  | TLeaf p ts => Ok (leaf_text c p ts)
  | TObj m =>
      do body <- (fix go (first : bool) (m : list (string * tson)) : res string :=
        match m with
        | [] => Ok ""
        | (k, v) :: m' =>
            do sv <- marshal_val CObject v;
            do rest <- go false m';
            Ok ((if first then "" else ", ") +++ quote k +++ key_ts v +++ ": " +++ sv +++ rest)
        end) true m;
      Ok ("{" +++ body +++ "}")
  | TArr l =>
      do body <- (fix go (first : bool) (l : list tson) : res string :=
        match l with
        | [] => Ok ""
        | v :: l' =>
            do sv <- marshal_val CArray v;
            do rest <- go false l';
            Ok ((if first then "" else ", ") +++ sv +++ rest)
        end) true l;
      Ok ("[" +++ body +++ "]")
  end.

(** [Marshal] (internal/tson/serialization.go 37-43). *)
Definition marshal (t : tson) : res string := marshal_val CTop t.

Definition newline : string := String (ascii_of_N 10) "".

(** [marshalIndentValue] on TSON values (internal/tson/serialization.go 186-189, 288-412).
    The cases for plain [any] data are in [indent_any] (Vss.v). *)
Fixpoint marshal_indent_val (cur ind : string) (c : ctx) (t : tson) : string :=
  match t with
  | TNil => "null"
  | TLeaf p ts => leaf_text c p ts
  | TObj m =>
      "{" +++ newline +++
      (fix go (first : bool) (m : list (string * tson)) : string :=
        match m with
        | [] => ""
        | (k, v) :: m' =>
            (if first then "" else "," +++ newline) +++
            cur +++ ind +++ quote k +++
            match v with
            | TLeaf p ts => " " +++ ts_text ts +++ ": " +++ prim_text p
            | _ => ": " +++ marshal_indent_val (cur +++ ind) ind CObject v
            end +++ go false m'
        end) true m +++
      newline +++ cur +++ "}"
  | TArr l =>
      "[" +++ newline +++
      (fix go (first : bool) (l : list tson) : string :=
        match l with
        | [] => ""
        | v :: l' =>
            (if first then "" else "," +++ newline) +++
            cur +++ ind +++ marshal_indent_val (cur +++ ind) ind CArray v +++ go false l'
        end) true l +++
      newline +++ cur +++ "]"
  end.

(** [MarshalIndent] (internal/tson/serialization.go 174-180) on a TSON document. *)
Definition marshal_indent (t : tson) (prefix ind : string) : string :=
  marshal_indent_val prefix ind CTop t.

(** ** Parser.  The state is the remaining input. *)

(** Outcome of a parsing function; [PFuel] (recursion bound reached) is shown never to
    happen in [Unmarshal]. *)
Inductive pres (A : Type) : Type :=
| POk (a : A) (rest : string)
| PErr
| PPanic
| PFuel.
Arguments POk {A}. Arguments PErr {A}. Arguments PPanic {A}. Arguments PFuel {A}.

Definition pbind {A B} (r : pres A) (f : A -> string -> pres B) : pres B :=
  match r with
  | POk a s => f a s | PErr => PErr | PPanic => PPanic | PFuel => PFuel
  end.

(** [wrapIfPrimitive] (internal/tson/serialization.go 450-476) on a [Value]; the raw-primitive
    cases are [TLeaf p ts].  A nil [Value] panics ([None]). *)
Definition wrap (v : tson) (ts : Z) : option tson :=
  match v with
  | TLeaf p old => Some (TLeaf p (if 0 <=? ts then ts else old))
  | TObj _ | TArr _ => Some v
  | TNil => None
  end.

(** [skipWhitespace] (internal/tson/serialization.go 478-486). *)
Definition is_ws (a : ascii) : bool :=
  (bv a =? 32)%N || (bv a =? 9)%N || (bv a =? 10)%N || (bv a =? 13)%N.
Fixpoint skip_ws (s : string) : string :=
  match s with
  | EmptyString => ""
  | String a s' => if is_ws a then skip_ws s' else s
  end.

(** [peek] (internal/tson/serialization.go 488-493); byte 0 at the end of input. *)
Definition peek (s : string) : ascii :=
  match s with EmptyString => ascii_of_N 0 | String a _ => a end.

(** [expect] (internal/tson/serialization.go 501-508), for a non-zero byte. *)
Definition expect (c : ascii) (s : string) : pres unit :=
  match skip_ws s with
  | String a r => if decide (a = c) then POk tt r else PErr
  | EmptyString => PErr
  end.

(** The loop of [parseString] (internal/tson/serialization.go 617-648). *)
Fixpoint parse_string_body (s : string) : pres string :=
  match s with
  | EmptyString => PErr
  | String a s' =>
      if decide (a = backslash) then
        match s' with
        | EmptyString => PErr
        | String e s'' =>
            let put c := pbind (parse_string_body s'') (fun r rest => POk (String c r) rest) in
            if decide (e = dquote) then put e
            else if decide (e = backslash) then put e
            else if decide (e = "/"%char) then put e
            else if decide (e = "'"%char) then put e
            else if decide (e = "b"%char) then put (ascii_of_N 8)
            else if decide (e = "f"%char) then put (ascii_of_N 12)
            else if decide (e = "n"%char) then put (ascii_of_N 10)
            else if decide (e = "r"%char) then put (ascii_of_N 13)
            else if decide (e = "t"%char) then put (ascii_of_N 9)
            else PErr
        end
      else if decide (a = dquote) then POk "" s'
      else pbind (parse_string_body s') (fun r rest => POk (String a r) rest)
  end.

(** [parseString] (internal/tson/serialization.go 613-648). *)
Definition parse_string (s : string) : pres string :=
  pbind (expect dquote s) (fun _ r => parse_string_body r).

(** Longest prefix of digits, and the rest. *)
Fixpoint span_digits (s : string) : string * string :=
  match s with
  | EmptyString => ("", "")
  | String a s' =>
      if is_digit a then let '(d, r) := span_digits s' in (String a d, r) else ("", s)
  end.

(** [parseNumber] (internal/tson/serialization.go 651-667). *)
Definition parse_number (s : string) : pres f64 :=
  let '(sign, s1) := match s with
                     | String a s' => if decide (a = "-"%char) then (String a "", s') else ("", s)
                     | EmptyString => ("", s)
                     end in
  let '(ip, s2) := span_digits s1 in
  let '(fp, s3) := match s2 with
                   | String a s' =>
                       if decide (a = "."%char)
                       then let '(d, r) := span_digits s' in (String a d, r)
                       else ("", s2)
                   | EmptyString => ("", s2)
                   end in
  match parse_num L (sign +++ ip +++ fp) with
  | Some f => POk f s3
  | None => PErr
  end.

(** [parseTimestamp] (internal/tson/serialization.go 671-696). *)
Definition parse_timestamp (s : string) : pres Z :=
  pbind (expect lt_char s) (fun _ s1 =>
    match s1 with
    | String a r =>
        if decide (a = gt_char) then POk (-1) r
        else
          let '(d, r) := span_digits s1 in
          if decide (d = "") then PErr
          else match parse_int d with
               | None => PErr
               | Some ts => pbind (expect gt_char r) (fun _ r' => POk ts r')
               end
    | EmptyString => PErr
    end).

(** [parsePrimitive] (internal/tson/serialization.go 600-610). *)
Definition starts_number (a : ascii) : bool := bool_decide (a = "-"%char) || is_digit a.
Definition parse_primitive (s : string) : pres prim :=
  let s1 := skip_ws s in
  if decide (peek s1 = dquote) then pbind (parse_string s1) (fun x r => POk (PStr x) r)
  else if starts_number (peek s1) then pbind (parse_number s1) (fun x r => POk (PNum x) r)
  else PErr.

(** The optional timestamp after a top-level primitive
    (internal/tson/serialization.go 544-552, 557-565, 568-576). *)
Definition trailing_ts (p : prim) (s : string) : pres tson :=
  let s1 := skip_ws s in
  if decide (peek s1 = lt_char)
  then pbind (parse_timestamp s1) (fun ts r => POk (TLeaf p ts) r)
  else POk (TLeaf p default_timestamp) s1.

Fixpoint drop_prefix (p s : string) : option string :=
  match p, s with
  | EmptyString, _ => Some s
  | String a p', String b s' => if decide (a = b) then drop_prefix p' s' else None
  | String _ _, EmptyString => None
  end.

(** [parseVal], and the loops of [parseObject] and [parseArray]
    (internal/tson/serialization.go 517-584, 699-747, 750-788). *)
Fixpoint parse_val (fuel : nat) (s : string) {struct fuel} : pres tson :=
  match fuel with
  | O => PFuel
  | S f =>
      let s1 := skip_ws s in
      let c := peek s1 in
      if decide (c = lt_char) then
        pbind (parse_timestamp s1) (fun ts r =>
          pbind (parse_primitive (skip_ws r)) (fun p r' => POk (TLeaf p ts) r'))
      else if decide (c = "{"%char) then
        pbind (expect "{" s1) (fun _ r =>
          let r1 := skip_ws r in
          match r1 with
          | String a r2 => if decide (a = "}"%char) then POk (TObj []) r2 else parse_members f [] r1
          | EmptyString => parse_members f [] r1
          end)
      else if decide (c = "["%char) then
        pbind (expect "[" s1) (fun _ r =>
          let r1 := skip_ws r in
          match r1 with
          | String a r2 => if decide (a = "]"%char) then POk (TArr []) r2 else parse_elems f [] r1
          | EmptyString => parse_elems f [] r1
          end)
      else if decide (c = dquote) then
        pbind (parse_primitive s1) (fun p r => trailing_ts p r)
      else if starts_number c then
        pbind (parse_primitive s1) (fun p r => trailing_ts p r)
      else match drop_prefix "true" s1 with
      | Some r => trailing_ts (PBool true) r
      | None => match drop_prefix "false" s1 with
        | Some r => trailing_ts (PBool false) r
        | None => match drop_prefix "null" s1 with
          | Some r => POk TNil r
          | None => PErr
          end
        end
      end
  end
with parse_members (fuel : nat) (acc : list (string * tson)) (s : string) {struct fuel} : pres tson :=
  match fuel with
  | O => PFuel
  | S f =>
      pbind (parse_string (skip_ws s)) (fun key r =>
        let r1 := skip_ws r in
        pbind (if decide (peek r1 = lt_char)
               then pbind (parse_timestamp r1) (fun ts r2 => POk ts (skip_ws r2))
               else POk 0 r1) (fun ts r3 =>
          pbind (expect ":" r3) (fun _ r4 =>
            pbind (parse_val f (skip_ws r4)) (fun v r5 =>
              match wrap v ts with
              | None => PPanic
              | Some v' =>
                  let acc' := ainsert key v' acc in
                  match skip_ws r5 with
                  | String a r6 =>
                      if decide (a = ","%char) then parse_members f acc' r6
                      else if decide (a = "}"%char) then POk (TObj acc') r6
                      else PErr
                  | EmptyString => PErr
                  end
              end))))
  end
with parse_elems (fuel : nat) (acc : list tson) (s : string) {struct fuel} : pres tson :=
  match fuel with
  | O => PFuel
  | S f =>
      let s1 := skip_ws s in
      pbind (if decide (peek s1 = lt_char)
             then pbind (parse_timestamp s1) (fun ts r2 => POk ts (skip_ws r2))
             else POk 0 s1) (fun ts r3 =>
        pbind (parse_val f r3) (fun v r5 =>
          match wrap v ts with
          | None => PPanic
          | Some v' =>
              let acc' := acc ++ [v'] in
              match skip_ws r5 with
              | String a r6 =>
                  if decide (a = ","%char) then parse_elems f acc' r6
                  else if decide (a = "]"%char) then POk (TArr acc') r6
                  else PErr
              | EmptyString => PErr
              end
          end))
  end.

Definition parse_fuel (s : string) : nat := (2 * slength s + 2)%nat.

(** [Unmarshal] (internal/tson/serialization.go 443-447, 511-514).  The rest of the input is
    dropped.  [Panic] also stands for an exhausted recursion bound, which never happens
    (theorem [unmarshal_terminates]). *)
Definition unmarshal (s : string) : res tson :=
  match parse_val (parse_fuel s) (skip_ws s) with
  | POk t _ => Ok t
  | PErr => Err
  | PPanic => Panic
  | PFuel => Panic
  end.

End serial.
Arguments POk {A}. Arguments PErr {A}. Arguments PPanic {A}. Arguments PFuel {A}.
