(** Specification of the TSON text format: which texts denote which document.
    Written from the grammar, without the parser or the printer. *)
From Verif Require Import Base BaseSpec F64 Tson Serial.

(** Blanks between tokens: space, tab, line feed, carriage return. *)
Inductive blank : string -> Prop :=
| blank_nil : blank ""
| blank_cons a s : In (N_of_ascii a) [32; 9; 10; 13]%N -> blank s -> blank (String a s).

(** Escape letters and the byte they denote. *)
Inductive escape : ascii -> ascii -> Prop :=
| esc_quote : escape (ascii_of_N 34) (ascii_of_N 34)
| esc_backslash : escape (ascii_of_N 92) (ascii_of_N 92)
| esc_slash : escape "/" "/"
| esc_apostrophe : escape "'" "'"
| esc_b : escape "b" (ascii_of_N 8)
| esc_f : escape "f" (ascii_of_N 12)
| esc_n : escape "n" (ascii_of_N 10)
| esc_r : escape "r" (ascii_of_N 13)
| esc_t : escape "t" (ascii_of_N 9).

(** [literal txt s]: [txt] between double quotes denotes the string [s]. *)
Inductive literal : string -> string -> Prop :=
| lit_nil : literal "" ""
| lit_raw a txt s :
    a ≠ ascii_of_N 34 -> a ≠ ascii_of_N 92 -> literal txt s ->
    literal (String a txt) (String a s)
| lit_esc e c txt s :
    escape e c -> literal txt s ->
    literal (String (ascii_of_N 92) (String e txt)) (String c s).

(** A timestamp in angle brackets; an empty one denotes -1. *)
Inductive stamp : string -> Z -> Prop :=
| stamp_none : stamp "<>" (-1)
| stamp_some d n w :
    digits d n -> Z.of_N n < 2 ^ 63 -> blank w ->
    stamp ("<" +++ d +++ w +++ ">") (Z.of_N n).

Inductive opt_stamp : string -> option Z -> Prop :=
| os_none : opt_stamp "" None
| os_some s ts : stamp s ts -> opt_stamp s (Some ts).

(** What may not follow a text for it to be read to its end. *)
Record tail_cond : Type := Tail { no_stamp : bool; no_digit : bool; no_dot : bool }.
Definition begins (a : ascii) (s : string) : Prop := exists r, s = String a r.
Definition tail_ok (k : tail_cond) (rest : string) : Prop :=
  (no_stamp k = true -> forall w r, rest = w +++ r -> blank w -> ~ begins "<" r)
  ∧ (no_digit k = true -> forall a d, digit a d -> ~ begins a rest)
  ∧ (no_dot k = true -> ~ begins "." rest).

(** The timestamp a member or element ends up with: its own stamp when that is not
    negative, else the stamp written with the value; without any own stamp it is 0. *)
Definition retime (own : option Z) (t : tson) : tson :=
  match t with
  | TLeaf p old =>
      TLeaf p (match own with
               | None => 0
               | Some ts => if 0 <=? ts then ts else old
               end)
  | _ => t
  end.

(** A later member replaces an earlier one with the same key. *)
Definition last_wins (m : list (string * tson)) : list (string * tson) :=
  fold_left (fun acc kv => ainsert (fst kv) (snd kv) acc) m [].

Section grammar.
Context (L : textlib).

(** [number txt f dotted]. *)
Inductive number : string -> f64 -> bool -> Prop :=
| number_intro sg ip fp f dotted :
    (sg = "-" ∨ (sg = "" ∧ ip ≠ "")) -> opt_digits ip ->
    ((dotted = false ∧ fp = "") ∨ (dotted = true ∧ exists d, fp = String "." d ∧ opt_digits d)) ->
    parse_num L (sg +++ ip +++ fp) = Some f ->
    number (sg +++ ip +++ fp) f dotted.

Inductive scalar_text : tail_cond -> prim -> string -> Prop :=
| st_str txt s : literal txt s ->
    scalar_text (Tail false false false) (PStr s)
      (String (ascii_of_N 34) (txt +++ String (ascii_of_N 34) ""))
| st_num txt f dotted : number txt f dotted ->
    scalar_text (Tail false true (negb dotted)) (PNum f) txt
| st_true : scalar_text (Tail false false false) (PBool true) "true"
| st_false : scalar_text (Tail false false false) (PBool false) "false".

Definition closed : tail_cond := Tail false false false.

(** [val_text k t txt]: [txt] denotes [t], provided what follows meets [k]. *)
Inductive val_text : tail_cond -> tson -> string -> Prop :=
| vt_null : val_text closed TNil "null"
| vt_scalar k p s : scalar_text k p s ->
    val_text (Tail true (no_digit k) (no_dot k)) (TLeaf p (-1)) s
| vt_scalar_stamp k p s w st ts : scalar_text k p s -> blank w -> stamp st ts ->
    val_text closed (TLeaf p ts) (s +++ w +++ st)
| vt_stamp_scalar k p s w st ts :
    stamp st ts -> blank w -> scalar_text k p s -> (forall b, p ≠ PBool b) ->
    val_text k (TLeaf p ts) (st +++ w +++ s)
| vt_obj0 w : blank w -> val_text closed (TObj []) ("{" +++ w +++ "}")
| vt_obj m s : members_text m s -> val_text closed (TObj (last_wins m)) ("{" +++ s +++ "}")
| vt_arr0 w : blank w -> val_text closed (TArr []) ("[" +++ w +++ "]")
| vt_arr l s : elems_text l s -> val_text closed (TArr l) ("[" +++ s +++ "]")
with members_text : list (string * tson) -> string -> Prop :=
| ms_one k t s : member_text k t s -> members_text [(k, t)] s
| ms_cons k t s m s' : member_text k t s -> members_text m s' ->
    members_text ((k, t) :: m) (s +++ "," +++ s')
with member_text : string -> tson -> string -> Prop :=
| member_intro w1 txt k w2 st ots w3 w4 tl v vs w5 :
    blank w1 -> literal txt k -> blank w2 -> opt_stamp st ots -> blank w3 -> blank w4 ->
    val_text tl v vs -> v ≠ TNil -> blank w5 ->
    member_text k (retime ots v)
      (w1 +++ String (ascii_of_N 34) (txt +++ String (ascii_of_N 34)
        (w2 +++ st +++ w3 +++ ":" +++ w4 +++ vs +++ w5)))
with elems_text : list tson -> string -> Prop :=
| es_one t s : elem_text t s -> elems_text [t] s
| es_cons t s l s' : elem_text t s -> elems_text l s' -> elems_text (t :: l) (s +++ "," +++ s')
with elem_text : tson -> string -> Prop :=
| elem_intro w1 st ots w2 tl v vs w3 :
    blank w1 -> opt_stamp st ots -> blank w2 -> val_text tl v vs -> v ≠ TNil ->
    (ots = None -> ~ begins "<" vs) -> blank w3 ->
    elem_text (retime ots v) (w1 +++ st +++ w2 +++ vs +++ w3).

(** A whole input: blanks, a value, and ignored rest. *)
Definition doc_text (t : tson) (s : string) : Prop :=
  exists w k vs rest, s = w +++ vs +++ rest ∧ blank w ∧ val_text k t vs ∧ tail_ok k rest.

(** Texts that put [null] where a member or an element is expected, at any depth: everything
    before the [null] is as in the grammar, anything may follow it. *)
Inductive null_inside : string -> Prop :=
| ni_obj s : null_member s -> null_inside ("{" +++ s)
| ni_arr s : null_elem s -> null_inside ("[" +++ s)
with null_here : string -> Prop :=
| nh_null rest : null_here ("null" +++ rest)
| nh_inside s : null_inside s -> null_here s
with null_member : string -> Prop :=
| nm_here w1 txt k w2 st ots w3 w4 s :
    blank w1 -> literal txt k -> blank w2 -> opt_stamp st ots -> blank w3 -> blank w4 ->
    null_here s ->
    null_member (w1 +++ String (ascii_of_N 34) (txt +++ String (ascii_of_N 34)
      (w2 +++ st +++ w3 +++ ":" +++ w4 +++ s)))
| nm_later k t s s' : member_text k t s -> null_member s' -> null_member (s +++ "," +++ s')
with null_elem : string -> Prop :=
| ne_here w1 st ots w2 s :
    blank w1 -> opt_stamp st ots -> blank w2 -> null_here s -> null_elem (w1 +++ st +++ w2 +++ s)
| ne_later t s s' : elem_text t s -> null_elem s' -> null_elem (s +++ "," +++ s').

End grammar.

Scheme null_inside_mind := Induction for null_inside Sort Prop
  with null_here_mind := Induction for null_here Sort Prop
  with null_member_mind := Induction for null_member Sort Prop
  with null_elem_mind := Induction for null_elem Sort Prop.
Combined Scheme null_mutind from null_inside_mind, null_here_mind, null_member_mind, null_elem_mind.
Scheme val_text_mind := Induction for val_text Sort Prop
  with members_text_mind := Induction for members_text Sort Prop
  with member_text_mind := Induction for member_text Sort Prop
  with elems_text_mind := Induction for elems_text Sort Prop
  with elem_text_mind := Induction for elem_text Sort Prop.
Combined Scheme text_mutind from val_text_mind, members_text_mind, member_text_mind,
  elems_text_mind, elem_text_mind.

(** ** Documents the text format can carry *)
(** UTF-8 (RFC 3629) for code points from 128 on. *)
Definition utf8_bytes (r : N) : list N :=
  if decide (r < 2048)%N then [192 + r / 64; 128 + r mod 64]%N
  else if decide (r < 65536)%N then [224 + r / 4096; 128 + (r / 64) mod 64; 128 + r mod 64]%N
  else [240 + r / 262144; 128 + (r / 4096) mod 64; 128 + (r / 64) mod 64; 128 + r mod 64]%N.
Definition bytes (l : list N) : string := foldr (fun n s => String (ascii_of_N n) s) "" l.
(** The code points that have an encoding; those from 55296 to 57343 are surrogates. *)
Definition code_point (r : N) : Prop := (128 <= r < 55296)%N ∨ (57344 <= r < 1114112)%N.
Section carry.
Context (L : textlib).

(** Strings the printer writes without \a, \v, \x, \u or \U escapes: printable ASCII,
    the five control characters \b \t \n \f \r, and printable UTF-8 sequences. *)
Inductive clean : string -> Prop :=
| clean_nil : clean ""
| clean_ascii a s : (32 <= N_of_ascii a < 127)%N -> clean s -> clean (String a s)
| clean_ctl a s : In (N_of_ascii a) [8; 9; 10; 12; 13]%N -> clean s -> clean (String a s)
| clean_rune r s : code_point r -> is_print L r = true -> clean s -> clean (bytes (utf8_bytes r) +++ s).

(** Numbers that Go prints without exponent, and whose text ParseFloat reads back. *)
Definition plain_num (f : f64) : Prop := exists dotted, number L (fmt_num L f) f dotted.

Definition prim_ok (p : prim) : Prop :=
  match p with PStr s => clean s | PNum f => plain_num f | PBool _ => True end.

Inductive doc_ok : tson -> Prop :=
| ok_leaf p ts : prim_ok p -> ts <= int64_max -> doc_ok (TLeaf p ts)
| ok_obj m : NoDup (akeys m) -> Forall (fun kv => clean (fst kv) ∧ doc_ok (snd kv)) m ->
    doc_ok (TObj m)
| ok_arr l : Forall doc_ok l -> doc_ok (TArr l).
End carry.

(** A negative timestamp is printed as [<>] and means -1. *)
Fixpoint norm_ts (t : tson) : tson :=
  match t with
  | TNil => TNil
  | TLeaf p ts => TLeaf p (if 0 <=? ts then ts else -1)
  | TObj m => TObj (map (fun kv => (fst kv, norm_ts (snd kv))) m)
  | TArr l => TArr (map norm_ts l)
  end.

(** No null anywhere. *)
Inductive null_free : tson -> Prop :=
| nf_leaf p ts : null_free (TLeaf p ts)
| nf_obj m : Forall (fun kv => null_free (snd kv)) m -> null_free (TObj m)
| nf_arr l : Forall null_free l -> null_free (TArr l).

(** Every timestamp of the document satisfies [P]. *)
Inductive every_stamp (P : Z -> Prop) : tson -> Prop :=
| evs_nil : every_stamp P TNil
| evs_leaf p ts : P ts -> every_stamp P (TLeaf p ts)
| evs_obj m : Forall (fun kv => every_stamp P (snd kv)) m -> every_stamp P (TObj m)
| evs_arr l : Forall (every_stamp P) l -> every_stamp P (TArr l).

(** Letters that may follow a backslash. *)
Definition escape_letter (e : ascii) : bool :=
  existsb (N.eqb (N_of_ascii e)) [34; 92; 47; 39; 98; 102; 110; 114; 116]%N.
