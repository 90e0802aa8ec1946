(** JSON texts (RFC 8259) and what they say, as relations. *)
From Verif Require Import Base BaseSpec F64 Tson TsonInd Serial TextSpec TsonSpec Heap Patch Bytes BytesSpec Json.

Inductive white : string -> Prop :=
| wh_nil : white ""
| wh_cons a s : In (N_of_ascii a) [32; 9; 10; 13]%N -> white s -> white (String a s).

(** ** Numbers *)
Definition some_digits (s : string) : Prop := exists n, digits s n.
Inductive int_lit : string -> Prop :=
| ip_zero : int_lit "0"
| ip_more s : some_digits s -> (forall r, s ≠ String "0" r) -> int_lit s.
Inductive frac_lit : string -> Prop :=
| fp_none : frac_lit ""
| fp_some s : some_digits s -> frac_lit ("." +++ s).
Inductive exp_lit : string -> Prop :=
| ep_none : exp_lit ""
| ep_some e g s : e = "e" ∨ e = "E" -> g = "" ∨ g = "+" ∨ g = "-" -> some_digits s ->
    exp_lit (e +++ g +++ s).
Inductive number_text : string -> Prop :=
| nt_make g i f e : g = "" ∨ g = "-" -> int_lit i -> frac_lit f -> exp_lit e ->
    number_text (g +++ i +++ f +++ e).

(** ** Strings *)
Definition hex (a : ascii) (d : N) : Prop :=
  digit a d ∨ (10 <= d < 16)%N ∧ (N_of_ascii a = 87 + d ∨ N_of_ascii a = 55 + d)%N.
Inductive four_hex : string -> N -> Prop :=
| fh_make a b c d w x y z : hex a w -> hex b x -> hex c y -> hex d z ->
    four_hex (String a (String b (String c (String d "")))) (w * 4096 + x * 256 + y * 16 + z)%N.
Definition u_text (s : string) (r : N) : Prop := exists h, s = bytes [92; 117]%N +++ h ∧ four_hex h r.
(** The bytes of a code point. *)
Definition char_bytes (r : N) : list N := if decide (r < 128)%N then [r] else utf8_bytes r.
Definition surrogate (r : N) : Prop := (55296 <= r < 57344)%N.
Definition low_half (r : N) : Prop := (56320 <= r < 57344)%N.
(** A letter after a backslash. *)
Definition escapes : list (N * N) :=
  [(34, 34); (92, 92); (47, 47); (98, 8); (102, 12); (110, 10); (114, 13); (116, 9)]%N.
(** No code point from 128 on has its encoding at the beginning of [s]. *)
Definition no_utf8 (s : string) : Prop := forall r rest, code_point r -> s ≠ bytes (utf8_bytes r) +++ rest.

(** [chars s v]: between quotes, [s] stands for the bytes [v].  Half of a surrogate pair and a
    byte that is not part of UTF-8 stand for U+FFFD. *)
Inductive chars : string -> string -> Prop :=
| ch_end : chars "" ""
| ch_ascii a s v : (32 <= N_of_ascii a < 128)%N -> N_of_ascii a ≠ 34%N -> N_of_ascii a ≠ 92%N ->
    chars s v -> chars (String a s) (String a v)
| ch_utf8 r s v : code_point r -> chars s v ->
    chars (bytes (utf8_bytes r) +++ s) (bytes (utf8_bytes r) +++ v)
| ch_bad a s v : (128 <= N_of_ascii a)%N -> no_utf8 (String a s) -> chars s v ->
    chars (String a s) (bytes (utf8_bytes 65533) +++ v)
| ch_letter e c s v : In (e, c) escapes -> chars s v ->
    chars (bytes [92; e]%N +++ s) (bytes [c] +++ v)
| ch_u u r s v : u_text u r -> ~ surrogate r -> chars s v ->
    chars (u +++ s) (bytes (char_bytes r) +++ v)
| ch_pair u u' r r' s v : u_text u r -> u_text u' r' -> surrogate r -> ~ low_half r -> low_half r' ->
    chars s v ->
    chars (u +++ u' +++ s) (bytes (utf8_bytes (65536 + (r - 55296) * 1024 + (r' - 56320))) +++ v)
| ch_half u r s v : u_text u r -> surrogate r ->
    low_half r ∨ (forall u' r' s', s = u' +++ s' -> u_text u' r' -> ~ low_half r') -> chars s v ->
    chars (u +++ s) (bytes (utf8_bytes 65533) +++ v).
Definition string_text (s v : string) : Prop :=
  exists c, s = bytes [34]%N +++ c +++ bytes [34]%N ∧ chars c v.

(** ** Values *)
Inductive value_text : string -> jtree -> Prop :=
| vt_null : value_text "null" JtNull
| vt_true : value_text "true" (JtBool true)
| vt_false : value_text "false" (JtBool false)
| vt_num s : number_text s -> value_text s (JtNum s)
| vt_str s v : string_text s v -> value_text s (JtStr v)
| vt_arr_empty w : white w -> value_text ("[" +++ w +++ "]") (JtArr [])
| vt_arr s l : elems_text s l -> value_text ("[" +++ s +++ "]") (JtArr l)
| vt_obj_empty w : white w -> value_text ("{" +++ w +++ "}") (JtObj [])
| vt_obj s m : members_text s m -> value_text ("{" +++ s +++ "}") (JtObj m)
with elems_text : string -> list jtree -> Prop :=
| et_one w s w' t : white w -> value_text s t -> white w' -> elems_text (w +++ s +++ w') [t]
| et_more w s w' t r l : white w -> value_text s t -> white w' -> elems_text r l ->
    elems_text (w +++ s +++ w' +++ "," +++ r) (t :: l)
with members_text : string -> list (string * jtree) -> Prop :=
| mt_one w k n w1 w2 s w3 t : white w -> string_text k n -> white w1 -> white w2 -> value_text s t ->
    white w3 -> members_text (w +++ k +++ w1 +++ ":" +++ w2 +++ s +++ w3) [(n, t)]
| mt_more w k n w1 w2 s w3 t r m : white w -> string_text k n -> white w1 -> white w2 -> value_text s t ->
    white w3 -> members_text r m ->
    members_text (w +++ k +++ w1 +++ ":" +++ w2 +++ s +++ w3 +++ "," +++ r) ((n, t) :: m).
Inductive json_text : string -> jtree -> Prop :=
| jt_make w s w' t : white w -> value_text s t -> white w' -> json_text (w +++ s +++ w') t.

(** ** What a text says as a Go value *)
Section values.
Context (T : textlib).
(** The names in the order in which they first appear. *)
Fixpoint firsts (l : list string) : list string :=
  match l with [] => [] | k :: l' => k :: filter (fun k' => k' ≠ k) (firsts l') end.
(** Each name once, with its last value. *)
Definition final_members {A} (m m' : list (string * A)) : Prop :=
  map fst m' = firsts (map fst m) ∧
  forall k v, (k, v) ∈ m' -> exists m1 m2, m = m1 ++ (k, v) :: m2 ∧ k ∉ map fst m2.
Inductive json_of : jtree -> json -> Prop :=
| jo_null : json_of JtNull JNull
| jo_bool b : json_of (JtBool b) (JBool b)
| jo_num s f : parse_num T s = Some f -> json_of (JtNum s) (JNum f)
| jo_str s : json_of (JtStr s) (JStr s)
| jo_arr l vs : Forall2 json_of l vs -> json_of (JtArr l) (JArr vs)
| jo_obj m vs m' : Forall2 (fun x y => fst x = fst y ∧ json_of (snd x) (snd y)) m vs ->
    final_members vs m' -> json_of (JtObj m) (JObj m').

(** [field_name k f]: the member name [k] is [f] up to case. *)
Inductive field_name : string -> string -> Prop :=
| fn_nil : field_name "" ""
| fn_same a k f : field_name k f -> field_name (String a k) (String a f)
| fn_upper a b k f : (65 <= N_of_ascii a <= 90)%N -> N_of_ascii b = (N_of_ascii a + 32)%N ->
    field_name k f -> field_name (String a k) (String b f)
| fn_long_s k f : field_name k f -> field_name (bytes (utf8_bytes 383) +++ k) (String "s" f).
(** The last member satisfying [P]. *)
Definition last_with (P : string -> jtree -> Prop) (m : list (string * jtree)) (t : jtree) : Prop :=
  exists m1 k m2, m = m1 ++ (k, t) :: m2 ∧ P k t ∧ forall k' t', (k', t') ∈ m2 -> ~ P k' t'.
(** The field [f] of a struct: every member of that name is to be skipped or has a value of the
    right type; the last one that is not skipped counts, without one the field keeps [dflt]. *)
Definition field {A} (f : string) (skip : jtree -> Prop) (is : jtree -> A -> Prop) (dflt : A)
  (m : list (string * jtree)) (a : A) : Prop :=
  (forall k t, (k, t) ∈ m -> field_name k f -> skip t ∨ exists x, is t x) ∧
  ((exists t, last_with (fun k t => field_name k f ∧ ~ skip t) m t ∧ is t a) ∨
   (forall k t, (k, t) ∈ m -> field_name k f -> skip t) ∧ a = dflt).
Definition is_text (t : jtree) (s : string) : Prop := t = JtStr s.
Definition is_stamp (t : jtree) (z : Z) : Prop := exists lit, t = JtNum lit ∧ int_text lit z.
(** The operation a member of the array describes; null stands for the zero operation. *)
Definition members_of (t : jtree) (m : list (string * jtree)) : Prop := t = JtNull ∧ m = [] ∨ t = JtObj m.
Definition standard : list (opkind * string) :=
  [(OAdd, "add"); (ORemove, "remove"); (OReplace, "replace"); (OMove, "move"); (OCopy, "copy"); (OTest, "test")].
Definition kind_name (k : opkind) (s : string) : Prop :=
  (k, s) ∈ standard ∨ k = OOther s ∧ forall k', (k', s) ∉ standard.
Definition any_json (v : any) (j : json) : Prop :=
  match j with
  | JNull => v = ANil
  | JBool b => v = ABool b
  | JNum f => v = ANum f
  | JStr s => v = AStr s
  | JArr l => v = ASlice l
  | JObj m => v = AMap m
  end.
Definition describes (t : jtree) (o : operation) : Prop :=
  exists m s j, members_of t m ∧ kind_name (op_kind o) s ∧ any_json (op_value o) j ∧
    field "op" (eq JtNull) is_text "" m s ∧ field "path" (eq JtNull) is_text "" m (op_path o) ∧
    field "value" (fun _ => False) json_of JNull m j ∧ field "timestamp" (eq JtNull) is_stamp 0 m (op_ts o).
(** [patch_text s p]: the text [s] is the JSON of the patch [p]; null is the nil patch. *)
Definition patch_text (s : string) (p : option (list operation)) : Prop :=
  json_text s JtNull ∧ p = None ∨
  exists l ops, json_text s (JtArr l) ∧ p = Some ops ∧ Forall2 describes l ops.
End values.

(** ** Texts and values that survive *)
Inductive utf8 : string -> Prop :=
| u8_nil : utf8 ""
| u8_ascii a s : (N_of_ascii a < 128)%N -> utf8 s -> utf8 (String a s)
| u8_rune r s : code_point r -> utf8 s -> utf8 (bytes (utf8_bytes r) +++ s).
(** UTF-8 without quotes, backslashes and control characters. *)
Inductive bare : string -> Prop :=
| pl_nil : bare ""
| pl_ascii a s : (32 <= N_of_ascii a < 128)%N -> N_of_ascii a ≠ 34%N -> N_of_ascii a ≠ 92%N -> bare s -> bare (String a s)
| pl_rune r s : code_point r -> bare s -> bare (bytes (utf8_bytes r) +++ s).

(** Every member name of the document satisfies [P]. *)
Inductive every_name (P : string -> Prop) : tson -> Prop :=
| evn_nil : every_name P TNil
| evn_leaf p ts : every_name P (TLeaf p ts)
| evn_obj m : Forall (fun kv => P (fst kv) ∧ every_name P (snd kv)) m -> every_name P (TObj m)
| evn_arr l : Forall (every_name P) l -> every_name P (TArr l).
(** An int64. *)
Definition int64 (z : Z) : Prop := - 2 ^ 63 <= z < 2 ^ 63.

Section kept.
Context (T : textlib) (num : f64 -> string).
(** The number is finite, [num f] is a JSON number and is read back as [f]. *)
Definition num_kept (f : f64) : Prop :=
  f ≠ S754_nan ∧ (forall s, f ≠ S754_infinity s) ∧ number_text (num f) ∧ parse_num T (num f) = Some f.
(** The decimal text of [z] is read as the float64 next to [z]. *)
Definition int_kept (z : Z) : Prop := parse_num T (z_text z) = Some (f64_of_Z z).
Inductive json_kept : json -> Prop :=
| jk_null : json_kept JNull
| jk_bool b : json_kept (JBool b)
| jk_num f : num_kept f -> json_kept (JNum f)
| jk_str s : utf8 s -> json_kept (JStr s)
| jk_arr l : Forall json_kept l -> json_kept (JArr l)
| jk_obj m : NoDup (map fst m) -> Forall (fun kv => utf8 (fst kv) ∧ json_kept (snd kv)) m -> json_kept (JObj m).
Definition prim_kept (p : prim) : Prop :=
  match p with PStr s => utf8 s | PNum f => num_kept f | PBool _ => True end.
Inductive doc_kept : tson -> Prop :=
| dk_nil : doc_kept TNil
| dk_leaf p ts : prim_kept p -> doc_kept (TLeaf p ts)
| dk_obj m : Forall (fun kv => utf8 (fst kv) ∧ doc_kept (snd kv)) m -> doc_kept (TObj m)
| dk_arr l : Forall doc_kept l -> doc_kept (TArr l).
Definition value_kept (v : any) : Prop :=
  match v with
  | ANil | ABool _ => True
  | AStr s => utf8 s
  | ANum f => num_kept f
  | AInt z => int_kept z
  | AMap m => json_kept (JObj m)
  | ASlice l => json_kept (JArr l)
  | ATson t => wf t ∧ doc_kept t ∧ every_stamp int_kept t
  end.
(** Some number is NaN or infinite. *)
Inductive not_finite : json -> Prop :=
| nf_nan : not_finite (JNum S754_nan)
| nf_inf s : not_finite (JNum (S754_infinity s))
| nf_elem l v : v ∈ l -> not_finite v -> not_finite (JArr l)
| nf_member m k v : (k, v) ∈ m -> not_finite v -> not_finite (JObj m).
Definition unwritable (v : any) : Prop :=
  match v with
  | ANum f => not_finite (JNum f)
  | AMap m => not_finite (JObj m)
  | ASlice l => not_finite (JArr l)
  | ATson t => ~ finite_nums t
  | _ => False
  end.
(** Values that come back as they were. *)
Definition scalar (v : any) : Prop :=
  match v with ANil | AStr _ | ANum _ | ABool _ => True | _ => False end.
(** What becomes of a value that is written and read: integers turn into float64, documents
    into the data of [ToCompatibleTson], and the members of maps may change their order. *)
Definition rereads (v v' : any) : Prop :=
  match v with
  | ANil | ABool _ | AStr _ | ANum _ => v' = v
  | AInt z => v' = ANum (f64_of_Z z)
  | AMap m => exists m', v' = AMap m' ∧ same_json (JObj m) (JObj m')
  | ASlice l => exists l', v' = ASlice l' ∧ same_json (JArr l) (JArr l')
  | ATson t => exists j j', to_compatible t = Ok j ∧ same_json j' j ∧ any_json v' j'
  end.
Definition rereads_op (o o' : operation) : Prop :=
  op_kind o' = op_kind o ∧ op_path o' = op_path o ∧ op_ts o' = op_ts o ∧ rereads (op_value o) (op_value o').
(** The name of the kind satisfies [P]. *)
Definition kind_text (P : string -> Prop) (k : opkind) : Prop := exists s, kind_name k s ∧ P s.
Definition op_kept (P : string -> Prop) (o : operation) : Prop :=
  kind_text P (op_kind o) ∧ P (op_path o) ∧ int64 (op_ts o) ∧ value_kept (op_value o).
End kept.
