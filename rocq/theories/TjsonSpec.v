(** What a temporal JSON document should say, stated on the list of patches. *)
From Verif Require Import Base BaseSpec F64 Tson Tjson.

(** Equal JSON values: numbers as numbers, objects whatever the order of their members. *)
Inductive same_json : json -> json -> Prop :=
| sj_null : same_json JNull JNull
| sj_bool b : same_json (JBool b) (JBool b)
| sj_num x y : f64_eq x y = true -> same_json (JNum x) (JNum y)
| sj_str s : same_json (JStr s) (JStr s)
| sj_arr l l' : Forall2 same_json l l' -> same_json (JArr l) (JArr l')
| sj_obj m m' : length m = length m' ->
    Forall (fun kv => exists v', alookup (fst kv) m' = Some v' ∧ same_json (snd kv) v') m ->
    same_json (JObj m) (JObj m').

(** Equal, or equal as JSON values. *)
Definition alike (v w : json) : Prop := v = w ∨ same_json v w.

(** [names seps s l]: [s] is the names [l] with one of the separators between them. *)
Inductive free_of (seps : list ascii) : string -> Prop :=
| fo_nil : free_of seps ""
| fo_cons a s : ~ In a seps -> free_of seps s -> free_of seps (String a s).
Inductive names (seps : list ascii) : string -> list string -> Prop :=
| nm_one s : free_of seps s -> names seps s [s]
| nm_more s c r l : free_of seps s -> In c seps -> names seps r l ->
    names seps (s +++ String c r) (s :: l).
(** The names a patch path stands for: a leading slash is dropped, and both slashes and dots
    separate. *)
Inductive route : string -> list string -> Prop :=
| rt_slash s l : names ["/"; "."]%char s l -> route (String "/" s) l
| rt_plain s l : (forall r, s ≠ String "/" r) -> names ["/"; "."]%char s l -> route s l.

(** The value in force at [l] at the time [t] after the patches, in the given order. *)
Inductive value_at (l : list string) (t : Z) : list tpatch -> option json -> Prop :=
| va_nil : value_at l t [] None
| va_set ps p r : value_at l t ps r -> route (tp_path p) l -> tp_ts p <= t ->
    tp_op p = "add" ∨ tp_op p = "replace" -> value_at l t (ps ++ [p]) (Some (tp_value p))
| va_remove ps p r : value_at l t ps r -> route (tp_path p) l -> tp_ts p <= t ->
    tp_op p = "remove" -> value_at l t (ps ++ [p]) None
| va_other ps p r : value_at l t ps r ->
    ~ route (tp_path p) l ∨ t < tp_ts p ∨ ~ In (tp_op p) ["add"; "replace"; "remove"] ->
    value_at l t (ps ++ [p]) r.

(** [sort.Slice]: the same elements, in ascending order, equal keys in any order. *)
Definition sorting {A} (key : A -> Z) (srt : list A -> list A) : Prop :=
  forall l, Permutation (srt l) l ∧ StronglySorted (fun x y => key x <= key y) (srt l).

(** The value below [l] in a JSON object. *)
Fixpoint below (l : list string) (j : json) : option json :=
  match l with
  | [] => Some j
  | k :: l' => match j with
               | JObj m => match alookup k m with Some v => below l' v | None => None end
               | _ => None
               end
  end.
(** The text of a period. *)
Inductive nat_text : string -> Z -> Prop :=
| nt_intro s n : digits s n -> nat_text s (Z.of_N n).
Definition period (s : string) (a b : Z) : Prop :=
  exists x y, s = x +++ "-" +++ y ∧ nat_text x a ∧ nat_text y b.

(** [sort.Slice] by the start of the period, on entries that all have one. *)
Definition by_start (srt : list (string * json) -> list (string * json)) : Prop :=
  forall l, (forall x v, (x, v) ∈ l -> exists a b, period x a b ∧ a < 2 ^ 63 ∧ b < 2 ^ 63) ->
  Permutation (srt l) l ∧
  StronglySorted (fun x y => forall a b a' b',
    period (fst x) a b -> period (fst y) a' b' -> a <= a') (srt l).

(** A patch that gives the names [l] a value. *)
Definition sets (p : tpatch) (l : list string) : Prop :=
  (tp_op p = "add" ∨ tp_op p = "replace") ∧ route (tp_path p) l.

(** Times of the patches on [l]: no negative ones, and at time 0 (that of the initial values)
    at most one patch, or only patches setting the same value. *)
Definition times_ok (l : list string) (ps : list tpatch) : Prop :=
  (forall p, p ∈ ps -> route (tp_path p) l -> 0 <= tp_ts p < 2 ^ 63) ∧
  ((forall a p b p' c, ps = a ++ p :: b ++ p' :: c ->
      route (tp_path p) l -> route (tp_path p') l -> tp_ts p = 0 -> tp_ts p' <> 0) ∨
   (forall p p', p ∈ ps -> p' ∈ ps -> route (tp_path p) l -> route (tp_path p') l ->
      tp_ts p = 0 -> tp_ts p' = 0 -> sets p l ∧ same_json (tp_value p) (tp_value p'))).
