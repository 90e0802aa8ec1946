(** Small specifications for the JSON written for documents. *)
From Verif Require Import Base F64 Tson TsonInd TextSpec TsonSpec Bytes.

(** [s] comes before [t] in the order of bytes: it is a proper beginning of [t], or the first
    byte in which they differ is smaller. *)
Definition before (s t : string) : Prop :=
  (exists c r, t = s +++ String c r)
  ∨ exists p a b r r', s = p +++ String a r ∧ t = p +++ String b r' ∧ (N_of_ascii a < N_of_ascii b)%N.
(** Keys ascend in every object. *)
Inductive ordered : wjson -> Prop :=
| or_null : ordered WNull
| or_bool b : ordered (WBool b)
| or_num f : ordered (WNum f)
| or_int z : ordered (WInt z)
| or_str s : ordered (WStr s)
| or_arr l : Forall ordered l -> ordered (WArr l)
| or_obj m : StronglySorted before (map fst m) -> Forall (fun kv => ordered (snd kv)) m -> ordered (WObj m).
(** The JSON for a document, whatever the order of members. *)
Inductive stands_for : wjson -> tson -> Prop :=
| sf_null : stands_for WNull TNil
| sf_str m s ts : m ≡ₚ [("value", WStr s); ("timestamp", WInt ts)] -> stands_for (WObj m) (TLeaf (PStr s) ts)
| sf_num m f ts : m ≡ₚ [("value", WNum f); ("timestamp", WInt ts)] -> stands_for (WObj m) (TLeaf (PNum f) ts)
| sf_bool m b ts : m ≡ₚ [("value", WBool b); ("timestamp", WInt ts)] -> stands_for (WObj m) (TLeaf (PBool b) ts)
| sf_arr ws l : Forall2 stands_for ws l -> stands_for (WArr ws) (TArr l)
| sf_obj ws ws' m : ws ≡ₚ ws' -> Forall2 (fun a b => fst a = fst b ∧ stands_for (snd a) (snd b)) ws' m ->
    stands_for (WObj ws) (TObj m).
(** The same with the order of members: the value of a leaf before its timestamp, members of
    objects by ascending names. *)
Inductive laid_out : wjson -> tson -> Prop :=
| lo_null : laid_out WNull TNil
| lo_leaf w p ts : stands_for (WObj [("value", w); ("timestamp", WInt ts)]) (TLeaf p ts) ->
    laid_out (WObj [("value", w); ("timestamp", WInt ts)]) (TLeaf p ts)
| lo_arr ws l : Forall2 laid_out ws l -> laid_out (WArr ws) (TArr l)
| lo_obj ws ws' m : StronglySorted before (map fst ws) -> ws ≡ₚ ws' ->
    Forall2 (fun a b => fst a = fst b ∧ laid_out (snd a) (snd b)) ws' m -> laid_out (WObj ws) (TObj m).
(** Every number is finite. *)
Inductive finite_nums : tson -> Prop :=
| fn_nil : finite_nums TNil
| fn_str s ts : finite_nums (TLeaf (PStr s) ts)
| fn_bool b ts : finite_nums (TLeaf (PBool b) ts)
| fn_num f ts : f <> S754_nan -> (forall s, f <> S754_infinity s) -> finite_nums (TLeaf (PNum f) ts)
| fn_obj m : Forall (fun kv => finite_nums (snd kv)) m -> finite_nums (TObj m)
| fn_arr l : Forall finite_nums l -> finite_nums (TArr l).

(** What [parseValue] accepts: null becomes nil, and a leaf needs a scalar value. *)
Inductive parses : json -> tson -> Prop :=
| ps_null : parses JNull TNil
| ps_leaf m p f ts : leaf_shape m (json_of_prim p) f -> read_stamp f ts -> parses (JObj m) (TLeaf p ts)
| ps_obj m ms : (forall v f, ~ leaf_shape m v f) ->
    Forall2 (fun a b => fst a = fst b ∧ parses (snd a) (snd b)) m ms -> parses (JObj m) (TObj ms)
| ps_arr l ls : Forall2 parses l ls -> parses (JArr l) (TArr ls).
