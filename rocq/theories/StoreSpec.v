(** What the files of a run should hold, stated on JSON texts and on the run. *)
From Verif Require Import Base BaseSpec F64 Tson TsonSpec Bytes Serial TextSpec Heap Patch Json JsonSpec TjsonSpec Tjson Sensor Sim SimSpec RangeSpec Temporal TemporalSpec Store.

(** Data whose strings, numbers and integers survive being written and read, and whose objects have
    every name once. *)
Inductive survives (T : textlib) (num : f64 -> string) : wjson -> Prop :=
| sv_null : survives T num WNull
| sv_bool b : survives T num (WBool b)
| sv_num f : num_kept T num f -> survives T num (WNum f)
| sv_int z : int_kept T z -> survives T num (WInt z)
| sv_str s : utf8 s -> survives T num (WStr s)
| sv_arr l : Forall (survives T num) l -> survives T num (WArr l)
| sv_obj m : NoDup (map fst m) -> Forall (fun kv => utf8 (fst kv) ∧ survives T num (snd kv)) m -> survives T num (WObj m).
(** Some number in the data is NaN or infinite. *)
Inductive no_number : wjson -> Prop :=
| nn_here f : f = S754_nan ∨ (exists s, f = S754_infinity s) -> no_number (WNum f)
| nn_elem l w : w ∈ l -> no_number w -> no_number (WArr l)
| nn_member m k w : (k, w) ∈ m -> no_number w -> no_number (WObj m).

(** The patch an element of the array describes; null stands for the zero patch. *)
Definition patch_of (T : textlib) (t : jtree) (u : tpatch) : Prop :=
  exists m, members_of t m ∧ field "op" (eq JtNull) is_text "" m (tp_op u) ∧ field "path" (eq JtNull) is_text "" m (tp_path u) ∧
    field "value" (fun _ => False) (json_of T) JNull m (tp_value u) ∧ field "timestamp" (eq JtNull) is_stamp 0 m (tp_ts u).
(** [patches_text s us]: the text [s] is the JSON of the patches; null stands for none. *)
Definition patches_text (T : textlib) (s : string) (us : list tpatch) : Prop :=
  json_text s JtNull ∧ us = [] ∨ exists l, json_text s (JtArr l) ∧ Forall2 (patch_of T) l us.

(** A date and a time of the day. *)
Definition clock_ok (c : clock) : Prop :=
  0 <= ck_year c < 10000 ∧ 1 <= ck_month c <= 12 ∧ 1 <= ck_day c <= 31 ∧
  0 <= ck_hour c < 24 ∧ 0 <= ck_minute c < 60 ∧ 0 <= ck_second c < 60.
(** The time [c] is before the time [c']: the first part in which they differ is less. *)
Definition clock_parts (c : clock) : list Z := [ck_year c; ck_month c; ck_day c; ck_hour c; ck_minute c; ck_second c].
Definition before (c c' : clock) : Prop :=
  exists l x r x' r', clock_parts c = l ++ x :: r ∧ clock_parts c' = l ++ x' :: r' ∧ x < x'.

(** The time as the number yyyymmddhhmmss. *)
Definition clock_number (c : clock) : Z :=
  ((((ck_year c * 100 + ck_month c) * 100 + ck_day c) * 100 + ck_hour c) * 100 + ck_minute c) * 100 + ck_second c.
(** The run started at [c] has a directory, and no directory is that of a later run. *)
Definition newest (entries : list (string * bool)) (c : clock) : Prop :=
  (run_dir c, true) ∈ entries ∧ forall s n, (s, true) ∈ entries -> is_run s n -> n <= clock_number c.

(** The names, values and times of a run survive in its files. *)
Record run_survives (T : textlib) (num : f64 -> string) (v : vehicle) (m : run_state) : Prop := {
  rs_start : forall p s, (p, s) ∈ sensors v -> utf8 p ∧ prim_kept T num (s_value s) ∧ int_kept T (s_stamp s);
  rs_updates : forall q, q ∈ m_spatches m -> utf8 (sp_path q) ∧ prim_kept T num (sp_value q) ∧ int_kept T (sp_ts q) ∧ int64 (sp_ts q) }.
(** The library writes and reads finite numbers and int64 exactly. *)
Definition reads_back (T : textlib) (num : f64 -> string) : Prop :=
  (forall x, number x -> num_kept T num x) ∧ (forall z, int64 z -> int_kept T z).
(** The file [name] is JSON that decodes to what was written as [w]. *)
Definition file_holds (T : textlib) (fs : list (string * string)) (name : string) (w : wjson) : Prop :=
  exists s t j, alookup name fs = Some s ∧ json_text s t ∧ json_of T t j ∧ decoded w j.
(** The file [name] is JSON for the value [j]. *)
Definition file_says (T : textlib) (fs : list (string * string)) (name : string) (j : json) : Prop :=
  exists s t, alookup name fs = Some s ∧ json_text s t ∧ json_of T t j.
(** [map_text s j]: the text [s] is JSON for the object [j]; null stands for the empty one. *)
Definition map_text (T : textlib) (s : string) (j : json) : Prop :=
  json_text s JtNull ∧ j = JObj [] ∨ exists m, json_text s (JtObj m) ∧ json_of T (JtObj m) j.
(** The patches in a directory: none if there is no such file. *)
Definition stored_patches (T : textlib) (fs : list (string * string)) (us : list tpatch) : Prop :=
  alookup "all_tson_patches.json" fs = None ∧ us = [] ∨ exists s, alookup "all_tson_patches.json" fs = Some s ∧ patches_text T s us.
(** The initial document in a directory. *)
Definition stored_document (T : textlib) (fs : list (string * string)) (j : json) : Prop :=
  exists s, alookup "initial_json.json" fs = Some s ∧ map_text T s j.
(** A JSON patch as data. *)
Definition patch_data (q : jpatch) : json :=
  JObj [("op", JStr "replace"); ("path", JStr (jp_path q));
        ("value", match jp_value q with PVal x => json_of_prim x | PTime z => JNum (f64_of_Z z) end)].
(** The members of the objects are met in some order. *)
Definition reorders (order : nat -> json -> json) : Prop := forall i j, TsonSpec.same_json j (order i j).
