(** What a run of the vehicle data generator should leave behind. *)
From stdpp Require Import pretty.
From Verif Require Import Base BaseSpec Tson TsonInd TsonSpec F64 Serial TextSpec PatchSpec Heap Patch DiffSpec JsonSpec Bytes Json Vss VssSpec VssPatchSpec VssFileSpec VssPatchFileSpec VssRun.

(** Names of files. *)
Definition tson_path (i j : Z) : string := "car_" +++ pretty i +++ "/tson/" +++ pretty i +++ "_" +++ pretty j +++ ".tson".
Definition patch_path (i j : Z) : string := "car_" +++ pretty i +++ "/patches/" +++ pretty i +++ "_" +++ pretty j +++ ".json".
(** The files of one car: the first one is always written. *)
Definition wanted (n j : Z) : Prop := j = 1 ∨ 2 <= j <= n.

Section run.
Context (T : textlib) (num : f64 -> string).
(** A schema all of whose data can be written and read, random numbers and times for which this
    holds. *)
Record good_schema (d : wjson) : Prop := GoodSchema {
  gs_schema : schema d; gs_typed : typed d; gs_writes : schema_writes T num d; gs_files : schema_files T d; gs_saves : schema_saves T d }.
Record good_draws (D : draws) : Prop := GoodDraws {
  gd_fair : fair D; gd_writes : draws_write T num D; gd_files : draws_file T D; gd_saves : draws_save T D }.
Definition good_time (ts : Z) : Prop := stamp_writes T ts ∧ 0 <= ts <= int64_max.
Record good_env (e : env) : Prop := GoodEnv {
  ge_draws : forall i j p, good_draws (e_draws e i j p);
  ge_nodes : forall i l, e_nodes e i l ≡ₚ l;
  ge_maps : forall i j t, same_doc t (e_maps e i j t);
  ge_time : forall i j, good_time (e_time e i j) }.

(** The file [s] holds the data set [d]. *)
Definition data_file (d : wjson) (s : string) : Prop := exists t, Serial.unmarshal T s = Ok t ∧ shown d t.
(** The file [s] holds the patch from [d] to [d']: a replacement of every cell with another value or
    another rounded timestamp. *)
Definition patch_file (d d' : wjson) (s : string) : Prop :=
  exists ops ps, decode_any T s = Ok (JArr ops) ∧ Json.unmarshal T s = Ok (Some ps) ∧ Forall2 op_reads ops ps ∧ NoDup (map op_pointer ops) ∧
    forall o, o ∈ ops <-> exists q v0 t0 v t, cell d q v0 t0 ∧ cell d' q v t ∧
      (~ TsonSpec.prim_eq (as_prim v0) (as_prim v) ∨ ~ same_stamp t0 t) ∧ renewal q v t o.
End run.
(** [d'] comes from [d] by a round at time [ts]: the same leaves, and cells that are old or have the
    time [ts]. *)
Definition renewed (ts : Z) (d d' : wjson) : Prop :=
  (forall l, (exists x, leaf_at d l x) <-> exists x, leaf_at d' l x) ∧
  forall q v t, cell d' q v t -> exists v0 t0, cell d q v0 t0 ∧ (t = ts ∨ v0 = v ∧ t0 = t).
