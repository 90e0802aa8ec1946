(** Theorems about runs of the vehicle data generator and the web demo: C72, C73. *)
From stdpp Require Import pretty.
From Verif Require Import Base BaseSpec Tson TsonInd TsonSpec F64 JsonSpec Json Serial GoText TextSpec Heap Patch PatchSpec DiffSpec Bytes JsonDemo
  Vss VssSpec VssPatchSpec VssFileSpec VssPatchFileSpec VssRun VssRunSpec VssRunLemmas VssWeb VssMeta VssDemo VssPatchDemo VssRunDemo VssStop.

(** C72: with all options, a suitable schema and suitable random numbers and times, the run leaves for
    every car its files: data sets, the first of which has the nodes that were kept with values that fit
    their datatypes, and patches from the first data set to each other one.  Other files stay. *)
Theorem C72_files : forall T num fmt0 compound no_text e o dataset cars n c m size b d fs,
  alookup "dataset" o = Some (WStr dataset) -> alookup "cars" o = Some (WInt cars) -> alookup "files" o = Some (WInt n) ->
  alookup "change_rate" o = Some (WNum c) -> alookup "maintain_rate" o = Some (WNum m) -> alookup "size" o = Some (WNum size) ->
  new_vss (e_read e dataset) = Ok (Vss b d) -> good_schema T num d -> good_env T num e ->
  exists fs' D, run_generate T num fmt0 compound no_text e o fs = (fs', Ok tt) ∧
    (forall nm, (forall i j, 1 <= i <= cars -> wanted n j -> nm ≠ tson_path i j ∧ nm ≠ patch_path i j) -> alookup nm fs' = alookup nm fs) ∧
    (forall i, 1 <= i <= cars ->
      (forall j, wanted n j -> telemetry T num (D i j) ∧ exists s, alookup (tson_path i j) fs' = Some s ∧ data_file T (D i j) s) ∧
      alookup (patch_path i 1) fs' = alookup (tson_path i 1) fs' ∧
      (forall j, 2 <= j <= n -> exists s, alookup (patch_path i j) fs' = Some s ∧ patch_file T (D i 1) (D i j) s) ∧
      (forall q, (exists x, leaf_at (D i 1) q x) <-> node d q ∧ SFltb size (d_float (e_draws e i 1 (String.concat "." q)) 0) = false) ∧
      (forall q v t, cell (D i 1) q v t -> t = e_time e i 1) ∧
      (forall j, 2 <= j <= n -> renewed (e_time e i j) (D i 1) (D i j)) ∧
      (forall q x, leaf_at (D i 1) q x -> fits (attr d q) (e_time e i 1) x)).
Proof. exact run_good. Qed.
Print Assumptions C72_files.
Example C72_files_case : new_vss (e_read demo_env "vss.json") = Ok (Vss false spec_clean) ∧ good_schema lib num spec_clean ∧ good_env lib num demo_env ∧
  map fst demo_run = ["car_1/tson/1_1.tson"; "car_1/patches/1_1.json"; "car_1/tson/1_2.tson"; "car_1/patches/1_2.json"; "car_1/tson/1_3.tson"; "car_1/patches/1_3.json"].
Proof. exact (conj spec_new (conj demo_schema (conj demo_good demo_names))). Qed.
(** C72: the patch files are no chain from each data set to the next: a value can change between two
    data sets without an operation in the patch file of the second. *)
Theorem C72_chain_refuted : exists T num fmt0 e o dataset d fs' s2 t2 s3 t3 sp ps b2 b3 z2 z3,
  alookup "dataset" o = Some (WStr dataset) ∧ new_vss (e_read e dataset) = Ok (Vss false d) ∧ good_schema T num d ∧ good_env T num e ∧
  (forall compound no_text, run_generate T num fmt0 compound no_text e o [] = (fs', Ok tt)) ∧
  alookup (tson_path 1 2) fs' = Some s2 ∧ Serial.unmarshal T s2 = Ok t2 ∧ at_path t2 [Key "Vehicle"; Key "Body"; Key "Lock"] = Some (TLeaf (PBool b2) z2) ∧
  alookup (tson_path 1 3) fs' = Some s3 ∧ Serial.unmarshal T s3 = Ok t3 ∧ at_path t3 [Key "Vehicle"; Key "Body"; Key "Lock"] = Some (TLeaf (PBool b3) z3) ∧ b2 ≠ b3 ∧
  alookup (patch_path 1 3) fs' = Some sp ∧ Json.unmarshal T sp = Ok (Some ps) ∧ Forall (fun p => op_path p ≠ written [Key "Vehicle"; Key "Body"; Key "Lock"]) ps.
Proof. exact chain_lost. Qed.
Print Assumptions C72_chain_refuted.
(** C72: without the option maintain_rate the run panics before it writes anything. *)
Theorem C72_missing : forall T num fmt0 compound no_text e o fs,
  alookup "maintain_rate" o = None -> run_generate T num fmt0 compound no_text e o fs = (fs, Panic).
Proof. exact run_missing. Qed.
Print Assumptions C72_missing.
Example C72_missing_case : alookup "maintain_rate" default_options = None ∧ alookup "change_rate" default_options ≠ None.
Proof. done. Qed.
(** C72: so it does if the file holds no map, such as one that cannot be read, and, with a car to
    write, if an attribute is outside of any node. *)
Theorem C72_stops : forall T num fmt0 compound no_text e o dataset cars n c m size fs,
  alookup "dataset" o = Some (WStr dataset) -> alookup "cars" o = Some (WInt cars) -> alookup "files" o = Some (WInt n) ->
  alookup "change_rate" o = Some (WNum c) -> alookup "maintain_rate" o = Some (WNum m) -> alookup "size" o = Some (WNum size) ->
  ~ is_map (e_read e dataset) ∨
    (exists b d k x, new_vss (e_read e dataset) = Ok (Vss b d) ∧ keyed schema_name d ∧ leaf_at d [k] x ∧ 1 <= cars) ->
  run_generate T num fmt0 compound no_text e o fs = (fs, Panic).
Proof. exact run_stops. Qed.
Print Assumptions C72_stops.
Example C72_stops_case : ~ is_map (e_read stray_env "none.json") ∧
  exists b d k x, new_vss (e_read stray_env "vss.json") = Ok (Vss b d) ∧ keyed schema_name d ∧ leaf_at d [k] x ∧ 1 <= 1.
Proof. exact stray_stops. Qed.
(** C72: the program never gives that option: the files are deleted, the metadata are written, and it
    panics, whatever the flags. *)
Theorem C72_program : forall T num fmt0 compound no_text e args old r,
  generate_vss T num fmt0 compound no_text e args old = Some r -> exists s, r = ([("metadata.json", s)], Panic).
Proof. exact vss_missing. Qed.
Print Assumptions C72_program.
Example C72_program_case : exists r, generate_vss lib num go_fmt0 (fun _ => "") (fun _ => "") demo_env (Some (Flags "vss.json" 1 3 one_half one_half)) [("car_1/tson/1_1.tson", "{}")] = Some r.
Proof. eexists. reflexivity. Qed.
(** C72: the metadata file is JSON for the options. *)
Theorem C72_metadata : forall T num o, NoDup (map fst o) -> Forall (fun kv => utf8 (fst kv) ∧ value_writes T num (snd kv)) o ->
  exists m, decode_any T (metadata_text num o) = Ok (JObj m) ∧ forall k, alookup k m = option_map (fun v => json_of_prim (as_prim v)) (alookup k o).
Proof. exact metadata_read. Qed.
Print Assumptions C72_metadata.
Example C72_metadata_case : NoDup (map fst default_options) ∧ Forall (fun kv => utf8 (fst kv) ∧ value_writes lib num (snd kv)) default_options.
Proof. exact defaults_write. Qed.

(** C73: after such a run the web demo sends the first data set and the patches on request, and its
    documents for later data sets have all cells of the first data set unchanged. *)
Theorem C73_run : forall T num fmt0 compound no_text e o dataset cars n c m size b d fs,
  alookup "dataset" o = Some (WStr dataset) -> alookup "cars" o = Some (WInt cars) -> alookup "files" o = Some (WInt n) ->
  alookup "change_rate" o = Some (WNum c) -> alookup "maintain_rate" o = Some (WNum m) -> alookup "size" o = Some (WNum size) ->
  new_vss (e_read e dataset) = Ok (Vss b d) -> good_schema T num d -> good_env T num e ->
  exists fs' D, run_generate T num fmt0 compound no_text e o fs = (fs', Ok tt) ∧ forall i, 1 <= i <= cars ->
    data_file T (D i 1) (update_handler (pretty i) "" fs') ∧
    (forall j, 2 <= j <= n -> patch_file T (D i 1) (D i j) (update_handler (pretty i) (pretty j) fs')) ∧
    (forall k h h' s, k <= n -> patch_handler T i k fs' h = (h', Ok s) ->
      s = "null" ∧ (forall j q v0 t0 v t, 2 <= j <= k -> cell (D i 1) q v0 t0 -> cell (D i j) q v t -> TsonSpec.prim_eq (as_prim v0) (as_prim v) ∧ same_stamp t0 t) ∨
      exists t', s = marshal_indent T t' "" "  " ∧ forall q v t, cell (D i 1) q v t -> at_path t' q = Some (TLeaf (as_prim v) t)).
Proof. exact web_run. Qed.
Print Assumptions C73_run.
Example C73_run_case : exists h', patch_handler lib 1 2 demo_run [] = (h', Ok demo_sent).
Proof. exact demo_handler. Qed.
(** C73: so the document for the second data set need not show its values: they are below a member with
    an empty name. *)
Theorem C73_current_refuted : exists T num fmt0 e o dataset d fs' h' s t s2 t2 b b2 z z2,
  alookup "dataset" o = Some (WStr dataset) ∧ new_vss (e_read e dataset) = Ok (Vss false d) ∧ good_schema T num d ∧ good_env T num e ∧
  (forall compound no_text, run_generate T num fmt0 compound no_text e o [] = (fs', Ok tt)) ∧
  patch_handler T 1 2 fs' [] = (h', Ok s) ∧ Serial.unmarshal T s = Ok t ∧ at_path t [Key "Vehicle"; Key "Body"; Key "Lock"] = Some (TLeaf (PBool b) z) ∧
  alookup (tson_path 1 2) fs' = Some s2 ∧ Serial.unmarshal T s2 = Ok t2 ∧ at_path t2 [Key "Vehicle"; Key "Body"; Key "Lock"] = Some (TLeaf (PBool b2) z2) ∧
  b ≠ b2 ∧ at_path t [Key ""; Key "Vehicle"; Key "Body"; Key "Lock"] = Some (TLeaf (PBool b2) z2).
Proof. exact sent_stale. Qed.
Print Assumptions C73_current_refuted.
(** C73: asked for the first data set, the handler panics. *)
Theorem C73_early : forall T car n fs h, n < 2 -> exists h', patch_handler T car n fs h = (h', Panic).
Proof. exact handler_early. Qed.
Print Assumptions C73_early.
Example C73_early_case : exists D s, alookup (tson_path 1 1) demo_run = Some s ∧ data_file lib (D 1) s.
Proof. exact (let '(ex_intro _ D (conj H _)) := demo_files_good in ex_intro _ D (proj2 (H 1 (or_introl eq_refl)))). Qed.
