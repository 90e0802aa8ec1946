(** The property theorems C69 and C70. *)
From Verif Require Import Base BaseSpec Tson TsonInd TsonSpec F64 JsonSpec Json Serial GoText TextSpec PatchSpec Bytes JsonDemo Vss VssSpec VssPatchSpec VssDemo VssPatchDemo
  VssBuild VssBuildDemo VssFileSpec VssSave VssFile VssSaveDemo.

(** C69: building data from the leaf nodes of a schema keeps every leaf, at its path without
    "children", and adds nothing. *)
Theorem C69_build : forall d, is_map d -> ~ stamped d -> keyed (fun k => schema_name k ∧ ~ index_name k) d ->
  (forall l l' x x', leaf_at d l x -> leaf_at d l' x' -> visible l `prefix_of` visible l' -> l = l') ->
  exists r, build_from_leaf_nodes d = Ok r ∧ is_map r ∧ keyed (fun k => schema_name k ∧ ~ index_name k) r ∧
    (forall q x, leaf_at r q x <-> exists l, leaf_at d l x ∧ q = visible l) ∧
    ((forall l x q, leaf_at d l x -> ~ item x q (WObj [])) -> forall q, q ≠ [] -> ~ item r q (WObj [])).
Proof. exact build_exact. Qed.
Print Assumptions C69_build.
Example C69_build_case : is_map spec_clean ∧ ~ stamped spec_clean ∧ keyed (fun k => schema_name k ∧ ~ index_name k) spec_clean ∧
  (forall l l' x x', leaf_at spec_clean l x -> leaf_at spec_clean l' x' -> visible l `prefix_of` visible l' -> l = l') ∧
  build_from_leaf_nodes spec_clean = Ok spec_built.
Proof. exact spec_build. Qed.
(** C69: a name in brackets is taken for an index; what is no number is lost. *)
Theorem C69_index_refuted : exists d r, is_map d ∧ build_from_leaf_nodes d = Ok r ∧
  d = WObj [("a", WObj [("[1]", WInt 5); ("[x]", WInt 6)])] ∧ r = WObj [("a", WObj [("array", WArr [WNull; WInt 5])])].
Proof. exact (ex_intro _ _ (ex_intro _ _ (conj (ex_intro _ _ eq_refl) (conj index_moved (conj eq_refl eq_refl))))). Qed.
Print Assumptions C69_index_refuted.
(** C69: a negative index is a panic. *)
Theorem C69_panic_refuted : exists d, is_map d ∧ build_from_leaf_nodes d = Panic.
Proof. exact (ex_intro _ _ (conj (ex_intro _ _ eq_refl) index_negative)). Qed.
Print Assumptions C69_panic_refuted.
(** C69: empty branches are lost, and so is a leaf whose path without "children" is taken. *)
Theorem C69_lost_refuted :
  build_from_leaf_nodes (WObj [("a", WObj []); ("b", WInt 1)]) = Ok (WObj [("b", WInt 1)]) ∧
  build_from_leaf_nodes (WObj [("a", WObj [("children", WObj [("x", WInt 1)]); ("x", WInt 2)])]) = Ok (WObj [("a", WObj [("x", WInt 2)])]).
Proof. exact (conj branch_lost child_lost). Qed.
Print Assumptions C69_lost_refuted.

(** C70: the file of a data set is read as the document with its cells as leaves, with their exact
    timestamps. *)
Theorem C70_file : forall L fmt0 d, storable L d -> exists t, Serial.unmarshal L (save_data L fmt0 d) = Ok t ∧ shown d t.
Proof. exact save_exact. Qed.
Print Assumptions C70_file.
Example C70_file_case : storable lib demo1 ∧ save_data lib go_fmt0 demo1 = saved_demo.
Proof. exact (conj demo_storable demo_saved). Qed.
(** C70: so are the files of Generate and of any number of rounds of GenerateNext. *)
Theorem C70_generated : forall L fmt0 d c m r, schema d -> typed d -> schema_saves L d -> generated L d c m r ->
  exists t, Serial.unmarshal L (save_data L fmt0 r) = Ok t ∧ shown r t.
Proof. exact generated_exact. Qed.
Print Assumptions C70_generated.
Example C70_generated_case : schema spec_clean ∧ typed spec_clean ∧ schema_saves lib spec_clean ∧ generated lib spec_clean one_half (S754_zero false) demo1.
Proof. exact (conj spec_schema (conj spec_typed (conj spec_saves demo_generated))). Qed.
(** C70: the file is empty exactly when some timestamp belongs to no plain value, or there is an
    integer without timestamp. *)
Theorem C70_empty : forall L fmt0 P d, keyed P d -> is_map d -> save_data L fmt0 d = "" <-> unsaved d.
Proof. exact save_lost. Qed.
Print Assumptions C70_empty.
Example C70_empty_case : (keyed schema_name untyped_data ∧ is_map untyped_data ∧ unsaved untyped_data) ∧
  generate (f64_of_Z 1) demo_draws id 5 (Vss false untyped_spec) = Ok (Vss true untyped_data) ∧ save_data lib go_fmt0 untyped_data = "".
Proof. exact (conj untyped_unsaved untyped_generate). Qed.
(** C70: a text read as TSON and as JSON has no timestamps. *)
Theorem C70_not_json : forall L s t tr, Serial.unmarshal L s = Ok t -> json_text s tr -> every_stamp (fun ts => ts = 0 ∨ ts = -1) t.
Proof. exact both_stamps. Qed.
Print Assumptions C70_not_json.
Example C70_not_json_case : Serial.unmarshal lib "{""a"": 1}" = Ok (TObj [("a", TLeaf (PNum (f64_of_Z 1)) 0)]) ∧ exists tr, json_text "{""a"": 1}" tr.
Proof. exact plain_both. Qed.
(** C70: ToMapStringInterface, which reads such a file as JSON, fails for every data set. *)
Theorem C70_map_fails : forall L fmt0 d q v ts, storable L d -> cell d q v ts -> 0 < ts -> to_map L fmt0 d = Err.
Proof. exact to_map_fails. Qed.
Print Assumptions C70_map_fails.
Example C70_map_fails_case : storable lib demo1 ∧ cell demo1 (map Key ["Vehicle"; "Speed"]) (WNum (f64_of_Z 75)) time1.
Proof. exact (conj demo_storable demo_cell). Qed.
(** C70: a number drawn may be so small that the file cannot be read. *)
Theorem C70_small_refuted : exists f, SFltb (S754_zero false) f = true ∧ below_hundred f ∧
  Serial.unmarshal lib (save_data lib go_fmt0 (WObj [("A", leaf_case (WNum f) 5)])) = Err.
Proof. exact small_lost. Qed.
Print Assumptions C70_small_refuted.
(** C70: numbers without timestamp are rounded: two schemas, one file. *)
Theorem C70_schema_refuted : exists d d', d ≠ d' ∧ save_data lib go_fmt0 d = save_data lib go_fmt0 d'.
Proof. exact two_schemas. Qed.
Print Assumptions C70_schema_refuted.
