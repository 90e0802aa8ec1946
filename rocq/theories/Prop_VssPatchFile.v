(** Theorems about the patch files of the vehicle data generator: C71. *)
From Verif Require Import Base BaseSpec Tson TsonInd TsonSpec F64 JsonSpec Json Serial TextSpec Patch PatchSpec DiffSpec Bytes JsonDemo
  Vss VssSpec VssPatchSpec VssFileSpec VssPatchFileSpec VssPatchFile VssDemo VssPatchDemo VssSaveDemo VssPatchFileDemo.

(** C71: the file of a patch whose names need no escapes and whose values have JSON as Go syntax is
    JSON for the patch, and is read as its operations. *)
Theorem C71_file : forall L compound no_text ops, Forall (op_files L) ops ->
  exists s ps, save_patch L compound no_text (JArr ops) = Ok s ∧ decode_any L s = Ok (JArr ops) ∧
    Json.unmarshal L s = Ok (Some ps) ∧ Forall2 op_reads ops ps.
Proof. exact save_patch_reads. Qed.
Print Assumptions C71_file.
Example C71_file_case : Forall (op_files lib) demo_ops ∧ forall compound no_text, save_patch lib compound no_text (JArr demo_ops) = Ok demo_file.
Proof. exact demo_ops_files. Qed.
(** C71: the data sets of a suitable schema have such patches. *)
Theorem C71_first : forall T num size R ord ts b d, schema d -> typed d -> schema_writes T num d -> schema_files T d -> (forall p, fair (R p)) ->
  (forall p, draws_write T num (R p)) -> (forall p, draws_file T (R p)) -> stamp_writes T ts -> int64 ts -> (forall l, ord l ≡ₚ l) ->
  exists r, generate size R ord ts (Vss b d) = Ok (Vss true r) ∧ telemetry T num r ∧ filed T r.
Proof. exact first_files. Qed.
Print Assumptions C71_first.
Example C71_first_case : schema spec_clean ∧ typed spec_clean ∧ schema_writes lib num spec_clean ∧ schema_files lib spec_clean ∧ (forall p, draws_file lib (demo_draws p)).
Proof. exact (conj spec_schema (conj spec_typed (conj spec_writes (conj spec_files demo_files)))). Qed.
(** C71: so do all rounds: the patch of every round can be saved, and the file is read back as the
    patch. *)
Theorem C71_round : forall T num compound no_text c m R ord ts d, telemetry T num d -> filed T d -> (forall p, fair (R p)) ->
  (forall p, draws_write T num (R p)) -> (forall p, draws_file T (R p)) -> stamp_writes T ts -> int64 ts -> (forall t, same_doc t (ord t)) ->
  exists d' ops s ps, generate_next T num c m R ord ts (Vss true d) = Ok (Vss true d', JArr ops) ∧ telemetry T num d' ∧ filed T d' ∧
    save_patch T compound no_text (JArr ops) = Ok s ∧ decode_any T s = Ok (JArr ops) ∧ Json.unmarshal T s = Ok (Some ps) ∧ Forall2 op_reads ops ps.
Proof. exact round_files. Qed.
Print Assumptions C71_round.
Example C71_round_case : telemetry lib num demo1 ∧ filed lib demo1 ∧ stamp_writes lib time2 ∧ int64 time2 ∧
  generate_next lib num one_half (S754_zero false) demo_draws id time2 (Vss true demo1) = Ok (Vss true (demo2 time2), JArr demo_ops).
Proof. exact (conj (proj1 demo1_telemetry) (conj demo1_filed (conj time2_writes (conj time2_int64 demo_patch)))). Qed.
(** C71: the timestamps in these files are kept by any number of further writes and reads. *)
Theorem C71_stamp : forall f z, f64_valid f = true -> read_stamp f z -> read_stamp (f64_of_Z z) z.
Proof. exact stamp_kept. Qed.
Print Assumptions C71_stamp.
Example C71_stamp_case : f64_valid (f64_of_Z time1') = true ∧ f64_to_int64 (f64_of_Z time1') ≠ time1'.
Proof. split; vm_compute; [reflexivity|discriminate]. Qed.
(** C71: a name with a quote makes the file unreadable. *)
Theorem C71_quote_refuted : exists T num c m R ts d d' ops, telemetry T num d ∧ (forall p, fair (R p)) ∧ (forall p, draws_write T num (R p)) ∧ (forall p, draws_file T (R p)) ∧
  stamp_writes T ts ∧ (forall q v t, cell d q v t -> cell_files T v) ∧ generate_next T num c m R id ts (Vss true d) = Ok (Vss true d', JArr ops) ∧
  forall compound no_text, exists s, save_patch T compound no_text (JArr ops) = Ok s ∧ decode_any T s = Err ∧ Json.unmarshal T s = Err.
Proof. exact quote_lost. Qed.
Print Assumptions C71_quote_refuted.
(** C71: so does a control character in a value. *)
Theorem C71_bell_refuted : exists T num c m R ts d d' ops, telemetry T num d ∧ (forall p, fair (R p)) ∧ (forall p, draws_write T num (R p)) ∧ (forall p, draws_file T (R p)) ∧
  stamp_writes T ts ∧ keyed bare d ∧ generate_next T num c m R id ts (Vss true d) = Ok (Vss true d', JArr ops) ∧
  forall compound no_text, exists s, save_patch T compound no_text (JArr ops) = Ok s ∧ decode_any T s = Err ∧ Json.unmarshal T s = Err.
Proof. exact bell_lost. Qed.
Print Assumptions C71_bell_refuted.
(** C71: with a node without datatype in the schema the second file makes Save panic. *)
Theorem C71_panic_refuted : exists T num c m R ts ts' d d' b s, schema s ∧ (forall p, fair (R p)) ∧ generate (f64_of_Z 1) R id ts (Vss b s) = Ok (Vss true d) ∧
  generate_next T num c m R id ts' (Vss true d) = Ok (Vss true d', JNull) ∧ forall compound no_text, save_patch T compound no_text JNull = Panic.
Proof. exact null_panic. Qed.
Print Assumptions C71_panic_refuted.
