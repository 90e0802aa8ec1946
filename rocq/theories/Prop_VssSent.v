(** Theorems about the documents of the web demo: C73. *)
From stdpp Require Import pretty.
From Verif Require Import Base BaseSpec Tson TsonInd TsonSpec F64 JsonSpec Json Serial GoText TextSpec Heap Patch PatchSpec DiffSpec Bytes JsonDemo
  Vss VssSpec VssPatchSpec VssFileSpec VssPatchFileSpec VssRun VssRunSpec VssDemo VssPatchDemo VssRunDemo VssSentSpec VssSent VssSentDemo.

(** C73: when the names of the schema have no "/" and are no integers, the web demo answers for every
    data set but the first, and the leaves of its document are exactly those of the first data set and,
    below a member with an empty name, the newest state of every cell that changed. *)
Theorem C73_answers : forall T num fmt0 compound no_text e o dataset cars n c m size b d fs,
  alookup "dataset" o = Some (WStr dataset) -> alookup "cars" o = Some (WInt cars) -> alookup "files" o = Some (WInt n) ->
  alookup "change_rate" o = Some (WNum c) -> alookup "maintain_rate" o = Some (WNum m) -> alookup "size" o = Some (WNum size) ->
  new_vss (e_read e dataset) = Ok (Vss b d) -> good_schema T num d -> good_env T num e -> web_names d ->
  exists fs' D, run_generate T num fmt0 compound no_text e o fs = (fs', Ok tt) ∧ forall i, 1 <= i <= cars ->
    (forall j, wanted n j -> exists s, alookup (tson_path i j) fs' = Some s ∧ data_file T (D i j) s) ∧
    forall k h, 2 <= k <= n -> exists h' s, patch_handler T i k fs' h = (h', Ok s) ∧ sent T (D i) k s.
Proof. exact web_answers. Qed.
Print Assumptions C73_answers.
Example C73_answers_case : web_names spec_clean ∧ exists h' t, patch_handler lib 1 3 demo_run [] = (h', Ok sent3) ∧ Serial.unmarshal lib sent3 = Ok t ∧
  at_path t [Key "Vehicle"; Key "Body"; Key "Lock"] = Some (TLeaf (PBool false) time1) ∧
  at_path t [Key ""; Key "Vehicle"; Key "Body"; Key "Lock"] = Some (TLeaf (PBool true) time2).
Proof. exact (conj spec_web sent3_case). Qed.
(** C73: with an integer as a name it can panic instead. *)
Theorem C73_answers_refuted : exists T num fmt0 e o dataset d fs',
  alookup "dataset" o = Some (WStr dataset) ∧ new_vss (e_read e dataset) = Ok (Vss false d) ∧ good_schema T num d ∧ good_env T num e ∧
  (forall compound no_text, run_generate T num fmt0 compound no_text e o [] = (fs', Ok tt)) ∧
  exists h', patch_handler T 1 2 fs' [] = (h', Panic).
Proof. exact row_panics. Qed.
Print Assumptions C73_answers_refuted.
