(** Concrete cases and witnesses for [Prop_VssRun.v]. *)
From stdpp Require Import pretty.
From Verif Require Import Base BaseLemmas BaseSpec BaseSpecLemmas Tson TsonInd TsonSpec F64 ReadLemmas JsonSpec Json JsonLemmas JsonTson Serial GoText TextSpec TextDemo Heap Patch PatchSpec DiffSpec Bytes
  BytesLemmas JsonDemo Vss VssSpec VssLemmas VssData VssPatchSpec VssTidy VssDemo VssPatchDemo VssFileSpec VssSaveDemo VssPatchFileSpec VssPatchFile VssPatchFileDemo Logument VssRun VssRunSpec VssRunLemmas VssWeb VssMeta.
From Coq Require Import Lia.

Definition time3 : Z := 1700000002000000000.
Lemma time3_writes : stamp_writes lib time3.
Proof. apply writes_stamp_ok. vm_compute. reflexivity. Qed.
Definition demo_env : env := Env (fun _ => spec_file) (fun _ j p => if (j =? 3)%Z then demo_draws "Vehicle.Body.Mode" else demo_draws p)
  (fun _ l => l) (fun _ _ t => t) (fun _ j => if (j =? 1)%Z then time1 else if (j =? 2)%Z then time2 else time3).
Lemma demo_schema : good_schema lib num spec_clean.
Proof. constructor; [exact spec_schema|exact spec_typed|exact spec_writes|exact spec_files|exact spec_saves]. Qed.
Lemma demo_good : good_env lib num demo_env.
Proof.
  constructor; cbn [demo_env e_draws e_nodes e_maps e_time].
  - intros i j p. destruct (j =? 3)%Z; (constructor; [apply demo_fair|apply demo_writes|apply demo_files|apply demo_save]).
  - done.
  - intros i j t. apply same_doc_refl.
  - intros i j. destruct (j =? 1)%Z; [split; [exact time1_writes|split; vm_compute; discriminate]|].
    destruct (j =? 2)%Z; [split; [exact time2_writes|split; vm_compute; discriminate]|split; [exact time3_writes|split; vm_compute; discriminate]].
Qed.
Definition demo_options : members :=
  [("dataset", WStr "vss.json"); ("cars", WInt 1); ("files", WInt 3); ("change_rate", WNum one_half); ("maintain_rate", WNum (S754_zero false)); ("size", WNum (f64_of_Z 1))].
Definition demo_run : files := fst (run_generate lib num go_fmt0 (fun _ => "") (fun _ => "") demo_env demo_options []).
Lemma demo_names : map fst demo_run = ["car_1/tson/1_1.tson"; "car_1/patches/1_1.json"; "car_1/tson/1_2.tson"; "car_1/patches/1_2.json"; "car_1/tson/1_3.tson"; "car_1/patches/1_3.json"].
Proof. vm_compute. reflexivity. Qed.
Lemma demo_run_ok compound no_text : run_generate lib num go_fmt0 compound no_text demo_env demo_options [] = (demo_run, Ok tt).
Proof. vm_compute. reflexivity. Qed.
Lemma demo_files_good : exists D, (forall j, wanted 3 j -> telemetry lib num (D j) ∧ exists s, alookup (tson_path 1 j) demo_run = Some s ∧ data_file lib (D j) s) ∧
  forall j, 2 <= j <= 3 -> exists s, alookup (patch_path 1 j) demo_run = Some s ∧ patch_file lib (D 1) (D j) s.
Proof.
  destruct (run_good lib num go_fmt0 (fun _ => "") (fun _ => "") demo_env demo_options "vss.json" 1 3 one_half (S754_zero false) (f64_of_Z 1) false spec_clean []
    eq_refl eq_refl eq_refl eq_refl eq_refl eq_refl spec_new demo_schema demo_good) as (fs' & D & E & _ & H).
  rewrite demo_run_ok in E. apply (f_equal fst) in E. change (demo_run = fs') in E. subst fs'. destruct (H 1 ltac:(lia)) as (H1 & _ & H3 & _). by exists (D 1).
Qed.
(** ** Patches are relative to the first file *)
Definition lock : list step := [Key "Vehicle"; Key "Body"; Key "Lock"].
Lemma chain_lost : exists T num fmt0 e o dataset d fs' s2 t2 s3 t3 sp ps b2 b3 z2 z3,
  alookup "dataset" o = Some (WStr dataset) ∧ new_vss (e_read e dataset) = Ok (Vss false d) ∧ good_schema T num d ∧ good_env T num e ∧
  (forall compound no_text, run_generate T num fmt0 compound no_text e o [] = (fs', Ok tt)) ∧
  alookup (tson_path 1 2) fs' = Some s2 ∧ Serial.unmarshal T s2 = Ok t2 ∧ at_path t2 lock = Some (TLeaf (PBool b2) z2) ∧
  alookup (tson_path 1 3) fs' = Some s3 ∧ Serial.unmarshal T s3 = Ok t3 ∧ at_path t3 lock = Some (TLeaf (PBool b3) z3) ∧ b2 ≠ b3 ∧
  alookup (patch_path 1 3) fs' = Some sp ∧ Json.unmarshal T sp = Ok (Some ps) ∧ Forall (fun p => op_path p ≠ written lock) ps.
Proof.
  exists lib, num, go_fmt0, demo_env, demo_options, "vss.json", spec_clean, demo_run. eexists _, _, _, _, _, _, true, false, time2, time1.
  split; [done|]. split; [exact spec_new|]. split; [exact demo_schema|]. split; [exact demo_good|]. split; [exact demo_run_ok|].
  split; [vm_compute; reflexivity|]. split; [vm_compute; reflexivity|]. split; [vm_compute; reflexivity|].
  split; [vm_compute; reflexivity|]. split; [vm_compute; reflexivity|]. split; [vm_compute; reflexivity|]. split; [done|].
  split; [vm_compute; reflexivity|]. split; [vm_compute; reflexivity|].
  repeat apply Forall_cons_2; try apply Forall_nil_2; vm_compute; discriminate.
Qed.
(** ** The web demo *)
Definition demo_sent : string := match snd (patch_handler lib 1 2 demo_run []) with Ok s => s | _ => "" end.
Lemma demo_handler : exists h', patch_handler lib 1 2 demo_run [] = (h', Ok demo_sent).
Proof. eexists. vm_compute. reflexivity. Qed.
Lemma sent_stale : exists T num fmt0 e o dataset d fs' h' s t s2 t2 b b2 z z2,
  alookup "dataset" o = Some (WStr dataset) ∧ new_vss (e_read e dataset) = Ok (Vss false d) ∧ good_schema T num d ∧ good_env T num e ∧
  (forall compound no_text, run_generate T num fmt0 compound no_text e o [] = (fs', Ok tt)) ∧
  patch_handler T 1 2 fs' [] = (h', Ok s) ∧ Serial.unmarshal T s = Ok t ∧ at_path t lock = Some (TLeaf (PBool b) z) ∧
  alookup (tson_path 1 2) fs' = Some s2 ∧ Serial.unmarshal T s2 = Ok t2 ∧ at_path t2 lock = Some (TLeaf (PBool b2) z2) ∧
  b ≠ b2 ∧ at_path t (Key "" :: lock) = Some (TLeaf (PBool b2) z2).
Proof.
  destruct demo_handler as (h' & E).
  exists lib, num, go_fmt0, demo_env, demo_options, "vss.json", spec_clean, demo_run, h', demo_sent. eexists _, _, _, false, true, time1, time2.
  split; [done|]. split; [exact spec_new|]. split; [exact demo_schema|]. split; [exact demo_good|]. split; [exact demo_run_ok|].
  split; [exact E|]. split; [vm_compute; reflexivity|]. split; [vm_compute; reflexivity|].
  split; [vm_compute; reflexivity|]. split; [vm_compute; reflexivity|]. split; [vm_compute; reflexivity|]. split; [done|]. vm_compute; reflexivity.
Qed.
(** ** Metadata *)
Lemma defaults_write : NoDup (map fst default_options) ∧ Forall (fun kv => utf8 (fst kv) ∧ value_writes lib num (snd kv)) default_options.
Proof.
  split.
  - cbn. repeat (apply NoDup_cons_2; [set_solver|]). apply NoDup_nil_2.
  - repeat apply Forall_cons_2; try apply Forall_nil_2; (split; [cbn [fst]; letters8|cbn [snd value_writes]]).
    + letters8.
    + by apply small_ints.
    + by apply small_ints.
    + apply writes_num_ok. vm_compute. reflexivity.
    + apply writes_num_ok. vm_compute. reflexivity.
Qed.
