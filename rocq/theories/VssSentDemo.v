(** Concrete cases and witnesses for [Prop_VssSent.v]. *)
From stdpp Require Import pretty.
From Verif Require Import Base BaseLemmas BaseSpec BaseSpecLemmas Tson TsonInd TsonSpec F64 ReadLemmas JsonSpec Json JsonLemmas JsonTson Serial GoText TextSpec TextDemo Heap Patch PatchSpec PatchLemmas DiffSpec Bytes
  BytesLemmas JsonDemo Vss VssSpec VssLemmas VssData VssPatchSpec VssTidy VssDemo VssPatchDemo VssFileSpec VssSaveDemo VssPatchFileSpec VssPatchFile VssPatchFileDemo Logument VssRun VssRunSpec VssRunLemmas VssWeb VssMeta
  VssRunDemo VssSentSpec VssSent.
From Coq Require Import Lia.

Definition web_name (k : string) : bool := negb (contains slash k) && bool_decide (parse_int k = None).
Lemma web_name_ok k : web_name k = true -> ~ has_char slash k ∧ forall z, ~ int_text k z.
Proof.
  intros [H1 H2%bool_decide_eq_true]%andb_true_iff. split; [apply contains_has_char; by apply negb_true_iff|by apply parse_int_none].
Qed.
Lemma spec_web : web_names spec_clean.
Proof.
  intros q k (n & x & l & H & E) Hk. apply leaves_all in H. apply web_name_ok.
  assert (Hv : k ∈ visible l) by (rewrite E; apply elem_of_app; by left).
  assert (HA : forallb (fun lx => forallb web_name (visible (fst lx))) (leaves spec_clean) = true) by (vm_compute; reflexivity).
  rewrite forallb_forall in HA. specialize (HA (l, x) ltac:(by apply elem_of_list_In)). cbn [fst] in HA.
  rewrite forallb_forall in HA. apply HA. by apply elem_of_list_In.
Qed.
(** After three data sets the cells that changed last in the second one are still those. *)
Definition sent3 : string := match snd (patch_handler lib 1 3 demo_run []) with Ok s => s | _ => "" end.
Lemma sent3_case : exists h' t, patch_handler lib 1 3 demo_run [] = (h', Ok sent3) ∧ Serial.unmarshal lib sent3 = Ok t ∧
  at_path t lock = Some (TLeaf (PBool false) time1) ∧ at_path t (Key "" :: lock) = Some (TLeaf (PBool true) time2).
Proof. eexists _, _. split; [vm_compute; reflexivity|]. split; [vm_compute; reflexivity|]. split; vm_compute; reflexivity. Qed.

(** A schema with a number for a name. *)
Definition row_file : wjson := WObj [("Row", WObj [("children", WObj [("1", WObj [("children", WObj [("Lock", signal "boolean")])])])])].
Definition row_clean : wjson := WObj [("Row", WObj [("children", WObj [("1", WObj [("children", WObj [("Lock", signal' "boolean")])])])])].
Lemma row_new : new_vss row_file = Ok (Vss false row_clean).
Proof. reflexivity. Qed.
Lemma row_schema : good_schema lib num row_clean.
Proof.
  assert (F : forall k r (s : list string) y, (k :: r = s ++ [y]) -> s = removelast (k :: r)).
  { intros k r s y ->. by rewrite removelast_last. }
  assert (HA : forall ns al, ~ attr row_clean ns "allowed" al).
  { intros ns al (l & H & E). apply leaves_all in H. vm_compute in H. each H; cbn in E;
    apply (f_equal (fun z => last z)) in E; rewrite last_snoc in E; discriminate E. }
  assert (HK : forall P : string -> Prop, P "Row" -> P "children" -> P "1" -> P "Lock" -> P "datatype" -> P "unit" -> keyed P row_clean).
  { intros P H1 H2 H3 H4 H5 H6. repeat first
    [ apply ky_scalar; [by apply not_map|done] | apply ky_obj | apply ky_arr
    | apply NoDup_nil_2 | apply Forall_nil_2 | apply Forall_cons_2 | apply NoDup_cons_2; [set_solver|]
    | split; [cbn [fst]; assumption|] ]. }
  constructor.
  - constructor.
    + by eexists.
    + apply HK; (split; [done|repeat (constructor; [intros [[=]|[]]|]); constructor]).
    + intros l x H%leaves_all. vm_compute in H. each H; cbn; lia.
    + intros l l' x x' H%leaves_all H'%leaves_all. vm_compute in H, H'. each H; each H'; intros E; first [reflexivity|discriminate E].
    + intros ns ns' (n & x & l & H & E) (n' & x' & l' & H' & E'). apply leaves_all in H, H'. vm_compute in H, H'.
      intros P. each H; each H'; cbn in E, E'; apply F in E; apply F in E'; subst; reflexivity.
    + intros ns x H. by apply HA in H.
  - intros ns (n & x & l & H & E). apply leaves_all in H. vm_compute in H. split; [|intros al Hal; by apply HA in Hal].
    exists "boolean". split; [listed|]. exists ["Row"; "children"; "1"; "children"; "Lock"; "datatype"]. split.
    + apply leaves_sound. vm_compute. listed.
    + each H; cbn in E; apply F in E; subst ns; done.
  - split; [apply HK; letters8|]. intros ns al Hal. by apply HA in Hal.
  - split; [apply HK; bare_tac|]. intros ns al Hal. by apply HA in Hal.
  - split; [apply HK; clean_tac|]. intros ns al Hal. by apply HA in Hal.
Qed.
Definition row_env : env := Env (fun _ => row_file) (e_draws demo_env) (e_nodes demo_env) (e_maps demo_env) (e_time demo_env).
Lemma row_good : good_env lib num row_env.
Proof. destruct demo_good as [H1 H2 H3 H4]. by constructor. Qed.
Lemma row_panics : exists T num fmt0 e o dataset d fs',
  alookup "dataset" o = Some (WStr dataset) ∧ new_vss (e_read e dataset) = Ok (Vss false d) ∧ good_schema T num d ∧ good_env T num e ∧
  (forall compound no_text, run_generate T num fmt0 compound no_text e o [] = (fs', Ok tt)) ∧
  exists h', patch_handler T 1 2 fs' [] = (h', Panic).
Proof.
  exists lib, num, go_fmt0, row_env, demo_options, "vss.json", row_clean. eexists.
  split; [done|]. split; [exact row_new|]. split; [exact row_schema|]. split; [exact row_good|]. split; [intros compound no_text; vm_compute; reflexivity|].
  eexists. vm_compute. reflexivity.
Qed.
