(** Concrete cases and witnesses for [Prop_VssPatchFile.v]. *)
From Verif Require Import Base BaseLemmas BaseSpec BaseSpecLemmas Tson TsonInd TsonSpec F64 ReadLemmas JsonSpec Json JsonLemmas JsonTson Serial GoText TextSpec TextDemo Heap Patch PatchSpec DiffSpec Bytes
  BytesLemmas JsonDemo Vss VssSpec VssLemmas VssData VssPatchSpec VssTidy VssDemo VssPatchDemo VssFileSpec VssSaveDemo VssPatchFileSpec VssPatchFile.
From Coq Require Import Lia.

Definition files_num (f : f64) : bool :=
  bool_decide (f ≠ S754_nan) && bool_decide (f ≠ S754_infinity true) && bool_decide (f ≠ S754_infinity false) &&
  bool_decide (scan_number (fmt_num lib f) = Some (fmt_num lib f, "")) && bool_decide (parse_num lib (fmt_num lib f) = Some f).
Lemma files_num_ok f : files_num f = true -> num_kept lib (fmt_num lib) f.
Proof.
  unfold files_num. intros H. repeat apply andb_true_iff in H as [H ?]. repeat match goal with H : bool_decide _ = true |- _ => apply bool_decide_eq_true in H end.
  split; [done|]. split; [by intros []|]. split; [|done]. by apply (scan_number_sound (fmt_num lib f) _ "").
Qed.
Lemma demo_files p : draws_file lib (demo_draws p).
Proof.
  split.
  - intros n. apply files_num_ok.
    assert (H : d_float (demo_draws p) n = quarter ∨ d_float (demo_draws p) n = three_quarters).
    { unfold demo_draws. repeat case_match; cbn; try (destruct (Nat.even n); auto); auto. }
    destruct H as [-> | ->]; vm_compute; reflexivity.
  - intros z Hz. apply files_num_ok.
    assert (HA : forallb (fun z => files_num (f64_of_Z z)) (seqZ (-100) 201) = true) by (vm_compute; reflexivity).
    rewrite forallb_forall in HA. apply HA, elem_of_list_In, elem_of_seqZ. lia.
Qed.
Ltac bare_tac := repeat (apply pl_ascii; [vm_compute; done..|]); apply pl_nil.
Lemma spec_files : schema_files lib spec_clean.
Proof.
  split.
  - repeat first
    [ apply ky_scalar; [by apply not_map|done] | apply ky_obj | apply ky_arr
    | apply NoDup_nil_2 | apply Forall_nil_2 | apply Forall_cons_2 | apply NoDup_cons_2; [set_solver|]
    | split; [cbn [fst]; bare_tac|] ].
  - intros ns al (l & H & _). apply leaves_all in H.
    assert (forall l x, (l, x) ∈ leaves spec_clean -> forall al, x = WArr al -> Forall (cell_files lib) al) as G.
    { clear. intros l x H al. vm_compute in H. each H; intros E; try discriminate E. injection E as <-. repeat apply Forall_cons_2; try apply Forall_nil_2; unfold cell_files; cbn [as_prim json_of_prim value_files]; clean_tac. }
    by apply (G l (WArr al) H).
Qed.
Lemma demo1_filed : filed lib demo1.
Proof.
  destruct (first_files lib num (f64_of_Z 1) demo_draws id time1 false spec_clean spec_schema spec_typed spec_writes spec_files demo_fair demo_writes demo_files time1_writes)
    as (r & E & _ & H); [by vm_compute|done|]. rewrite demo1_generate in E. by injection E as <-.
Qed.
Lemma time2_int64 : int64 time2.
Proof. split; vm_compute; [discriminate|reflexivity]. Qed.
Definition demo_ops : list json :=
  [demo_op "/Vehicle/Body/Codes/0" (JNum (f64_of_Z 1)) time2; demo_op "/Vehicle/Body/Codes/1" (JNum (f64_of_Z 1)) time2;
   demo_op "/Vehicle/Body/Lock" (JBool true) time2; demo_op "/Vehicle/Speed" (JNum (f64_of_Z 75)) time2].
Definition demo_file : string :=
  "[" +++ newline +++
  "    { ""op"": ""replace"", ""path"": ""/Vehicle/Body/Codes/0"", ""value"": 1, ""timestamp"": 1700000001000000000 }," +++ newline +++
  "    { ""op"": ""replace"", ""path"": ""/Vehicle/Body/Codes/1"", ""value"": 1, ""timestamp"": 1700000001000000000 }," +++ newline +++
  "    { ""op"": ""replace"", ""path"": ""/Vehicle/Body/Lock"", ""value"": true, ""timestamp"": 1700000001000000000 }," +++ newline +++
  "    { ""op"": ""replace"", ""path"": ""/Vehicle/Speed"", ""value"": 75, ""timestamp"": 1700000001000000000 }" +++ newline +++ "]".
Lemma demo_ops_files : Forall (op_files lib) demo_ops ∧ forall compound no_text, save_patch lib compound no_text (JArr demo_ops) = Ok demo_file.
Proof.
  split; [|intros compound no_text; vm_compute; reflexivity].
  assert (HF : forall p v, bare p -> value_files lib v -> op_files lib (demo_op p v time2)).
  { intros p v Hp Hv. exists "replace", p, v, (f64_of_Z time2), time2. split; [done|]. split; [bare_tac|]. split; [done|]. split; [done|].
    split; [apply read_stamp_spec; vm_compute; reflexivity|vm_compute; reflexivity]. }
  repeat apply Forall_cons_2; try apply Forall_nil_2; (apply HF; [bare_tac|]).
  3: exact I.
  all: apply files_num_ok; vm_compute; reflexivity.
Qed.

(** ** A data set with a single cell *)
Lemma cell_names : schema_name "value" ∧ schema_name "timestamp".
Proof. split; (split; [done|repeat (constructor; [intros [[=]|[]]|]); constructor]). Qed.
Lemma one_cell k v t : schema_name k -> utf8 k -> k ≠ "timestamp" -> value_writes lib num v -> stamp_writes lib t -> telemetry lib num (WObj [(k, leaf_case v t)]).
Proof.
  intros Hk Hu Hne Hv Ht. assert (Hp := writes_plain lib num v Hv).
  assert (HO : ~ stamped (WObj [(k, leaf_case v t)])).
  { intros (m & [= <-] & Hin). cbn in Hin. apply elem_of_list_singleton in Hin. done. }
  assert (HL : forall l x, leaf_at (WObj [(k, leaf_case v t)]) l x -> l = [k] ∧ x = leaf_case v t).
  { intros l x H. inversion H as [? Hs|? k' v' l' ? Hs Hin H']; subst.
    - destruct Hs as [[]|Hs]; [by eexists|done].
    - apply elem_of_list_singleton in Hin as [= -> ->]. inversion H' as [|? ? ? ? ? Hs']; subst; [done|]. destruct Hs'. eexists. split; [done|]. right. left. }
  constructor; [by eexists|done| | | |].
  - apply ky_obj; [apply NoDup_singleton|]. apply Forall_singleton. cbn [fst snd]. split; [done|].
    apply ky_obj; [cbn; apply NoDup_cons_2; [set_solver|]; apply NoDup_singleton|].
    destruct utf8_names, cell_names. apply Forall_cons_2; [|apply Forall_singleton]; cbn [fst snd]; (split; [done|]); by apply scalar_keyed.
  - by intros l x [-> _]%HL.
  - intros l x [_ ->]%HL. left. exists v, t. split; [by eexists|done].
  - intros l Hl Hi. inversion Hi as [|? k' v' l' ? Hin H']; subst. apply elem_of_list_singleton in Hin as [= -> ->].
    inversion H' as [|? k' v' l2 ? Hin H2]; subst. rewrite !elem_of_cons, elem_of_nil in Hin.
    destruct Hin as [[= -> ->]|[[= -> ->]|[]]]; [|inversion H2]. destruct v; try done; inversion H2.
Qed.
(** A name with a quote. *)
Definition quote_data : wjson := WObj [("a""b", leaf_case (WBool false) time1)].
Lemma quote_telemetry : telemetry lib num quote_data.
Proof. apply one_cell; [split; [done|repeat (constructor; [intros [[=]|[]]|]); constructor]|letters8|done|done|exact time1_writes]. Qed.
Lemma quote_lost : exists T num c m R ts d d' ops, telemetry T num d ∧ (forall p, fair (R p)) ∧ (forall p, draws_write T num (R p)) ∧ (forall p, draws_file T (R p)) ∧
  stamp_writes T ts ∧ (forall q v t, cell d q v t -> cell_files T v) ∧ generate_next T num c m R id ts (Vss true d) = Ok (Vss true d', JArr ops) ∧
  forall compound no_text, exists s, save_patch T compound no_text (JArr ops) = Ok s ∧ decode_any T s = Err ∧ Json.unmarshal T s = Err.
Proof.
  exists lib, num, one_half, (S754_zero false), demo_draws, time2, quote_data. eexists _, _.
  split; [exact quote_telemetry|]. split; [exact demo_fair|]. split; [exact demo_writes|]. split; [exact demo_files|]. split; [exact time2_writes|].
  split; [|split; [vm_compute; reflexivity|]].
  - intros q v t (l & x & Hl%leaves_all & HC). vm_compute in Hl. each Hl.
    destruct HC as [[_ (m & [= <-] & HP)]|(i & xs & y & _ & [=] & _)].
    assert (Hin : ("value", v) ∈ [("value", v); ("timestamp", WInt t)]) by left. rewrite <- HP in Hin.
    rewrite !elem_of_cons, elem_of_nil in Hin. destruct Hin as [[= ->]|[[=]|[]]]. done.
  - intros compound no_text. eexists. split; [vm_compute; reflexivity|]. split; vm_compute; reflexivity.
Qed.
(** The bell character, written as [\a]. *)
Definition bell : string := String (ascii_of_N 7) "".
Definition bell_data : wjson := WObj [("Chime", leaf_case (WStr bell) time1)].
Lemma bell_telemetry : telemetry lib num bell_data.
Proof. apply one_cell; [split; [done|repeat (constructor; [intros [[=]|[]]|]); constructor]|letters8|done|cbn; letters8|exact time1_writes]. Qed.
Lemma bell_lost : exists T num c m R ts d d' ops, telemetry T num d ∧ (forall p, fair (R p)) ∧ (forall p, draws_write T num (R p)) ∧ (forall p, draws_file T (R p)) ∧
  stamp_writes T ts ∧ keyed bare d ∧ generate_next T num c m R id ts (Vss true d) = Ok (Vss true d', JArr ops) ∧
  forall compound no_text, exists s, save_patch T compound no_text (JArr ops) = Ok s ∧ decode_any T s = Err ∧ Json.unmarshal T s = Err.
Proof.
  exists lib, num, (S754_zero false), (f64_of_Z 1), demo_draws, time2, bell_data. eexists _, _.
  split; [exact bell_telemetry|]. split; [exact demo_fair|]. split; [exact demo_writes|]. split; [exact demo_files|]. split; [exact time2_writes|].
  split; [|split; [vm_compute; reflexivity|]].
  - repeat first
    [ apply ky_scalar; [by apply not_map|done] | apply ky_obj | apply ky_arr
    | apply NoDup_nil_2 | apply Forall_nil_2 | apply Forall_cons_2 | apply NoDup_cons_2; [set_solver|]
    | split; [cbn [fst]; bare_tac|] ].
  - intros compound no_text. eexists. split; [vm_compute; reflexivity|]. split; vm_compute; reflexivity.
Qed.
(** A node without datatype: the patch is null, and Save panics. *)
Lemma untyped_schema : schema untyped_spec.
Proof.
  assert (HL : forall l x, leaf_at untyped_spec l x -> l = ["A"; "min"] ∧ x = WInt 0).
  { intros l x H%leaves_all. vm_compute in H. each H. done. }
  assert (HN : forall ns n x, attr untyped_spec ns n x -> ns = ["A"] ∧ n = "min").
  { intros ns n x (l & [-> _]%HL & E). change (["A"] ++ ["min"] = ns ++ [n]) in E. by apply app_inj_tail in E as [<- <-]. }
  constructor.
  - by eexists.
  - show_keyed.
  - intros l x [-> _]%HL. cbn. lia.
  - by intros l l' x x' [-> _]%HL [-> _]%HL.
  - by intros ns ns' (n & x & [-> _]%HN) (n' & x' & [-> _]%HN).
  - by intros ns x [_ ?]%HN.
Qed.
Lemma null_panic : exists T num c m R ts ts' d d' b s, schema s ∧ (forall p, fair (R p)) ∧ generate (f64_of_Z 1) R id ts (Vss b s) = Ok (Vss true d) ∧
  generate_next T num c m R id ts' (Vss true d) = Ok (Vss true d', JNull) ∧ forall compound no_text, save_patch T compound no_text JNull = Panic.
Proof.
  exists lib, num, one_half, (S754_zero false), demo_draws, 5, time2, untyped_data. eexists _, _, untyped_spec.
  split; [|split; [exact demo_fair|]; split; [exact (proj1 untyped_generate)|]; split; [vm_compute; reflexivity|done]].
  exact untyped_schema.
Qed.
