(** Concrete cases and witnesses for [Prop_VssFile.v]: the files of Save. *)
From Verif Require Import Base BaseLemmas BaseSpec BaseSpecLemmas Tson TsonInd TsonSpec F64 JsonSpec Json JsonTson Serial GoText TextSpec TextDemo PatchSpec Bytes JsonDemo
  Vss VssSpec VssLemmas VssPatchSpec VssDemo VssPatchDemo VssFileSpec VssSave VssFile.
From Coq Require Import Lia.

Definition saved_demo : string :=
  "{" +++ newline +++ "    ""Vehicle"": {" +++ newline +++ "        ""Speed"" <1700000000000000000>: 75," +++ newline +++
  "        ""Body"": {" +++ newline +++ "            ""Lock"" <1700000000000000000>: false," +++ newline +++
  "            ""Mode"" <1700000000000000000>: ""OFF""," +++ newline +++ "            ""Codes"": [" +++ newline +++
  "                <1700000000000000000> 1," +++ newline +++ "                <1700000000000000000> 1" +++ newline +++
  "            ]" +++ newline +++ "        }" +++ newline +++ "    }" +++ newline +++ "}".
Lemma demo_saved : save_data lib go_fmt0 demo1 = saved_demo.
Proof. vm_compute. reflexivity. Qed.
Ltac names_clean := repeat first [apply ky_scalar; [by apply not_map|done] | apply ky_obj | apply ky_arr
  | apply NoDup_nil_2 | apply Forall_nil_2 | apply Forall_cons_2 | apply NoDup_cons_2; [set_solver|]
  | split; [cbn [fst]; clean_tac|] ].
Lemma spec_saves : schema_saves lib spec_clean.
Proof.
  split; [names_clean|]. intros ns al (l & H & _). apply leaves_all in H.
  assert (forall l x, (l, x) ∈ leaves spec_clean -> forall al, x = WArr al -> Forall (value_saves lib) al) as G.
  { clear. intros l x H al. vm_compute in H. each H; intros E; try discriminate E. injection E as <-. repeat apply Forall_cons_2; try apply Forall_nil_2; cbn [value_saves]; clean_tac. }
  by apply (G l (WArr al) H).
Qed.
Lemma demo_save p : draws_save lib (demo_draws p).
Proof.
  split; [|intros z Hz; by apply small_ints].
  assert (H25 : plain_num lib (f64_of_Z 25)).
  { exists false. apply (number_intro lib "" "25" ""); [right; done|by apply opt_digits_model|by left|done]. }
  assert (H75 : plain_num lib (f64_of_Z 75)).
  { exists false. apply (number_intro lib "" "75" ""); [right; done|by apply opt_digits_model|by left|done]. }
  intros n. assert (H : d_float (demo_draws p) n = quarter ∨ d_float (demo_draws p) n = three_quarters).
  { unfold demo_draws. repeat case_match; cbn; try (destruct (Nat.even n); auto); auto. }
  destruct H as [-> | ->]; [exact H25|exact H75].
Qed.
Lemma demo_generated : generated lib spec_clean one_half (S754_zero false) demo1.
Proof.
  apply (gd_first lib _ _ _ (f64_of_Z 1) demo_draws id time1 false); [exact demo_fair|exact demo_save|by vm_compute|done|exact demo1_generate].
Qed.
Lemma demo_storable : storable lib demo1.
Proof. exact (neat_storable lib _ (generated_neat lib _ _ _ _ spec_schema spec_typed spec_saves demo_generated)). Qed.
Lemma demo_cell : cell demo1 (map Key ["Vehicle"; "Speed"]) (WNum (f64_of_Z 75)) time1.
Proof.
  exists ["Vehicle"; "Speed"], (leaf_case (WNum (f64_of_Z 75)) time1). split; [|left; split; [done|by eexists]].
  apply leaves_sound. vm_compute. left.
Qed.
(** A node without datatype gets the value null, and the file is empty. *)
Definition untyped_spec : wjson := WObj [("A", WObj [("min", WInt 0)])].
Definition untyped_data : wjson := WObj [("A", leaf_case WNull 5)].
Lemma untyped_generate : generate (f64_of_Z 1) demo_draws id 5 (Vss false untyped_spec) = Ok (Vss true untyped_data) ∧ save_data lib go_fmt0 untyped_data = "".
Proof. split; vm_compute; reflexivity. Qed.
Lemma untyped_unsaved : keyed schema_name untyped_data ∧ is_map untyped_data ∧ unsaved untyped_data.
Proof.
  split; [show_keyed|]. split; [by eexists|]. eapply us_obj; [|by left|].
  - intros w (t & HP & _). apply Permutation_length in HP. done.
  - apply (us_cell _ WNull); [|by intros []]. exists (WInt 5). split; [done|]. left. by eexists.
Qed.
Lemma schema_rounded : save_data lib go_fmt0 (WObj [("min", WNum one_half)]) = save_data lib go_fmt0 (WObj [("min", WNum quarter)]) ∧ one_half ≠ quarter.
Proof. split; [vm_compute; reflexivity|discriminate]. Qed.
(** Random numbers below a thousandth are written with an exponent, which TSON does not read. *)
Definition tiny : f64 := f64_of_ratio false 1 1000000.
Lemma tiny_lost : save_data lib go_fmt0 (WObj [("A", leaf_case (WNum tiny) 5)]) = "{" +++ newline +++ "    ""A"" <5>: 1e-06" +++ newline +++ "}" ∧
  Serial.unmarshal lib (save_data lib go_fmt0 (WObj [("A", leaf_case (WNum tiny) 5)])) = Err.
Proof. split; vm_compute; reflexivity. Qed.
Lemma small_lost : exists f, SFltb (S754_zero false) f = true ∧ below_hundred f ∧
  Serial.unmarshal lib (save_data lib go_fmt0 (WObj [("A", leaf_case (WNum f) 5)])) = Err.
Proof. exists tiny. split; [vm_compute; reflexivity|]. split; [split; vm_compute; reflexivity|apply tiny_lost]. Qed.
Lemma two_schemas : exists d d', d ≠ d' ∧ save_data lib go_fmt0 d = save_data lib go_fmt0 d'.
Proof. eexists _, _. split; [|exact (proj1 schema_rounded)]. discriminate. Qed.
Lemma plain_both : Serial.unmarshal lib "{""a"": 1}" = Ok (TObj [("a", TLeaf (PNum (f64_of_Z 1)) 0)]) ∧ exists tr, json_text "{""a"": 1}" tr.
Proof.
  split; [vm_compute; reflexivity|].
  assert (H : exists j, decode_any lib "{""a"": 1}" = Ok j) by (eexists; vm_compute; reflexivity).
  destruct H as (j & H). apply decode_spec in H as (tr & H & _). by exists tr.
Qed.
