(** Concrete cases for [Prop_Json.v]. *)
From Verif Require Import Base BaseSpec BaseLemmas BaseSpecLemmas F64 Tson TsonInd Serial TextSpec GoText TsonSpec F64Lemmas Heap Patch PatchSpec Diff DiffSpec Logument Bytes BytesSpec
  Json JsonSpec JsonLemmas JsonChars JsonParse JsonRead JsonWrite JsonPatch JsonTson JsonDiff JsonErr.
From Coq Require Import Lia.

(** A library for the cases; small numbers are written alike by %v and encoding/json. *)
Definition lib : textlib := go_lib (fun _ => true).
Definition num : f64 -> string := go_fmt_num.
Definition speed : f64 := f64_of_ratio false 101 2.
Lemma speed_kept : num_kept lib num speed.
Proof.
  split; [done|]. split; [done|]. split; [|by vm_compute].
  assert (E : scan_number (num speed) = Some (num speed, "")) by (by vm_compute). by apply scan_number_sound in E as [_ E].
Qed.
Lemma stamp_kept : int_kept lib 1700000000.
Proof. vm_compute. reflexivity. Qed.
Ltac letters := repeat (first [apply u8_ascii; [done|] | apply pl_ascii; [done..|]]); constructor.
Lemma accent_utf8 s : utf8 s -> utf8 (bytes (utf8_bytes 233) +++ s).
Proof. intros H. apply u8_rune; [|done]. unfold code_point. lia. Qed.

(** Member names with slashes and quotes, a character outside of ASCII, a line break. *)
Definition odd_name : string := "a/b" +++ bytes [34; 10]%N +++ bytes (utf8_bytes 233).
Definition old_doc : tson := TObj [("speed", TLeaf (PNum (f64_of_Z 1)) 5); ("gone", TLeaf (PBool true) 7); (odd_name, TLeaf (PStr "x") 5)].
Definition new_doc : tson := TObj [("speed", TLeaf (PNum speed) 1700000000); (odd_name, TLeaf (PStr odd_name) 1700000000)].
Lemma odd_utf8 : utf8 odd_name.
Proof. unfold odd_name. cbn [String.append]. repeat (apply u8_ascii; [done|]). apply (accent_utf8 ""). constructor. Qed.
Lemma new_kept : doc_kept lib num new_doc.
Proof.
  constructor. constructor; [split; [letters|]; constructor; apply speed_kept|].
  constructor; [split; [apply odd_utf8|]; constructor; apply odd_utf8|constructor].
Qed.
Lemma old_names : every_name utf8 old_doc.
Proof. constructor. repeat (constructor; [split; [first [apply odd_utf8 | letters]|constructor]|]). constructor. Qed.
Lemma stamps_int64 : every_stamp int64 old_doc ∧ every_stamp int64 new_doc.
Proof. split; constructor; repeat (constructor; [constructor; unfold int64; lia|]); constructor. Qed.
Lemma demo_generated : exists ops, generate_patch old_doc new_doc = Ok ops ∧ length ops = 3%nat.
Proof. eexists. split; [vm_compute; reflexivity|reflexivity]. Qed.

(** A patch with values of several kinds. *)
Definition odd_patch : list operation :=
  [Op OReplace ("/" +++ odd_name) (AMap [("z", JNum speed); ("a", JArr [JNull; JStr odd_name])]) 3;
   Op (OOther "merge") "/x" (AInt 1700000000) (-4);
   Op OAdd "/doc" (ATson new_doc) 5; Op ORemove "/gone" ANil 0].
Lemma odd_patch_kept : Forall (op_kept lib num utf8) odd_patch.
Proof.
  assert (Hk : forall k s, kind_name k s -> utf8 s -> kind_text utf8 k) by (intros; eexists; eauto).
  assert (Hi : forall z, - 10 <= z <= 10 -> int64 z) by (unfold int64; lia).
  constructor; [|constructor; [|constructor; [|constructor; [|constructor]]]].
  - split; [apply (Hk _ "replace"); [left; unfold standard; set_solver|letters]|].
    split; [unfold odd_name; cbn [String.append op_path]; repeat (apply u8_ascii; [done|]); apply (accent_utf8 ""); constructor|].
    split; [apply Hi; cbn; lia|]. constructor; [repeat (constructor; [set_solver|]); constructor|].
    constructor; [split; [letters|constructor; apply speed_kept]|].
    constructor; [split; [letters|]|constructor]. constructor. constructor; [constructor|]. constructor; [constructor; apply odd_utf8|constructor].
  - split; [apply (Hk _ "merge"); [|letters]|].
    { right. split; [done|]. intros k'. unfold standard. rewrite !elem_of_cons, elem_of_nil. intros H. repeat destruct H as [[=]|H]. done. }
    split; [letters|]. split; [apply Hi; cbn; lia|]. apply stamp_kept.
  - split; [apply (Hk _ "add"); [left; unfold standard; set_solver|letters]|]. split; [letters|].
    split; [apply Hi; cbn; lia|]. split; [|split; [apply new_kept|]].
    + constructor; [vm_compute; repeat (constructor; [set_solver|]); constructor|repeat constructor].
    + constructor. repeat (constructor; [constructor; apply stamp_kept|]). constructor.
  - split; [apply (Hk _ "remove"); [left; unfold standard; set_solver|letters]|]. split; [letters|].
    split; [apply Hi; cbn; lia|]. done.
Qed.
Definition plain_patch : list operation :=
  [Op OReplace "/Vehicle/Speed" (ANum speed) 3; Op ORemove "/a~1b" ANil 0; Op OTest "/s" (AStr odd_name) (-1)].
Lemma plain_patch_kept : Forall (op_kept lib num bare) plain_patch ∧ Forall (fun o => scalar (op_value o)) plain_patch.
Proof.
  assert (Hk : forall k s, kind_name k s -> bare s -> kind_text bare k) by (intros; eexists; eauto).
  assert (Hi : forall z, - 10 <= z <= 10 -> int64 z) by (unfold int64; lia).
  split; [|repeat constructor]. constructor; [|constructor; [|constructor; [|constructor]]].
  - split; [apply (Hk _ "replace"); [left; unfold standard; set_solver|letters]|]. split; [letters|]. split; [apply Hi; cbn; lia|apply speed_kept].
  - split; [apply (Hk _ "remove"); [left; unfold standard; set_solver|letters]|]. split; [letters|]. split; [apply Hi; cbn; lia|done].
  - split; [apply (Hk _ "test"); [left; unfold standard; set_solver|letters]|]. split; [letters|]. split; [apply Hi; cbn; lia|apply odd_utf8].
Qed.

(** ** What is not kept *)
Lemma nan_string : forall T num, exists o, op_string num o <> "" ∧ unmarshal T (patch_string num [o]) = Err.
Proof. intros T num. exists (Op OAdd "/a" (ANum S754_nan) 1). split; [done|vm_compute; reflexivity]. Qed.
Lemma control_string : forall T num, exists o, scalar (op_value o) ∧ utf8 (op_path o) ∧ unmarshal T (patch_string num [o]) = Err.
Proof.
  intros T num. exists (Op OAdd (String (byte_of 10) "") (ABool true) 1). split; [done|]. split; [letters|vm_compute; reflexivity].
Qed.
(** A path with a backslash is read as another path. *)
Lemma escape_string : forall T num, exists o o', scalar (op_value o) ∧ utf8 (op_path o) ∧
  unmarshal T (patch_string num [o]) = Ok (Some [o']) ∧ op_path o' <> op_path o.
Proof.
  intros T num. exists (Op OAdd ("/a" +++ bytes [92; 116]%N) (ABool true) 1), (Op OAdd ("/a" +++ bytes [9]%N) (ABool true) 1).
  split; [done|]. split; [cbn [String.append op_path]; letters|]. split; [vm_compute; reflexivity|done].
Qed.
(** A byte that is not UTF-8 is replaced. *)
Lemma bad_byte : forall T num, exists o o' s, scalar (op_value o) ∧ patch_json num (Some [o]) = Some s ∧
  unmarshal T s = Ok (Some [o']) ∧ op_path o' <> op_path o.
Proof.
  intros T num. exists (Op OAdd (bytes [255]%N) (ABool true) 1), (Op OAdd (bytes (utf8_bytes 65533)) (ABool true) 1).
  eexists. split; [done|]. split; [vm_compute; reflexivity|]. split; [vm_compute; reflexivity|done].
Qed.
(** Names are matched without regard to case, unknown members are ignored, later ones win. *)
Definition q (s : string) : string := String dquote (s +++ String dquote "").
Definition loose_text : string :=
  " [ {" +++ q "OP" +++ ": " +++ q "remove" +++ "," +++ q "Path" +++ ":" +++ q "/a" +++ "," +++ q "extra" +++ ":{},"
  +++ q "op" +++ ":" +++ q "add" +++ "," +++ q "TimeStamp" +++ ":7}, null ] ".
Lemma loose_read : forall T, unmarshal T loose_text = Ok (Some [Op OAdd "/a" ANil 7; Op (OOther "") "" ANil 0]).
Proof. intros T. vm_compute. reflexivity. Qed.
Lemma fraction_refused : forall T, unmarshal T ("[{" +++ q "timestamp" +++ ":1.0}]") = Err.
Proof. intros T. vm_compute. reflexivity. Qed.

(** ** Documents *)
Lemma new_doc_ok : wf new_doc ∧ null_free new_doc ∧ doc_kept lib num new_doc ∧
  every_stamp (fun ts => exact_int ts ∧ int_kept lib ts) new_doc.
Proof.
  split; [|split; [|split; [apply new_kept|]]].
  - constructor; [vm_compute; repeat (constructor; [set_solver|]); constructor|repeat constructor].
  - constructor. repeat constructor.
  - constructor. repeat (constructor; [constructor; split; [unfold exact_int; lia|apply stamp_kept]|]). constructor.
Qed.
Lemma bare_demo : op_kept lib num bare (Op ORemove "/a" ANil 0) ∧ op_kept lib num bare (Op OReplace "/b" (ABool true) 2).
Proof.
  split; (split; [eexists; split; [left; unfold standard; rewrite !elem_of_cons; tauto|letters]|]); (split; [letters|]); (split; [unfold int64; cbn; lia|done]).
Qed.
Lemma unwritable_demo : unwritable (AMap [("a", JArr [JNum S754_nan])]).
Proof. apply (nf_member _ "a" (JArr [JNum S754_nan])); [set_solver|]. apply (nf_elem _ (JNum S754_nan)); [set_solver|constructor]. Qed.
Definition json_demo : string := "{" +++ q "b" +++ ": [true, 50.5], " +++ q "a" +++ ":" +++ q "x" +++ "}".
Lemma json_demo_ok : exists tr j, json_text json_demo tr ∧ json_of lib tr j ∧ jcontainer j ∧ jnull_free j = true ∧ json_kept lib num j.
Proof.
  assert (E : decode_any lib json_demo = Ok (JObj [("b", JArr [JBool true; JNum speed]); ("a", JStr "x")])) by (vm_compute; reflexivity).
  apply decode_spec in E as (tr & H1 & H2). exists tr, (JObj [("b", JArr [JBool true; JNum speed]); ("a", JStr "x")]). split; [done|]. split; [done|].
  split; [left; eauto|]. split; [done|]. constructor; [cbn; repeat (constructor; [set_solver|]); constructor|].
  constructor; [split; [letters|]|constructor; [split; [letters|constructor; letters]|constructor]].
  constructor. constructor; [constructor|constructor; [constructor; apply speed_kept|constructor]].
Qed.
