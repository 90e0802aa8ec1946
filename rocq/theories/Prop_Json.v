(** Properties C57-C61: patches and documents as JSON text. *)
From Verif Require Import Base BaseSpec F64 Tson TsonInd Serial TextSpec TsonSpec F64Lemmas Heap Patch PatchSpec Diff DiffSpec Logument Bytes BytesSpec
  Json JsonSpec JsonLemmas JsonChars JsonParse JsonRead JsonWrite JsonPatch JsonTson JsonDiff JsonErr JsonDemo.

(** C57: Unmarshal reads exactly the JSON texts of patches, and reads what they say; every
    other text is an error. *)
Theorem C57_unmarshal : forall T s, unmarshal T s <> Panic ∧ (forall p, unmarshal T s = Ok p <-> patch_text T s p) ∧
  (unmarshal T s = Err <-> forall p, ~ patch_text T s p).
Proof. exact (fun T s => conj (unmarshal_no_panic T s) (conj (fun p => unmarshal_spec T s p) (unmarshal_err T s))). Qed.
Print Assumptions C57_unmarshal.
Example C57_case : forall T, unmarshal T loose_text = Ok (Some [Op OAdd "/a" ANil 7; Op (OOther "") "" ANil 0])
  ∧ unmarshal T ("[{" +++ q "timestamp" +++ ":1.0}]") = Err.
Proof. exact (fun T => conj (loose_read T) (fraction_refused T)). Qed.
(** C57: no text is the JSON of two values. *)
Theorem C57_one_reading : forall s t t', json_text s t -> json_text s t' -> t = t'.
Proof. exact json_text_det. Qed.
Print Assumptions C57_one_reading.

(** C58: the text of [json.Marshal] is read as the patch, except for what becomes of integers,
    maps and documents. *)
Theorem C58_json_roundtrip : forall T num p, Forall (op_kept T num utf8) p ->
  exists s p', patch_json num (Some p) = Some s ∧ unmarshal T s = Ok (Some p') ∧ Forall2 rereads_op p p'.
Proof.
  exact (fun T num p H => match patch_json_reads T num p H with
    ex_intro _ s (ex_intro _ p' (conj E (conj H1 H2))) => ex_intro _ s (ex_intro _ p' (conj E (conj (proj2 (unmarshal_spec T s (Some p')) H1) H2))) end).
Qed.
Print Assumptions C58_json_roundtrip.
Example C58_case : Forall (op_kept lib num utf8) odd_patch.
Proof. exact odd_patch_kept. Qed.
(** C58: the text of [String] too, when names and paths hold no quotes, backslashes and
    control characters. *)
Theorem C58_string_roundtrip : forall T num p, Forall (op_kept T num bare) p ->
  exists p', unmarshal T (patch_string num p) = Ok (Some p') ∧ Forall2 rereads_op p p'.
Proof.
  exact (fun T num p H => match patch_string_reads T num p H with
    ex_intro _ p' (conj H1 H2) => ex_intro _ p' (conj (proj2 (unmarshal_spec T _ (Some p')) H1) H2) end).
Qed.
Print Assumptions C58_string_roundtrip.
(** C58: patches without maps, integers and documents come back as they were. *)
Theorem C58_scalars : forall T num p, Forall (fun o => scalar (op_value o)) p ->
  (Forall (op_kept T num utf8) p -> exists s, patch_json num (Some p) = Some s ∧ unmarshal T s = Ok (Some p)) ∧
  (Forall (op_kept T num bare) p -> unmarshal T (patch_string num p) = Ok (Some p)).
Proof. exact (fun T num p Hs => conj (fun H => patch_json_scalar T num p H Hs) (fun H => patch_string_scalar T num p H Hs)). Qed.
Print Assumptions C58_scalars.
Example C58_case_scalars : Forall (op_kept lib num bare) plain_patch ∧ Forall (fun o => scalar (op_value o)) plain_patch.
Proof. exact plain_patch_kept. Qed.
(** C58: a single operation, as [Operation.String] and [Operation.Marshal] write it. *)
Theorem C58_operation : forall T num o, op_kept T num bare o ->
  (exists t o', value_text (op_string num o) t ∧ describes T t o' ∧ rereads_op o o') ∧
  (exists s t o', op_marshal num o = Some s ∧ value_text s t ∧ describes T t o' ∧ rereads_op o o').
Proof.
  exact (fun T num o H => conj (op_string_reads T num o H) (match op_marshal_reads T num o H with
    ex_intro _ s (conj E (ex_intro _ t (ex_intro _ o' H'))) => ex_intro _ s (ex_intro _ t (ex_intro _ o' (conj E H'))) end)).
Qed.
Print Assumptions C58_operation.
(** C58: generated patches come back as they were. *)
Theorem C58_generated : forall T num a b ops, every_name utf8 a -> doc_kept T num b -> every_stamp int64 a -> every_stamp int64 b ->
  generate_patch a b = Ok ops ∨ generate_patch_with_timestamp a b = Ok ops ->
  (exists s, patch_json num (Some ops) = Some s ∧ unmarshal T s = Ok (Some ops)) ∧
  (every_name bare a -> every_name bare b -> unmarshal T (patch_string num ops) = Ok (Some ops)).
Proof.
  exact (fun T num a b ops Ha Hb Sa Sb E => match E with
    | or_introl E => conj (generated_reread T num false a b ops Ha Hb Sa Sb E) (fun Na Nb => generated_string T num false a b ops Na Nb Hb Sa Sb E)
    | or_intror E => conj (generated_reread T num true a b ops Ha Hb Sa Sb E) (fun Na Nb => generated_string T num true a b ops Na Nb Hb Sa Sb E)
    end).
Qed.
Print Assumptions C58_generated.
Example C58_case_generated : every_name utf8 old_doc ∧ doc_kept lib num new_doc ∧ (every_stamp int64 old_doc ∧ every_stamp int64 new_doc) ∧
  exists ops, generate_patch old_doc new_doc = Ok ops ∧ length ops = 3%nat.
Proof. exact (conj old_names (conj new_kept (conj stamps_int64 demo_generated))). Qed.

(** C59: writing fails exactly for NaN and infinities ... *)
Theorem C59_unwritable : forall num p o,
  (patch_json num p = None <-> exists ops o, p = Some ops ∧ o ∈ ops ∧ unwritable (op_value o)) ∧
  (op_marshal num o = None <-> unwritable (op_value o)).
Proof. exact (fun num p o => conj (patch_json_none num p) (op_marshal_none num o)). Qed.
Print Assumptions C59_unwritable.
Example C59_case : unwritable (AMap [("a", JArr [JNum S754_nan])]).
Proof. exact unwritable_demo. Qed.
(** ... except in [String], which returns a text that is not JSON. *)
Theorem C59_nan_refuted : forall T num, exists o, op_string num o <> "" ∧ unmarshal T (patch_string num [o]) = Err.
Proof. exact nan_string. Qed.
Print Assumptions C59_nan_refuted.
(** C59: in the text of [String], a path can pretend to be two operations, any two. *)
Theorem C59_injection : forall T num o1 o2, op_kept T num bare o1 -> op_kept T num bare o2 ->
  exists o p', unmarshal T (patch_string num [o]) = Ok (Some p') ∧ Forall2 rereads_op [o1; o2] p'.
Proof.
  exact (fun T num o1 o2 H1 H2 => match smuggled T num o1 o2 H1 H2 with
    ex_intro _ p' (conj H3 H4) => ex_intro _ (smuggle num o1 o2) (ex_intro _ p' (conj (proj2 (unmarshal_spec T _ (Some p')) H3) H4)) end).
Qed.
Print Assumptions C59_injection.
Example C59_case_injection : op_kept lib num bare (Op ORemove "/a" ANil 0) ∧ op_kept lib num bare (Op OReplace "/b" (ABool true) 2).
Proof. exact bare_demo. Qed.
(** C59: backslashes change the path, control characters make the text unreadable. *)
Theorem C59_escapes_refuted : forall T num,
  (exists o o', scalar (op_value o) ∧ utf8 (op_path o) ∧ unmarshal T (patch_string num [o]) = Ok (Some [o']) ∧ op_path o' <> op_path o) ∧
  (exists o, scalar (op_value o) ∧ utf8 (op_path o) ∧ unmarshal T (patch_string num [o]) = Err).
Proof. exact (fun T num => conj (escape_string T num) (control_string T num)). Qed.
Print Assumptions C59_escapes_refuted.
(** C59: [json.Marshal] replaces what is not UTF-8. *)
Theorem C59_bad_bytes_refuted : forall T num, exists o o' s, scalar (op_value o) ∧ patch_json num (Some [o]) = Some s ∧
  unmarshal T s = Ok (Some [o']) ∧ op_path o' <> op_path o.
Proof. exact bad_byte. Qed.
Print Assumptions C59_bad_bytes_refuted.

(** C60: Store of a text stores the patch the text describes; every other text makes it panic
    and leaves the log as it was. *)
Theorem C60_store_text : forall T st s,
  (forall p, patch_text T s p -> store (PI_json (read_patch T s)) st = store (PI_patch p) st) ∧
  ((forall p, ~ patch_text T s p) -> store (PI_json (read_patch T s)) st = (st, Panic)).
Proof. exact (fun T st s => conj (fun p H => store_text T st s p H) (store_bad T st s)). Qed.
Print Assumptions C60_store_text.
(** C60: storing the JSON of a generated patch is storing the patch. *)
Theorem C60_store_generated : forall T num a b ops, every_name utf8 a -> doc_kept T num b -> every_stamp int64 a -> every_stamp int64 b ->
  generate_patch a b = Ok ops -> exists s, patch_json num (Some ops) = Some s ∧
  forall st, store (PI_json (read_patch T s)) st = store (PI_patch (Some ops)) st.
Proof.
  exact (fun T num a b ops Ha Hb Sa Sb E => match generated_reread T num false a b ops Ha Hb Sa Sb E with
    ex_intro _ s (conj E1 E2) => ex_intro _ s (conj E1 (fun st => store_text T st s _ (proj1 (unmarshal_spec T s _) E2))) end).
Qed.
Print Assumptions C60_store_generated.

(** C61: ToCompatibleTsonBytes writes the same bytes exactly for documents that are the same up
    to member order. *)
Theorem C61_same_bytes : forall T num a b s, wf a -> wf b -> doc_kept T num a -> doc_kept T num b -> compatible_bytes num a = Ok s ->
  compatible_bytes num b = Ok s <-> same_doc a b.
Proof. exact same_bytes. Qed.
Print Assumptions C61_same_bytes.
(** C61: FromCompatibleTsonBytes reads them as the document. *)
Theorem C61_roundtrip : forall T num t, wf t -> null_free t -> doc_kept T num t -> every_stamp (fun ts => exact_int ts ∧ int_kept T ts) t ->
  exists s t', compatible_bytes num t = Ok s ∧ from_compatible_bytes T s = Ok t' ∧ same_doc t' t.
Proof. exact bytes_roundtrip. Qed.
Print Assumptions C61_roundtrip.
Example C61_case : wf new_doc ∧ null_free new_doc ∧ doc_kept lib num new_doc ∧ every_stamp (fun ts => exact_int ts ∧ int_kept lib ts) new_doc.
Proof. exact new_doc_ok. Qed.
(** C61: which texts FromCompatibleTsonBytes takes, refuses and panics on. *)
Theorem C61_reads : forall T s,
  (forall t, from_compatible_bytes T s = Ok t <-> exists tr j, json_text s tr ∧ json_of T tr j ∧ reads j t) ∧
  (from_compatible_bytes T s = Err <-> forall tr j, json_text s tr -> ~ json_of T tr j) ∧
  (from_compatible_bytes T s = Panic <-> exists tr j, json_text s tr ∧ json_of T tr j ∧ stray j).
Proof. exact (fun T s => conj (compatible_accepts T s) (conj (compatible_refuses T s) (compatible_panics T s))). Qed.
Print Assumptions C61_reads.
(** C61: FromJsonBytes followed by ToJsonBytes gives a text that says the same. *)
Theorem C61_json_bytes : forall T num s tr j, json_text s tr -> json_of T tr j -> jcontainer j -> jnull_free j = true -> json_kept T num j ->
  exists t s' tr' j', from_json_bytes T s = Ok t ∧ every_stamp (fun ts => ts = -1) t ∧
    to_json_bytes num t = Ok s' ∧ json_text s' tr' ∧ json_of T tr' j' ∧ same_json j j'.
Proof. exact json_bytes_roundtrip. Qed.
Print Assumptions C61_json_bytes.
Example C61_case_json : exists tr j, json_text json_demo tr ∧ json_of lib tr j ∧ jcontainer j ∧ jnull_free j = true ∧ json_kept lib num j.
Proof. exact json_demo_ok. Qed.
