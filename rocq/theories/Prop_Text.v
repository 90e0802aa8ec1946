(** C01 - C07 and C41: the TSON text format.  [L] stands for any number formatting, number
    parsing and printable-rune table; [go_lib] is Go's. *)
From Verif Require Import Base F64 Tson TsonInd Serial TextSpec GoText ParseComplete ParseSound
  PanicLemmas MarshalText TextLemmas TextDemo.

(** C01: printing a document, whatever order the map iteration picks ([t'] is [t] with the
    members of every object in another order), and reading the text back gives the
    document. *)
Theorem C01_text_roundtrip : forall L t t',
  doc_ok L t -> every_stamp (fun ts => -1 <= ts) t -> same_doc t t' ->
  exists s t'', marshal L t' = Ok s ∧ unmarshal L s = Ok t'' ∧ same_doc t'' t.
Proof. exact text_roundtrip_exact. Qed.
Print Assumptions C01_text_roundtrip.

(** C01, timestamps below -1 included: they come back as -1. *)
Theorem C01_text_roundtrip_norm : forall L t t',
  doc_ok L t -> same_doc t t' ->
  exists s t'', marshal L t' = Ok s ∧ unmarshal L s = Ok t'' ∧ same_doc t'' (norm_ts t).
Proof. exact text_roundtrip0. Qed.
Print Assumptions C01_text_roundtrip_norm.

Example C01_demo isp : doc_ok (go_lib isp) demo ∧ every_stamp (fun ts => -1 <= ts) demo.
Proof. exact (demo_ok isp). Qed.
Example C01_demo_text isp : exists s, marshal (go_lib isp) demo = Ok s ∧ unmarshal (go_lib isp) s = Ok demo.
Proof. eexists. split; [vm_compute; reflexivity|]. vm_compute. reflexivity. Qed.

Example C01_utf8_case isp : isp 232%N = true -> isp 8364%N = true ->
  clean (go_lib isp) (bytes [195; 168; 226; 130; 172]%N).
Proof. exact (accent_clean isp). Qed.

(** C01, the excluded strings: a string that Go quotes with an escape Unmarshal does not know
    makes the text unreadable. *)
Theorem C01_string_lost : forall L x ts s,
  ~ clean L x -> marshal L (TLeaf (PStr x) ts) = Ok s -> unmarshal L s = Err.
Proof. exact string_leaf_lost. Qed.
Print Assumptions C01_string_lost.
Example C01_string_lost_demo isp : ~ clean (go_lib isp) (String (ascii_of_N 7) "") .
Proof. exact (bell_unclean isp). Qed.

(** C01, the excluded numbers: 1000000 prints as 1e+06 and reads back as 1 with the rest of
    the text ignored; inside an object the text is rejected. *)
Theorem C01_number_refuted : forall isp, exists t s,
  wf t ∧ null_free t ∧ every_stamp (fun ts => -1 <= ts) t ∧
  marshal (go_lib isp) t = Ok s ∧ unmarshal (go_lib isp) s = Err.
Proof. exact number_lost. Qed.
Print Assumptions C01_number_refuted.
Theorem C01_number_changed_refuted : forall isp, exists ts s,
  marshal (go_lib isp) (TLeaf (PNum (f64_of_Z 1000000)) ts) = Ok s ∧
  unmarshal (go_lib isp) s = Ok (TLeaf (PNum (f64_of_Z 1)) (-1)).
Proof. exact number_changed. Qed.
Print Assumptions C01_number_changed_refuted.

(** C02: the same for the indented text. *)
Theorem C02_indent_roundtrip : forall L t t' p i,
  doc_ok L t -> every_stamp (fun ts => -1 <= ts) t -> same_doc t t' -> blank p -> blank i ->
  exists t'', unmarshal L (marshal_indent L t' p i) = Ok t'' ∧ same_doc t'' t.
Proof. exact indent_roundtrip_exact. Qed.
Print Assumptions C02_indent_roundtrip.
Example C02_demo isp : unmarshal (go_lib isp) (marshal_indent (go_lib isp) demo " " "  ") = Ok demo.
Proof. vm_compute. reflexivity. Qed.

(** C03: Unmarshal crashes exactly on the texts with a null inside an object or an array: after
    blanks and a well-formed beginning, [null] stands where the value of a member or an element
    is expected.  Anything may follow. *)
Theorem C03_panics_exactly : forall L s,
  unmarshal L s = Panic <-> exists w v, s = w +++ v ∧ blank w ∧ null_inside L v.
Proof. exact unmarshal_panic. Qed.
Print Assumptions C03_panics_exactly.
Example C03_panics_case isp :
  null_inside (go_lib isp) "{""a"":[true,null ]x" ∧
  unmarshal (go_lib isp) "{""a"":[true,null ]x" = Panic.
Proof. exact (conj (null_case (go_lib isp)) eq_refl). Qed.
(** C03: in particular, no crash on inputs without the letters [null]. *)
Theorem C03_no_null_no_panic : forall L s,
  ~ (exists a b, s = a +++ "null" +++ b) -> unmarshal L s ≠ Panic.
Proof. exact no_null_no_panic. Qed.
Print Assumptions C03_no_null_no_panic.
Example C03_demo isp : unmarshal (go_lib isp) "{""a"" <1>: [1, x]}" = Err.
Proof. vm_compute. reflexivity. Qed.
(** C03, that it never panics is refuted: a null member crashes the program. *)
Theorem C03_no_panic_refuted : forall L, exists s, unmarshal L s = Panic.
Proof. exact null_member_panics. Qed.
Print Assumptions C03_no_panic_refuted.
(** C03: the recursion of the parser ends for every input (so [Panic] above is a Go panic,
    not an exhausted bound). *)
Theorem C03_terminates : forall L s, parse_val L (parse_fuel s) (skip_ws s) ≠ PFuel.
Proof. exact unmarshal_terminates. Qed.
Print Assumptions C03_terminates.

(** C04: what Unmarshal accepts is well formed. *)
Theorem C04_result_wf : forall L s t,
  unmarshal L s = Ok t ->
  wf t ∧ (t = TNil ∨ null_free t) ∧ every_stamp (fun ts => -1 <= ts <= int64_max) t.
Proof. exact unmarshal_good. Qed.
Print Assumptions C04_result_wf.
Example C04_demo isp :
  unmarshal (go_lib isp) "{""a"" <9223372036854775807>: 1, ""b"": [<>""x""], ""a"" <3>: true }"
  = Ok (TObj [("a", TLeaf (PBool true) 3); ("b", TArr [TLeaf (PStr "x") (-1)])]).
Proof. vm_compute. reflexivity. Qed.

(** C05: text after a complete object or array is dropped, whatever it is. *)
Theorem C05_trailing_accepted : forall L s t rest,
  unmarshal L s = Ok t -> (exists m, t = TObj m) ∨ (exists l, t = TArr l) ->
  unmarshal L (s +++ rest) = Ok t.
Proof. exact unmarshal_trailing. Qed.
Print Assumptions C05_trailing_accepted.
Theorem C05_trailing_after_marshal : forall L t s rest,
  doc_ok L t -> marshal L t = Ok s -> unmarshal L (s +++ rest) = Ok (norm_ts t).
Proof. exact trailing_after_marshal. Qed.
Print Assumptions C05_trailing_after_marshal.
Example C05_demo isp : unmarshal (go_lib isp) "[<1> 2] garbage }" = Ok (TArr [TLeaf (PNum (f64_of_Z 2)) 1]).
Proof. vm_compute. reflexivity. Qed.

(** C06: a member written without a stamp behind its key reads back with timestamp 0, with or
    without a stamp behind the value ([txt] is any spelling of the key, [ps] any spelling of
    the scalar, [vst] nothing or any stamp). *)
Theorem C06_member_stamp_zero : forall L txt k kk p ps vst ovs,
  literal txt k -> scalar_text L kk p ps -> opt_stamp vst ovs ->
  unmarshal L ("{" +++ String (ascii_of_N 34) (txt +++ String (ascii_of_N 34) (":" +++ ps +++ vst +++ "}")))
  = Ok (TObj [(k, TLeaf p 0)]).
Proof. exact missing_stamp_member. Qed.
Print Assumptions C06_member_stamp_zero.
Theorem C06_element_stamp_zero : forall L kk p ps vst ovs,
  scalar_text L kk p ps -> opt_stamp vst ovs ->
  unmarshal L ("[" +++ ps +++ vst +++ "]") = Ok (TArr [TLeaf p 0]).
Proof. exact missing_stamp_elem. Qed.
Print Assumptions C06_element_stamp_zero.
Example C06_demo isp : unmarshal (go_lib isp) "{""k"":true<77>}" = Ok (TObj [("k", TLeaf (PBool true) 0)]).
Proof. vm_compute. reflexivity. Qed.
(** C06 as expected is refuted: the default timestamp is -1. *)
Theorem C06_default_refuted : forall L, exists s k p ts,
  unmarshal L s = Ok (TObj [(k, TLeaf p ts)]) ∧ s = "{""k"":true}" ∧ ts ≠ -1.
Proof. exact default_not_used. Qed.
Print Assumptions C06_default_refuted.

(** C07: the text determines the document. *)
Theorem C07_text_injective : forall L t1 t2 s,
  doc_ok L t1 -> doc_ok L t2 ->
  every_stamp (fun ts => -1 <= ts) t1 -> every_stamp (fun ts => -1 <= ts) t2 ->
  marshal L t1 = Ok s -> marshal L t2 = Ok s -> t1 = t2.
Proof. exact text_injective_exact. Qed.
Print Assumptions C07_text_injective.
Example C07_demo isp : exists s, marshal (go_lib isp) demo = Ok s ∧ doc_ok (go_lib isp) demo.
Proof. exact (demo_marshal isp). Qed.

(** C41: Unmarshal accepts exactly the texts of the grammar in [TextSpec.v], and returns the
    document the grammar assigns. *)
Theorem C41_accepts_grammar : forall L s t, unmarshal L s = Ok t <-> doc_text L t s.
Proof. exact unmarshal_iff. Qed.
Print Assumptions C41_accepts_grammar.
(** C41: the grammar is unambiguous. *)
Theorem C41_unambiguous : forall L s t t', doc_text L t s -> doc_text L t' s -> t = t'.
Proof. exact grammar_unambiguous. Qed.
Print Assumptions C41_unambiguous.
Example C41_demo isp : doc_text (go_lib isp) demo
  (match marshal (go_lib isp) demo with Ok s => s | _ => "" end).
Proof. exact (demo_in_grammar isp). Qed.
