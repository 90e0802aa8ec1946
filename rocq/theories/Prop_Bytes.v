(** Properties C45-C49: reading and writing compatible TSON, and ToArray. *)
From Verif Require Import Base F64 Tson TsonInd TextSpec TsonSpec ReadLemmas Bytes BytesSpec BytesLemmas BytesDemo.

(** C45: FromCompatibleTson reads an object as a leaf exactly when its members are "value" and
    a number "timestamp", and everything else member by member. *)
Theorem C45_reads : forall j t, from_compatible j = Ok t <-> reads j t.
Proof. exact from_compatible_reads. Qed.
Print Assumptions C45_reads.
Example C45_case : reads read_demo (TObj [("a", TLeaf (PStr "x") 7); ("b", TArr [TNil])]).
Proof. exact read_demo_reads. Qed.
(** C45: it never returns an error; it panics exactly on stray scalars and nulls. *)
Theorem C45_panics : forall j, from_compatible j <> Err ∧ (from_compatible j = Panic <-> stray j).
Proof. exact (fun j => conj (from_compatible_no_err j) (from_compatible_panics j)). Qed.
Print Assumptions C45_panics.
Example C45_case_stray : stray stray_demo.
Proof. exact stray_demo_stray. Qed.

(** C46: ToArray returns the payloads in order, exactly when all elements are leaves. *)
Theorem C46_to_array : forall l, to_array l <> Panic ∧
  (forall ps, to_array l = Ok ps <-> Forall2 (fun t p => exists ts, t = TLeaf p ts) l ps) ∧
  (to_array l = Err <-> exists t, t ∈ l ∧ forall p ts, t <> TLeaf p ts).
Proof. exact (fun l => conj (to_array_total l) (conj (to_array_ok l) (to_array_err l))). Qed.
Print Assumptions C46_to_array.
Example C46_case : to_array [TLeaf (PStr "a") 1; TLeaf (PBool true) 2] = Ok [PStr "a"; PBool true]
  ∧ to_array [TLeaf (PStr "a") 1; TArr []] = Err.
Proof. exact (conj eq_refl eq_refl). Qed.

(** C47: ToCompatibleTsonBytes gives two documents the same text exactly when they are the
    same up to member order. *)
Theorem C47_canonical : forall a b w, wf a -> wf b -> to_bytes a = Ok w ->
  to_bytes b = Ok w <-> same_doc a b.
Proof. exact bytes_canonical. Qed.
Print Assumptions C47_canonical.
Example C47_case : wf doc_ab ∧ wf doc_ba ∧ same_doc doc_ab doc_ba ∧ exists w, to_bytes doc_ab = Ok w.
Proof. exact (conj doc_ab_wf (conj doc_ba_wf (conj doc_same (ex_intro _ _ (proj2 doc_bytes))))). Qed.
(** C47: it fails only for NaN and infinities; the text stands for the document and has the
    members of objects in the order of their names. *)
Theorem C47_written : forall t, to_bytes t <> Panic ∧ ((exists w, to_bytes t = Ok w) <-> finite_nums t) ∧
  forall w, wf t -> to_bytes t = Ok w -> stands_for w t ∧ laid_out w t.
Proof.
  exact (fun t => conj (bytes_no_panic t) (conj (bytes_succeed t)
    (fun w HW H => conj (proj2 (bytes_ok t w HW H)) (bytes_laid_out t w HW H)))).
Qed.
Print Assumptions C47_written.
(** C47: decoding the text gives the data of ToCompatibleTson ... *)
Theorem C47_decoded : forall t w, wf t -> to_bytes t = Ok w ->
  exists j, to_compatible t = Ok j ∧ same_json (unmarshal_any w) j.
Proof. exact bytes_decoded. Qed.
Print Assumptions C47_decoded.
(** ... and loses the difference of some timestamps. *)
Theorem C47_decoding_refuted : exists a b w w', wf a ∧ wf b ∧ to_bytes a = Ok w ∧ to_bytes b = Ok w' ∧ w <> w' ∧
  unmarshal_any w = unmarshal_any w'.
Proof. exact decoding_loses. Qed.
Print Assumptions C47_decoding_refuted.

(** C48: the sorted variant accepts exactly the null-free documents with finite numbers, and
    writes them with ascending keys in every object, leaves included. *)
Theorem C48_sorted : forall t, wf t -> to_bytes_sorted t <> Panic ∧
  ((exists w, to_bytes_sorted t = Ok w) <-> null_free t ∧ finite_nums t) ∧
  forall w, to_bytes_sorted t = Ok w -> stands_for w t ∧ ordered w.
Proof.
  exact (fun t HW => conj (sorted_no_panic t HW) (conj (sorted_succeeds t HW)
    (fun w H => proj2 (proj2 (sorted_result t w HW H))))).
Qed.
Print Assumptions C48_sorted.
Theorem C48_canonical : forall a b w, wf a -> wf b -> to_bytes_sorted a = Ok w ->
  to_bytes_sorted b = Ok w <-> same_doc a b.
Proof. exact sorted_canonical. Qed.
Print Assumptions C48_canonical.
Example C48_case : exists w, to_bytes_sorted doc_ab = Ok w.
Proof. exact (ex_intro _ _ doc_sorted). Qed.
(** C48: the two functions differ, and on nulls one of them fails. *)
Theorem C48_same_bytes_refuted : exists t w w', wf t ∧ to_bytes t = Ok w ∧ to_bytes_sorted t = Ok w' ∧ w <> w'.
Proof. exact bytes_differ. Qed.
Print Assumptions C48_same_bytes_refuted.

(** C49: parseValue never panics and accepts exactly the described JSON; without nulls in the
    result it agrees with FromCompatibleTson. *)
Theorem C49_parse_value : forall j, parse_value j <> Panic ∧ forall t, parse_value j = Ok t <-> parses j t.
Proof. exact (fun j => conj (pv_total j) (pv_spec j)). Qed.
Print Assumptions C49_parse_value.
Theorem C49_agrees : forall j t, null_free t -> parse_value j = Ok t <-> from_compatible j = Ok t.
Proof. exact pv_agrees. Qed.
Print Assumptions C49_agrees.
Example C49_case : parse_value read_demo = Err ∧
  parse_value (JObj [("a", JNull); ("b", JArr [])]) = Ok (TObj [("a", TNil); ("b", TArr [])]) ∧
  from_compatible (JObj [("a", JNull); ("b", JArr [])]) = Panic.
Proof. exact parse_demo. Qed.
