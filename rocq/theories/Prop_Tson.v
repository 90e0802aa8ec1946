(** C08 - C14: document operations and conversions. *)
From Verif Require Import Base BaseSpec BaseSpecLemmas F64 Tson TsonInd TextSpec GoText TsonSpec F64Lemmas TsonLemmas ConvLemmas
  TextDemo TsonDemo FromJsonErr.

(** C08: GetValue with the pointer of keys [ks] returns the node those keys reach, and an
    error (never a panic) when there is none.  Keys may hold any byte except "/". *)
Theorem C08_get_value : forall t ks,
  wf t -> ks ≠ [] -> Forall (fun k => ~ contains_slash k) ks ->
  (forall v, get_value t (pointer ks) = Ok v <-> node_at t ks v) ∧ get_value t (pointer ks) ≠ Panic.
Proof. exact get_value_spec. Qed.
Print Assumptions C08_get_value.
Example C08_demo : wf demo ∧ get_value demo (pointer ["xs"; "0"]) = Ok (TLeaf (PNum (f64_of_ratio false 1 2)) 1)
  ∧ get_value demo (pointer ["xs"; "7"]) = Err.
Proof. exact demo_get. Qed.

(** C08: a key with slashes is addressed as several keys ... *)
Theorem C08_slash_keys_split : forall t ks qs,
  wf t -> ks ≠ [] -> Forall2 parted ks qs ->
  (forall v, get_value t (pointer ks) = Ok v <-> node_at t (concat qs) v)
  ∧ get_value t (pointer ks) ≠ Panic.
Proof. exact get_value_split. Qed.
Print Assumptions C08_slash_keys_split.
(** ... so the member is not found. *)
Theorem C08_slash_key_unreachable : forall k v,
  contains_slash k -> get_value (TObj [(k, v)]) (pointer [k]) = Err.
Proof. exact slash_key_lost. Qed.
Print Assumptions C08_slash_key_unreachable.
Example C08_slash_demo : contains_slash "a/b" ∧ parted "a/b" ["a"; "b"].
Proof. exact demo_slash. Qed.
(** C08: a path without a leading slash crashes. *)
Theorem C08_no_slash_panics : forall t p d,
  container t -> decoded p d -> ~ contains_slash d -> get_value t p = Panic.
Proof. exact no_slash_path_panics. Qed.
Print Assumptions C08_no_slash_panics.
Example C08_no_slash_demo : container demo ∧ decoded "name" "name" ∧ ~ contains_slash "name".
Proof. exact demo_no_slash. Qed.

(** C09: GetLatestTimestamp is the maximum of the timestamps, and at least 0. *)
Theorem C09_latest_is_max : forall t,
  null_free t -> container t ->
  exists z, latest_timestamp t = Ok z ∧ 0 <= z ∧ Forall (fun x => x <= z) (stamps t)
    ∧ (z = 0 ∨ z ∈ stamps t).
Proof. exact latest_max. Qed.
Print Assumptions C09_latest_is_max.
(** C09: independent of the iteration order. *)
Theorem C09_order_independent : forall t t',
  null_free t -> same_doc t t' -> latest_timestamp t = latest_timestamp t'.
Proof. exact latest_same. Qed.
Print Assumptions C09_order_independent.
(** C09: a null anywhere crashes. *)
Theorem C09_null_panics : forall t, ~ null_free t -> latest_timestamp t = Panic.
Proof. exact latest_null_panics. Qed.
Print Assumptions C09_null_panics.
Example C09_demo : null_free demo ∧ container demo ∧ latest_timestamp demo = Ok 9007199254740993.
Proof. exact demo_latest. Qed.
Example C09_null_demo : ~ null_free (TArr [TLeaf (PBool true) 3; TNil]).
Proof. exact null_demo. Qed.

(** C10: Equal decides sameness of structure, values and timestamps. *)
Theorem C10_equal : forall a b,
  wf a -> wf b -> encodable a = true -> encodable b = true ->
  every_stamp exact_int a -> every_stamp exact_int b ->
  exists r, equal a b = Ok r ∧ (r = true <-> same_content a b).
Proof. exact equal_spec. Qed.
Print Assumptions C10_equal.
(** C10, all timestamps: they are compared after rounding to float64. *)
Theorem C10_equal_rounded : forall a b,
  wf a -> wf b -> encodable a = true -> encodable b = true ->
  exists r, equal a b = Ok r ∧
    (r = true <-> agree (fun x y => f64_eq (f64_of_Z x) (f64_of_Z y) = true) a b).
Proof. exact equal_general. Qed.
Print Assumptions C10_equal_rounded.
(** C10: documents holding NaN or an infinity give an error. *)
Theorem C10_unencodable : forall a b, encodable a = false ∨ encodable b = false -> equal a b = Err.
Proof. exact equal_unencodable. Qed.
Print Assumptions C10_unencodable.
Example C10_demo : wf demo_small ∧ encodable demo_small = true ∧ every_stamp exact_int demo_small
  ∧ equal demo_small demo_small_swapped = Ok true ∧ equal demo_small demo_small_other = Ok false.
Proof. exact demo_equal. Qed.
(** C10 beyond 2^53 is refuted: these two are reported equal. *)
Theorem C10_large_refuted : exists a b,
  wf a ∧ wf b ∧ equal a b = Ok true ∧ ~ same_content a b.
Proof. exact equal_large. Qed.
Print Assumptions C10_large_refuted.

(** C11: EqualWithoutTimestamp on containers. *)
Theorem C11_equal_values : forall a b,
  wf a -> wf b -> container a -> container b -> encodable a = true -> encodable b = true ->
  exists r, equal_without_timestamp a b = Ok r ∧ (r = true <-> same_values a b).
Proof. exact equal_wt_spec. Qed.
Print Assumptions C11_equal_values.
Example C11_demo : container demo_small ∧ equal_without_timestamp demo_small demo_small_other = Ok true.
Proof. exact demo_equal_wt. Qed.
(** C11: on bare leaves the timestamp still counts ... *)
Theorem C11_leaf_timestamp_counts : forall p q ts ts',
  prim_encodable p = true -> prim_encodable q = true -> exact_int ts -> exact_int ts' ->
  equal_without_timestamp (TLeaf p ts) (TLeaf q ts') = Ok true <-> prim_eq p q ∧ ts = ts'.
Proof. exact equal_wt_leaf_spec. Qed.
Print Assumptions C11_leaf_timestamp_counts.
(** ... and a bare leaf equals an object. *)
Theorem C11_leaf_equals_object : forall p ts,
  prim_encodable p = true -> exact_int ts ->
  equal_without_timestamp (TLeaf p ts)
    (TObj [("value", TLeaf p 0); ("timestamp", TLeaf (PNum (f64_of_Z ts)) 0)]) = Ok true.
Proof. exact leaf_equals_object. Qed.
Print Assumptions C11_leaf_equals_object.
(** C11: any two documents holding NaN or an infinity are reported equal. *)
Theorem C11_unencodable_all_equal : forall a b,
  encodable a = false -> encodable b = false -> equal_without_timestamp a b = Ok true.
Proof. exact equal_wt_unencodable. Qed.
Print Assumptions C11_unencodable_all_equal.
Example C11_leaf_demo : exact_int 7 ∧ prim_encodable (PBool true) = true.
Proof. split; [exact seven_exact|reflexivity]. Qed.

(** C12: compatible-TSON round trip, whatever member order the JSON carries. *)
Theorem C12_compatible_roundtrip : forall t j j',
  wf t -> null_free t -> every_stamp exact_int t ->
  to_compatible t = Ok j -> same_json j j' ->
  exists t', from_compatible j' = Ok t' ∧ same_doc t' t.
Proof. exact compat_roundtrip. Qed.
Print Assumptions C12_compatible_roundtrip.
Example C12_demo : wf demo_tricky ∧ null_free demo_tricky ∧ every_stamp exact_int demo_tricky
  ∧ exists j, to_compatible demo_tricky = Ok j ∧ from_compatible j = Ok demo_tricky.
Proof. exact demo_compat. Qed.
(** C12 beyond 2^53 is refuted: the timestamp comes back changed. *)
Theorem C12_large_refuted : exists t t' j,
  wf t ∧ null_free t ∧ to_compatible t = Ok j ∧ from_compatible j = Ok t' ∧ ~ same_doc t' t.
Proof. exact compat_large. Qed.
Print Assumptions C12_large_refuted.

(** C13: JSON round trip. *)
Theorem C13_json_roundtrip : forall j,
  jcontainer j -> json_encodable j = true -> jnull_free j = true ->
  exists t, snd (from_json j) = Ok t ∧ to_json t = j ∧ every_stamp (fun ts => ts = -1) t.
Proof. exact json_roundtrip. Qed.
Print Assumptions C13_json_roundtrip.
Example C13_demo : jcontainer demo_json ∧ json_encodable demo_json = true ∧ jnull_free demo_json = true.
Proof. exact demo_json_ok. Qed.

(** C14: FromJson panics on every container with a null inside ... *)
Theorem C14_null_panics : forall j,
  jcontainer j -> json_encodable j = true -> jnull_free j = false -> snd (from_json j) = Panic.
Proof. exact from_json_null_panics. Qed.
Print Assumptions C14_null_panics.
(** ... and on every scalar ... *)
Theorem C14_scalar_panics : forall j,
  ~ jcontainer j -> json_encodable j = true -> snd (from_json j) = Panic.
Proof. exact from_json_scalar. Qed.
Print Assumptions C14_scalar_panics.
(** ... it returns an error only for data with a number that has no JSON text ... *)
Theorem C14_number_fails : forall j, json_encodable j = false -> snd (from_json j) = Err.
Proof. exact from_json_number. Qed.
Print Assumptions C14_number_fails.
Example C14_number_case : json_encodable (JArr [JNull; JNum S754_nan]) = false.
Proof. exact eq_refl. Qed.
(** ... and rewrites the caller's data whenever it holds a scalar. *)
Theorem C14_argument_rewritten : forall j, scalar_inside j = true -> fst (from_json j) ≠ j.
Proof. exact add_timestamp_changes. Qed.
Print Assumptions C14_argument_rewritten.
Example C14_demo : jcontainer demo_json_null ∧ json_encodable demo_json_null = true
  ∧ jnull_free demo_json_null = false ∧ scalar_inside demo_json_null = true.
Proof. exact demo_json_null_ok. Qed.
