(** Editing documents with operations and patches (C15-C19, C42, C43). *)
From Verif Require Import Base BaseSpec BaseSpecLemmas F64 Tson Heap HeapSpec Patch PatchSpec PatchLemmas PatchDemo.

(** C15: add and replace with a scalar make the named path hold the new leaf, create missing
    members on the way, and change nothing else. *)
Theorem C15_set : forall h v t op ks p,
  doc_of h v t -> spells (op_path op) ks -> free_way t ks -> writes op -> payload (op_value op) p ->
  exists h' t', apply_operation h v op = (h', Ok v) ∧ doc_of h' v t' ∧
    at_path t' (keys ks) = Some (TLeaf p (op_ts op)) ∧
    (forall q, apart (keys ks) q -> at_path t' q = at_path t q) ∧
    (forall q, q `prefix_of` keys ks -> q <> keys ks -> exists m, at_path t' q = Some (TObj m)).
Proof. exact set_doc. Qed.
Print Assumptions C15_set.
Example C15_case : doc_of pheap proot pdoc ∧ spells "b/d.e" ["b"; "d"; "e"] ∧ free_way pdoc ["b"; "d"; "e"] ∧
  payload (n1 3) (PNum (f64_of_Z 3)).
Proof. exact (conj pdoc_ok (conj spell1 (conj way1 (pl_num _)))). Qed.

(** C16: remove deletes the named member and nothing else; a missing member is fine. *)
Theorem C16_remove : forall h v t op ks,
  doc_of h v t -> spells (op_path op) ks -> through_objects t ks -> op_kind op = ORemove ->
  exists h' t', apply_operation h v op = (h', Ok v) ∧ doc_of h' v t' ∧
    at_path t' (keys ks) = None ∧
    (forall q, apart (keys ks) q -> at_path t' q = at_path t q) ∧
    (at_path t (keys ks) = None -> t' = t) ∧
    (forall q, q `prefix_of` keys ks -> q <> keys ks -> exists m, at_path t' q = Some (TObj m)).
Proof. exact remove_doc. Qed.
Print Assumptions C16_remove.
Example C16_case : doc_of pheap proot pdoc ∧ spells "b/c" ["b"; "c"] ∧ through_objects pdoc ["b"; "c"].
Proof. exact (conj pdoc_ok (conj spell2 way2)). Qed.

(** C17: an operation that fails below an object member replaces that member by null. *)
Theorem C17_error_below_member : forall h v t op k k2 ks h',
  doc_of h v t -> spells (op_path op) (k :: k2 :: ks) -> (exists m, at_path t [Key k] = Some (TObj m)) ->
  apply_operation h v op = (h', Err) ->
  exists t', doc_of h' v t' ∧ at_path t' [Key k] = Some TNil ∧
    (forall q, apart [Key k] q -> at_path t' q = at_path t q).
Proof. exact error_below. Qed.
Print Assumptions C17_error_below_member.
Example C17_case : doc_of pheap proot pdoc ∧ spells "b/c" ["b"; "c"] ∧
  (exists m, at_path pdoc [Key "b"] = Some (TObj m)) ∧
  exists h', apply_operation pheap proot (Op OAdd "b/c" ANil 9) = (h', Err).
Proof. exact (conj pdoc_ok (conj spell2 (conj (ex_intro _ _ eq_refl) error_case))). Qed.
(** With a single member name a failing operation has no effect. *)
Theorem C17_error_at_top : forall h v m op k h',
  doc_of h v (TObj m) -> spells (op_path op) [k] -> apply_operation h v op = (h', Err) -> doc_of h' v (TObj m).
Proof. exact error_top. Qed.
Print Assumptions C17_error_at_top.
(** All failing operations on an object: no effect, one member becomes null, or (null
    value) one array member grows by nulls. *)
Theorem C17_every_error : forall h v m op h',
  doc_of h v (TObj m) -> apply_operation h v op = (h', Err) ->
  exists t', doc_of h' v t' ∧
   (t' = TObj m ∨
    exists k, (forall q, apart [Key k] q -> at_path t' q = at_path (TObj m) q) ∧
      (at_path t' [Key k] = Some TNil ∨
       exists xs n, op_value op = ANil ∧ at_path (TObj m) [Key k] = Some (TArr xs) ∧
         at_path t' [Key k] = Some (TArr (xs ++ replicate n TNil)))).
Proof. exact error_all. Qed.
Print Assumptions C17_every_error.
Theorem C17_unchanged_refuted : exists h v t op h' t', doc_of h v t ∧ apply_operation h v op = (h', Err) ∧
  doc_of h' v t' ∧ at_path t [Key "b"; Key "c"] = Some (TLeaf (PStr "x") 6) ∧ at_path t' [Key "b"; Key "c"] = None.
Proof. exact error_refuted. Qed.
Print Assumptions C17_unchanged_refuted.

(** C18: on an object, ApplyPatch of p++q is ApplyPatch of p, then of q, and returns the
    object itself. *)
Theorem C18_sequential : forall h l p q, q <> [] ->
  apply_patch h (VObj l) (p ++ q) =
  match apply_patch h (VObj l) p with
  | (h', Ok _) => apply_patch h' (VObj l) q
  | r => r
  end.
Proof. exact apply_patch_app. Qed.
Print Assumptions C18_sequential.
Theorem C18_one_operation : forall h v op, apply_patch h v [op] = apply_operation h v op.
Proof. exact apply_patch_one. Qed.
Print Assumptions C18_one_operation.
Theorem C18_in_place : forall h l p h' v,
  apply_patch h (VObj l) p = (h', Ok v) -> p <> [] -> v = VObj l.
Proof. exact apply_patch_in_place. Qed.
Print Assumptions C18_in_place.
(** The empty patch returns null for every document. *)
Theorem C18_empty_patch_refuted : forall h v, v <> VNil -> exists v', apply_patch h v [] = (h, Ok v') ∧ v' <> v.
Proof. exact apply_patch_empty. Qed.
Print Assumptions C18_empty_patch_refuted.
Example C18_case : exists h' h'' v,
  apply_patch pheap proot [Op OReplace "a" (n1 2) 9] = (h', Ok v) ∧
  apply_patch h' proot [Op ORemove "b/c" ANil 10] = (h'', Ok v).
Proof. exact patch_case. Qed.

(** C19: with a leading slash, only the member with the empty name is ever touched,
    whatever the operation and its outcome. *)
Theorem C19_leading_slash : forall h v m op rest h' r,
  doc_of h v (TObj m) -> op_path op = "/" +++ rest -> apply_operation h v op = (h', r) ->
  exists m', doc_of h' v (TObj m') ∧ (forall q, apart [Key ""] q -> at_path (TObj m') q = at_path (TObj m) q).
Proof. exact slash_doc. Qed.
Print Assumptions C19_leading_slash.
Theorem C19_pointer_refuted : exists h' t',
  apply_operation pheap proot (Op OReplace "/a" (n1 2) 9) = (h', Ok proot) ∧ doc_of h' proot t' ∧
  get_value t' "/a" = Ok (nleaf 1 5).
Proof. exact slash_refuted. Qed.
Print Assumptions C19_pointer_refuted.

(** C42: an operation on one document leaves every document that shares nothing with it
    as it was, and the two still share nothing. *)
Theorem C42_other_documents : forall h v t ds op h' r,
  docs_of h ((v, t) :: ds) -> apply_operation h v op = (h', r) ->
  exists v' t', docs_of h' ((v', t') :: ds) ∧ match r with Ok w => v' = w | _ => v' = v end.
Proof. exact other_docs. Qed.
Print Assumptions C42_other_documents.
Example C42_case : exists h v w, docs_of h [(v, pdoc); (w, TObj [("z", TArr [])])].
Proof. exact two_docs. Qed.

(** C43: add and replace at an index of an array member set that element, filling a gap with
    nulls; further path pieces are ignored. *)
Theorem C43_array_set : forall h v t op ks k i extra xs p idx,
  doc_of h v t -> spells (op_path op) (ks ++ k :: i :: extra) -> at_path t (keys (ks ++ [k])) = Some (TArr xs) ->
  int_text i (Z.of_nat idx) -> writes op -> payload (op_value op) p ->
  exists h' t', apply_operation h v op = (h', Ok v) ∧ doc_of h' v t' ∧
    at_path t' (keys (ks ++ [k])) = Some (TArr (set_elem xs idx (TLeaf p (op_ts op)))) ∧
    (forall q, apart (keys (ks ++ [k])) q -> at_path t' q = at_path t q).
Proof. exact array_set_doc. Qed.
Print Assumptions C43_array_set.
(** Remove closes the gap. *)
Theorem C43_array_remove : forall h v t op ks k i extra xs idx,
  doc_of h v t -> spells (op_path op) (ks ++ k :: i :: extra) -> at_path t (keys (ks ++ [k])) = Some (TArr xs) ->
  int_text i (Z.of_nat idx) -> (idx < length xs)%nat -> op_kind op = ORemove ->
  exists h' t', apply_operation h v op = (h', Ok v) ∧ doc_of h' v t' ∧
    at_path t' (keys (ks ++ [k])) = Some (TArr (take idx xs ++ drop (S idx) xs)) ∧
    (forall q, apart (keys (ks ++ [k])) q -> at_path t' q = at_path t q).
Proof. exact array_remove_doc. Qed.
Print Assumptions C43_array_remove.
(** Writing an object or array over a leaf element succeeds, and the whole array becomes
    that old leaf. *)
Theorem C43_array_lost : forall h v t op ks k i extra xs idx p ts,
  doc_of h v t -> spells (op_path op) (ks ++ k :: i :: extra) -> at_path t (keys (ks ++ [k])) = Some (TArr xs) ->
  int_text i (Z.of_nat idx) -> xs !! idx = Some (TLeaf p ts) -> writes op ->
  (forall p', ¬ payload (op_value op) p') -> op_value op <> ANil ->
  exists h' t', apply_operation h v op = (h', Ok v) ∧ doc_of h' v t' ∧
    at_path t' (keys (ks ++ [k])) = Some (TLeaf p ts) ∧
    (forall q, apart (keys (ks ++ [k])) q -> at_path t' q = at_path t q).
Proof. exact array_lost_doc. Qed.
Print Assumptions C43_array_lost.
Example C43_case : doc_of pheap proot pdoc ∧ spells "l/1" ([] ++ "l" :: "1" :: []) ∧
  at_path pdoc (keys ([] ++ ["l"])) = Some (TArr [nleaf 1 7; nleaf 2 8]) ∧ int_text "1" (Z.of_nat 1) ∧
  (forall p, ¬ payload (AMap []) p).
Proof. exact (conj pdoc_ok (conj spell3 (conj eq_refl (conj one_text (map_no_payload []))))). Qed.
