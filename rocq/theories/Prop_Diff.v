(** Properties of generated patches. *)
From Verif Require Import Base BaseSpec BaseSpecLemmas F64 Tson TsonInd TsonSpec Heap HeapSpec Patch PatchSpec PatchDemo Diff DiffSpec DiffLemmas DiffPaths DiffApply DiffExact DiffDemo.

(** C20: when the document returned for a generated patch has the values of the modified
    object, the two objects already agreed in every member with a non-empty name. *)
Theorem C20_never_transforms : forall m m' ops h l h' v t, wf (TObj m) -> wf (TObj m') ->
  generate_patch (TObj m) (TObj m') = Ok ops ->
  doc_of h (VObj l) (TObj m) -> apply_patch h (VObj l) ops = (h', Ok v) -> doc_of h' v t ->
  same_values t (TObj m') -> forall k, k <> "" -> member_same m m' k.
Proof. exact never_transforms. Qed.
Print Assumptions C20_never_transforms.
(** Without the leading slashes the patch transforms origin into modified, for bridged
    documents: arrays may be changed in place, lose elements and grow at the end. *)
Theorem C20_relative_transforms : forall m m' ops h l, wf (TObj m) -> wf (TObj m') -> nan_free (TObj m') ->
  bridged false (TObj m) (TObj m') -> well_named (TObj m) -> well_named (TObj m') ->
  generate_patch (TObj m) (TObj m') = Ok ops -> ops <> [] -> doc_of h (VObj l) (TObj m) ->
  exists h' t', apply_patch h (VObj l) (map unslash ops) = (h', Ok (VObj l)) ∧ doc_of h' (VObj l) t' ∧ same_values t' (TObj m').
Proof. exact apply_relative. Qed.
Print Assumptions C20_relative_transforms.
Example C20_case : wf (TObj da) ∧ wf (TObj db) ∧ nan_free (TObj db) ∧ bridged false (TObj da) (TObj db) ∧ well_named (TObj da) ∧
  well_named (TObj db) ∧ generate_patch (TObj da) (TObj db) = Ok dops ∧ dops <> [] ∧ doc_of dheap (VObj dloc) (TObj da) ∧
  ~ member_same da db "n".
Proof.
  exact (conj da_wf (conj db_wf (conj db_nan (conj (d_bridged false) (conj da_named (conj db_named (conj d_gen
    (conj dops_ne (conj da_ok d_differs))))))))).
Qed.
Example C20_case_arrays : wf (TObj ta) ∧ wf (TObj tb) ∧ nan_free (TObj tb) ∧ bridged false (TObj ta) (TObj tb) ∧ well_named (TObj ta) ∧
  well_named (TObj tb) ∧ generate_patch (TObj ta) (TObj tb) = Ok tops ∧ tops <> [] ∧ doc_of theap (VObj tloc) (TObj ta).
Proof.
  exact (conj ta_wf (conj tb_wf (conj tb_nan (conj t_bridged (conj ta_named (conj tb_named (conj t_gen (conj tops_ne ta_ok)))))))).
Qed.
(** For arrays of different length the condition is exact: the patch gives the new array, timestamps included,
    if and only if it is trimmed from the old one. *)
Theorem C20_arrays_exact : forall k os ms ops h l, k <> "" -> plain k -> Forall fine os -> Forall fine ms ->
  (forall v, v ∈ ms -> exists x ts, v = TLeaf x ts) -> length os <> length ms ->
  Z.of_nat (length os) <= int64_max -> Z.of_nat (length ms) <= int64_max ->
  generate_patch (TObj [(k, TArr os)]) (TObj [(k, TArr ms)]) = Ok ops -> doc_of h (VObj l) (TObj [(k, TArr os)]) ->
  exists h' t', apply_patch h (VObj l) (map unslash ops) = (h', Ok (VObj l)) ∧ doc_of h' (VObj l) t' ∧
    (same_content t' (TObj [(k, TArr ms)]) <-> trimmed os ms).
Proof. exact arrays_exact. Qed.
Print Assumptions C20_arrays_exact.
Example C20_case_exact : plain "l" ∧ Forall fine xos ∧ Forall fine xms ∧ (forall v, v ∈ xms -> exists x ts, v = TLeaf x ts) ∧
  length xos <> length xms ∧ (Z.of_nat (length xos) <= int64_max ∧ Z.of_nat (length xms) <= int64_max) ∧
  generate_patch (TObj [("l", TArr xos)]) (TObj [("l", TArr xms)]) = Ok [Op ORemove "/l/2" ANil 0] ∧
  doc_of xheap (VObj xloc) (TObj [("l", TArr xos)]) ∧ ~ trimmed xos xms.
Proof.
  exact (conj l_plain (conj xos_fine (conj xms_fine (conj xms_leaves (conj x_length (conj x_small (conj x_gen (conj xos_ok x_not_trimmed)))))))).
Qed.
Theorem C20_transforms_refuted : exists h v a b ops h' t', doc_of h v a ∧ wf a ∧ wf b ∧ generate_patch a b = Ok ops ∧
  apply_patch h v ops = (h', Ok v) ∧ read h' v = Some t' ∧ at_path b [Key "n"] = Some (nleaf 4 9) ∧ at_path t' [Key "n"] = None.
Proof. exact transforms_refuted. Qed.
Print Assumptions C20_transforms_refuted.
(** A leaf added in front of an array is not covered by the second theorem. *)
Theorem C20_front_refuted : exists h v a b ops h' t', doc_of h v a ∧ wf a ∧ wf b ∧ nan_free b ∧ well_named a ∧ well_named b ∧
  generate_patch a b = Ok ops ∧ apply_patch h v (map unslash ops) = (h', Ok v) ∧ doc_of h' v t' ∧ ~ same_values t' b.
Proof. exact front_refuted. Qed.
Print Assumptions C20_front_refuted.

(** C21: the patch is empty exactly when the documents agree up to timestamps. *)
Theorem C21_empty_iff_same_values : forall a b, wf a -> wf b -> generate_patch a b = Ok [] <-> same_values a b.
Proof. exact generate_empty. Qed.
Print Assumptions C21_empty_iff_same_values.
Example C21_case : same_values (TObj [("a", nleaf 1 5); ("b", TArr [nleaf 2 6])]) (TObj [("b", TArr [nleaf 2 9]); ("a", nleaf 1 8)]).
Proof. exact ts_case. Qed.
(** NaN differs from itself, so it is patched again and again. *)
Theorem C21_nan_refuted : exists a ops, wf a ∧ generate_patch a a = Ok ops ∧ ops <> [].
Proof. exact nan_refuted. Qed.
Print Assumptions C21_nan_refuted.

(** C22: the patch with timestamps is empty exactly when values and timestamps agree. *)
Theorem C22_empty_iff_same_content : forall a b, wf a -> wf b -> generate_patch_with_timestamp a b = Ok [] <-> same_content a b.
Proof. exact generate_ts_empty. Qed.
Print Assumptions C22_empty_iff_same_content.
Example C22_case : generate_patch_with_timestamp (TObj [("a", nleaf 1 5)]) (TObj [("a", nleaf 1 6)]) = Ok [Op OReplace "/a" (n1 1) 6] ∧
  generate_patch_with_timestamp (TObj [("a", nleaf 1 5); ("b", TArr [nleaf 2 6])]) (TObj [("b", TArr [nleaf 2 6]); ("a", nleaf 1 5)]) = Ok [].
Proof. split; vm_compute; reflexivity. Qed.

(** C23: every operation removes something that is gone, or carries the leaf of the modified
    document that its path addresses. *)
Theorem C23_operations_describe : forall a b ops p, wf a -> wf b -> generate_patch a b = Ok ops -> p ∈ ops ->
  exists q, op_path p = written q ∧
   ((op_kind p = ORemove ∧ op_value p = ANil ∧ gone a b q) ∨
    (exists x ts, at_path b q = Some (TLeaf x ts) ∧ carries p x ts)).
Proof. exact generated_describes. Qed.
Print Assumptions C23_operations_describe.
(** Every leaf of the modified document is one that the original has, or has an operation. *)
Theorem C23_leaves_covered : forall a b ops q y ts, wf b -> wf a -> generate_patch a b = Ok ops ->
  at_path b q = Some (TLeaf y ts) -> kept a b q ∨ exists p, p ∈ ops ∧ op_path p = written q ∧ carries p y ts.
Proof. exact covered_all. Qed.
Print Assumptions C23_leaves_covered.
(** Every missing member has an operation. *)
Theorem C23_removals_covered : forall a b q m m' k ops, generate_patch a b = Ok ops -> meets a b q (TObj m) (TObj m') ->
  is_Some (alookup k m) -> alookup k m' = None ->
  exists p, p ∈ ops ∧ op_kind p = ORemove ∧ op_path p = written (q ++ [Key k]).
Proof. exact removed_listed. Qed.
Print Assumptions C23_removals_covered.
(** Written paths are RFC 6901 pointers when no name is empty. *)
Theorem C23_written_pointer : forall q, Forall (fun s => step_name s <> "") q -> written q = pointer (map step_name q).
Proof. exact written_plain. Qed.
Print Assumptions C23_written_pointer.
Example C23_case : wf (TObj da) ∧ wf (TObj db) ∧ generate_patch (TObj da) (TObj db) = Ok dops ∧
  at_path (TObj db) [Key "b"; Key "c"] = Some (TLeaf (PStr "y") 9) ∧
  meets (TObj da) (TObj db) [Key "b"] (TObj [("c", TLeaf (PStr "x") 6); ("d", TLeaf (PBool true) 6)]) (TObj [("c", TLeaf (PStr "y") 9)]).
Proof. exact (conj da_wf (conj db_wf (conj d_gen (conj eq_refl d_meets)))). Qed.

(** C24: where two arrays of different length meet, the patch has one block for them: it
    removes the old elements left over by a one-to-one matching of equal elements, last index
    first, and then adds the new ones left over. *)
Theorem C24_array_difference : forall a b q os ms ops, generate_patch a b = Ok ops -> meets a b q (TArr os) (TArr ms) ->
  length os <> length ms -> Forall fine os -> Forall fine ms ->
  exists M adds, matching os ms M ∧
    block (map (fun i => Op ORemove (written (q ++ [Elem i])) ANil 0) (reverse (leftover (length os) (map fst M))) ++ adds) ops ∧
    Forall2 (fun j p => exists x ts, ms !! j = Some (TLeaf x ts) ∧ op_kind p = OAdd ∧ op_path p = written (q ++ [Elem j]) ∧ carries p x ts)
      (leftover (length ms) (map snd M)) adds.
Proof. exact array_difference. Qed.
Print Assumptions C24_array_difference.
Example C24_case : generate_patch (TObj [("l", TArr aos)]) (TObj [("l", TArr ams)]) = Ok aops ∧
  meets (TObj [("l", TArr aos)]) (TObj [("l", TArr ams)]) [Key "l"] (TArr aos) (TArr ams) ∧ length aos <> length ams ∧
  Forall fine aos ∧ Forall fine ams.
Proof. exact (conj a_gen (conj a_meets (conj (Nat.neq_succ_diag_l 3) (conj aos_fine ams_fine)))). Qed.
(** A new element that is no leaf panics. *)
Theorem C24_total_refuted : exists a b, wf a ∧ wf b ∧ generate_patch a b = Panic.
Proof. exact total_refuted. Qed.
Print Assumptions C24_total_refuted.

(** C44: the operations of the patch with timestamps describe the modified document. *)
Theorem C44_operations_describe : forall a b ops p, wf a -> wf b -> generate_patch_with_timestamp a b = Ok ops -> p ∈ ops ->
  exists q, op_path p = written q ∧
   ((op_kind p = ORemove ∧ op_value p = ANil ∧ gone a b q) ∨
    (exists x ts, at_path b q = Some (TLeaf x ts) ∧ carries p x ts)).
Proof. exact generated_describes_ts. Qed.
Print Assumptions C44_operations_describe.
(** Every leaf of the modified document has an operation unless the original has it with its
    timestamp, or it lies in a container element of an array whose length changed. *)
Theorem C44_leaves_covered : forall a b ops q y ts, wf b -> wf a -> generate_patch_with_timestamp a b = Ok ops ->
  at_path b q = Some (TLeaf y ts) -> kept_ts a b q ∨ exists p, p ∈ ops ∧ op_path p = written q ∧ carries p y ts.
Proof. exact covered_ts. Qed.
Print Assumptions C44_leaves_covered.
Example C44_case : exists ops, generate_patch_with_timestamp (TObj da) (TObj db) = Ok ops ∧ length ops = 5%nat ∧
  at_path (TObj db) [Key "l"; Elem 1] = Some (nleaf 3 9).
Proof. eexists. split; [vm_compute; reflexivity|]. split; reflexivity. Qed.
(** Without the leading slashes the patch transforms origin into modified, timestamps included,
    for bridged documents: arrays of different length begin alike and then differ at every index. *)
Theorem C44_relative_transforms : forall m m' ops h l, wf (TObj m) -> wf (TObj m') -> nan_free (TObj m') ->
  bridged true (TObj m) (TObj m') -> well_named (TObj m) -> well_named (TObj m') ->
  generate_patch_with_timestamp (TObj m) (TObj m') = Ok ops -> ops <> [] -> doc_of h (VObj l) (TObj m) ->
  exists h' t', apply_patch h (VObj l) (map unslash ops) = (h', Ok (VObj l)) ∧ doc_of h' (VObj l) t' ∧ same_content t' (TObj m').
Proof. exact apply_relative_ts. Qed.
Print Assumptions C44_relative_transforms.
Example C44_case_relative : wf (TObj da) ∧ wf (TObj db) ∧ nan_free (TObj db) ∧ bridged true (TObj da) (TObj db) ∧ well_named (TObj da) ∧
  well_named (TObj db) ∧ generate_patch_with_timestamp (TObj da) (TObj db) = Ok dops ∧ dops <> [] ∧ doc_of dheap (VObj dloc) (TObj da).
Proof.
  exact (conj da_wf (conj db_wf (conj db_nan (conj (d_bridged true) (conj da_named (conj db_named (conj d_gen_ts (conj dops_ne da_ok)))))))).
Qed.
Example C44_case_arrays : wf (TObj ra) ∧ wf (TObj rb) ∧ nan_free (TObj rb) ∧ bridged true (TObj ra) (TObj rb) ∧ well_named (TObj ra) ∧
  well_named (TObj rb) ∧ generate_patch_with_timestamp (TObj ra) (TObj rb) = Ok rops ∧ rops <> [] ∧ doc_of rheap (VObj rloc) (TObj ra).
Proof.
  exact (conj ra_wf (conj rb_wf (conj rb_nan (conj r_bridged (conj ra_named (conj rb_named (conj r_gen (conj rops_ne ra_ok)))))))).
Qed.
(** Such a change is lost. *)
Theorem C44_all_covered_refuted : exists a b ops, wf a ∧ wf b ∧ nan_free a ∧ nan_free b ∧
  generate_patch_with_timestamp a b = Ok ops ∧ at_path a [Elem 0; Key "k"] = Some (nleaf 1 1) ∧
  at_path b [Elem 0; Key "k"] = Some (nleaf 2 2) ∧ forall p, p ∈ ops -> op_path p <> "/0/k".
Proof. exact dropped_refuted. Qed.
Print Assumptions C44_all_covered_refuted.
(** Removals and updates by index contradict each other: 5,1,2,3 to 2,1,3. *)
Theorem C44_array_refuted : exists h v a b ops h' t', doc_of h v a ∧ wf a ∧ wf b ∧
  generate_patch_with_timestamp a b = Ok ops ∧ apply_patch h v (map unslash ops) = (h', Ok v) ∧ read h' v = Some t' ∧
  at_path b [Key "l"; Elem 1] = Some (nleaf 1 1) ∧ at_path t' [Key "l"; Elem 1] = Some (nleaf 2 1).
Proof. exact updates_refuted. Qed.
Print Assumptions C44_array_refuted.
