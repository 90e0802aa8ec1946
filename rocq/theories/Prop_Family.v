(** Groups of logs: a log and what is sliced from it (internal/logument/logument.go 32-67, 304-416). *)
From Verif Require Import Base F64 Tson TsonSpec Serial Heap HeapSpec Patch PatchSpec PatchDemo Logument LogSpec ReplaySpec
  Family FamilySpec FamilyLemmas FamilyDemo.

(** C97: whatever calls are made, a log over an object document and all logs sliced from it,
    directly or through other slices, keep only that one object, or null. *)
Theorem C97_one_document : forall S n F L s, grown S -> snd S !! n = Some F -> L ∈ f_logs F -> keeps L s ->
  s = f_doc F ∨ s = VNil.
Proof. exact group_keeps. Qed.
Print Assumptions C97_one_document.
Example C97_case : grown f2 ∧ snd f2 !! 0%nat = Some (fam f2 0) ∧
  map l_version (f_logs (fam f2 0)) = [[0; 1; 2]; [1; 2]; [1; 2]]%N ∧
  keeps (flog f2 0 0) proot ∧ keeps (flog f2 0 1) proot ∧ keeps (flog f2 0 2) proot.
Proof. exact (conj f2_grown (conj (proj1 f2_shape) (conj (proj1 (proj2 (proj2 f2_shape))) f2_keeps))). Qed.
(** Their snapshot queries answer it as well. *)
Theorem C97_answers : forall S n F k L, grown S -> snd S !! n = Some F -> f_logs F !! k = Some L ->
  (forall v s, snd (snapshot v (fst S, L)) = Ok s -> s = f_doc F ∨ s = VNil) ∧
  (forall orc ts s, snd (temporal_snapshot orc ts (fst S, L)) = Ok s -> s = f_doc F ∨ s = VNil).
Proof. exact group_answers. Qed.
Print Assumptions C97_answers.
(** So a value set through the log is, from then on, in everything its slices keep. *)
Theorem C97_set_shows : forall S n F L op st, grown S -> snd S !! n = Some F -> f_logs F !! 0%nat = Some L ->
  is_set (op_kind op) = true -> set op (fst S, L) = (st, Ok tt) ->
  exists t t', read (fst S) (f_doc F) = Some t ∧ applied t [op] t' ∧
  fst (fcall S n 0 (CSet op)) = fst st ∧
  (forall F' L' s, snd (fcall S n 0 (CSet op)) !! n = Some F' -> L' ∈ f_logs F' -> keeps L' s -> s <> VNil ->
   read (fst st) s = Some t').
Proof. exact group_set. Qed.
Print Assumptions C97_set_shows.
Example C97_set_case : grown f2 ∧ snd f2 !! 0%nat = Some (fam f2 0) ∧ f_logs (fam f2 0) !! 0%nat = Some (flog f2 0 0) ∧
  is_set (op_kind change) = true ∧ exists st, set change (fst f2, flog f2 0 0) = (st, Ok tt).
Proof. exact (conj f2_grown (conj (proj1 f2_shape) (conj (proj1 f2_logs) change_ok))). Qed.
(** A slice does not keep what it showed when it was made. *)
Theorem C97_frozen_refuted : exists S n k d t t', grown S ∧ keeps (flog S n k) d ∧ (0 < k)%nat ∧
  read (fst S) d = Some t ∧ read (fst (fcall S n 0 (CSet change))) d = Some t' ∧
  at_path t [Key "a"] = Some (nleaf 3 11) ∧ at_path t' [Key "a"] = Some (nleaf 8 20).
Proof. exact frozen_refuted. Qed.
Print Assumptions C97_frozen_refuted.
(** Nor does the log when a slice is asked. *)
Theorem C97_asked_refuted : exists S k d t t', grown S ∧ l_snapshots (flog S 0 0) !! 0%N = Some d ∧
  read (fst S) d = Some t ∧ (0 < k)%nat ∧ read (fst (fcall S 0 k (CSnapshot 2))) d = Some t' ∧
  at_path t [Key "a"] = Some (nleaf 2 9) ∧ at_path t' [Key "a"] = Some (nleaf 3 11).
Proof. exact asked_refuted. Qed.
Print Assumptions C97_asked_refuted.

(** A sliced log has no current document, whatever was called since: Set and TestSet on it
    change nothing, and setting a value panics. *)
Theorem C97_no_current : forall S n F k L, grown S -> snd S !! n = Some F -> f_logs F !! k = Some L -> (0 < k)%nat ->
  l_current L = VNil ∧ forall op, run_call (fst S, L) (CSet op) = (fst S, L) ∧ run_call (fst S, L) (CTestSet op) = (fst S, L) ∧
  (is_set (op_kind op) = true -> snd (set op (fst S, L)) = Panic).
Proof. exact group_nil. Qed.
Print Assumptions C97_no_current.
Example C97_no_current_case : grown f2 ∧ snd f2 !! 0%nat = Some (fam f2 0) ∧ f_logs (fam f2 0) !! 1%nat = Some (flog f2 0 1) ∧
  f_logs (fam f2 0) !! 2%nat = Some (flog f2 0 2) ∧ is_set (op_kind change) = true.
Proof. exact (conj f2_grown (conj (proj1 f2_shape) (conj (proj1 (proj2 f2_logs)) (conj (proj2 (proj2 f2_logs)) eq_refl)))). Qed.

(** Calls on the logs of other documents leave the logs of a group and its document alone;
    the document stays a readable object. *)
Theorem C97_apart : forall S n F cs, grown S -> snd S !! n = Some F -> Forall (fun c => ~ calls_group n c) cs ->
  snd (fcalls S cs) !! n = Some F ∧ read (fst (fcalls S cs)) (f_doc F) = read (fst S) (f_doc F).
Proof. exact others_apart. Qed.
Print Assumptions C97_apart.
Theorem C97_readable : forall S n F, grown S -> snd S !! n = Some F -> exists m, read (fst S) (f_doc F) = Some (TObj m).
Proof. exact group_doc. Qed.
Print Assumptions C97_readable.
Example C97_apart_case : grown f2 ∧ snd f2 !! 1%nat = Some (fam f2 1) ∧ Forall (fun c => ~ calls_group 1 c) busy ∧
  length (f_logs (fam (fcalls f2 busy) 0)) = 4%nat ∧
  read (fst (fcalls f2 busy)) (f_doc (fam f2 1)) = Some (TObj [("a", nleaf 1 5)]).
Proof. exact (conj f2_grown (conj (proj1 (proj2 f2_shape)) busy_ok)). Qed.
