(** Property theorems about where the values of a document come from (C110). *)
From Verif Require Import Base F64 Tson TsonSpec Serial GoText Heap HeapSpec Patch PatchSpec PatchDemo Logument LogSpec ReplaySpec ReplayDemo ChainSpec OriginSpec OriginLemmas OriginDemo.

(** After a patch, applied or not, every value with its timestamp was in the document before or was
    given with that timestamp by an add or replace of the patch. *)
Theorem C110_apply : forall h l t p h' r t' x ts, doc_of h (VObj l) t -> apply_patch h (VObj l) p = (h', r) -> doc_of h' (VObj l) t' ->
  shown x ts t' -> shown x ts t ∨ exists op, op ∈ p ∧ gives op x ts.
Proof. exact apply_shown. Qed.
Print Assumptions C110_apply.
Example C110_case_apply : exists t h' t', doc_of pheap (VObj ploc) t ∧
  apply_patch pheap (VObj ploc) [Op OAdd "z" (n1 4) 30; Op OMove "z" (n1 5) 31] = (h', Panic) ∧ doc_of h' (VObj ploc) t' ∧ at_path t' [Key "z"] = Some (nleaf 4 30).
Proof. exact origin_case_apply. Qed.

(** After any calls, failed ones too, every value with its timestamp in the document of the log was
    in the initial document, or was handed to New, Store, Set or TestSet. *)
Theorem C110_run : forall T i p h h0 L0 l t0 cs,
  new_logument T i p h = (h0, Ok L0) -> l_snapshots L0 !! 0%N = Some (VObj l) -> doc_of h0 (VObj l) t0 -> Forall call_ok cs ->
  exists t, doc_of (fst (run (h0, L0) cs)) (VObj l) t ∧
    forall x ts, shown x ts t -> shown x ts t0 ∨ exists op, handed_to L0 cs op ∧ gives op x ts.
Proof. exact origin_run. Qed.
Print Assumptions C110_run.
Example C110_case_run : exists t,
  new_logument (go_lib (fun _ => true)) (SI_doc proot) None pheap = (pheap, Ok plog) ∧ l_snapshots plog !! 0%N = Some (VObj ploc) ∧
  doc_of pheap (VObj ploc) pdoc ∧ Forall call_ok mixed ∧ doc_of (fst (run (pheap, plog) mixed)) (VObj ploc) t ∧
  at_path t [Key "z"] = Some (nleaf 4 30) ∧ at_path t [Key "b"; Key "c"] = Some (TLeaf (PStr "y") 10) ∧ at_path t [Key "a"] = Some (nleaf 1 5).
Proof. exact origin_case. Qed.

(** So it is for what Snapshot and TemporalSnapshot answer, if not null. *)
Theorem C110_snapshot : forall T i p h h0 L0 l t0 cs,
  new_logument T i p h = (h0, Ok L0) -> l_snapshots L0 !! 0%N = Some (VObj l) -> doc_of h0 (VObj l) t0 -> Forall call_ok cs ->
  forall v st' s, snapshot v (run (h0, L0) cs) = (st', Ok s) ->
  s = VNil ∨ s = VObj l ∧ exists t, doc_of (fst st') s t ∧
    forall x ts, shown x ts t -> shown x ts t0 ∨ exists op, handed_to L0 cs op ∧ gives op x ts.
Proof. exact origin_snapshot. Qed.
Print Assumptions C110_snapshot.
Theorem C110_temporal_snapshot : forall T i p h h0 L0 l t0 cs,
  new_logument T i p h = (h0, Ok L0) -> l_snapshots L0 !! 0%N = Some (VObj l) -> doc_of h0 (VObj l) t0 -> Forall call_ok cs ->
  forall orc ts st' s, oracle_ok orc -> temporal_snapshot orc ts (run (h0, L0) cs) = (st', Ok s) ->
  s = VNil ∨ s = VObj l ∧ exists t, doc_of (fst st') s t ∧
    forall x ts, shown x ts t -> shown x ts t0 ∨ exists op, handed_to L0 cs op ∧ gives op x ts.
Proof. exact origin_temporal. Qed.
Print Assumptions C110_temporal_snapshot.

(** Snapshot adds values of the versions up to the one asked for only. *)
Theorem C110_version : forall v h L l t h' L' r t' x ts, reachable (h, L) -> l_snapshots L !! 0%N = Some (VObj l) -> doc_of h (VObj l) t ->
  snapshot v (h, L) = ((h', L'), Ok r) -> doc_of h' (VObj l) t' -> shown x ts t' ->
  shown x ts t ∨ exists u op, (1 <= u <= v)%N ∧ op ∈ patch_at L u ∧ gives op x ts.
Proof. exact origin_version. Qed.
Print Assumptions C110_version.
Example C110_case_version : exists t h' L' r t', reachable rst ∧ l_snapshots (snd rst) !! 0%N = Some (VObj ploc) ∧ doc_of (fst rst) (VObj ploc) t ∧
  snapshot 1 rst = ((h', L'), Ok r) ∧ doc_of h' (VObj ploc) t' ∧ at_path t' [Key "a"] = Some (nleaf 2 9) ∧ at_path t [Key "a"] = Some (nleaf 1 5).
Proof. exact origin_case_version. Qed.

(** GetLatestTimestamp of the document is 0, a timestamp of the initial document, or one handed to
    the log with a value. *)
Theorem C110_latest : forall T i p h h0 L0 l t0 cs t z,
  new_logument T i p h = (h0, Ok L0) -> l_snapshots L0 !! 0%N = Some (VObj l) -> doc_of h0 (VObj l) t0 -> Forall call_ok cs ->
  doc_of (fst (run (h0, L0) cs)) (VObj l) t -> latest_timestamp t = Ok z ->
  z = 0 ∨ (exists x, shown x z t0) ∨ exists op, handed_to L0 cs op ∧ writes op ∧ op_ts op = z.
Proof. exact origin_latest. Qed.
Print Assumptions C110_latest.

(** If every operation handed to the log has a path of names and a value that is no array and no
    object, a value reached by names was in the initial document under the same names, or the path of
    an operation handed to the log spells these names and gives the value. *)
Theorem C110_place : forall T i p h h0 L0 l t0 cs,
  new_logument T i p h = (h0, Ok L0) -> l_snapshots L0 !! 0%N = Some (VObj l) -> doc_of h0 (VObj l) t0 -> Forall call_ok cs ->
  (forall op, handed_to L0 cs op -> direct op) ->
  exists t, doc_of (fst (run (h0, L0) cs)) (VObj l) t ∧
    forall names x ts, at_path t (keys names) = Some (TLeaf x ts) ->
      at_path t0 (keys names) = Some (TLeaf x ts) ∨ exists op, handed_to L0 cs op ∧ spells (op_path op) names ∧ gives op x ts.
Proof. exact place_run. Qed.
Print Assumptions C110_place.
(** The calls of [C110_case_run] hand over such operations only. *)
Example C110_case_place : forall op, handed_to plog mixed op -> direct op.
Proof. exact mixed_direct. Qed.
(** The same for what Snapshot and TemporalSnapshot answer. *)
Theorem C110_place_snapshot : forall T i p h h0 L0 l t0 cs,
  new_logument T i p h = (h0, Ok L0) -> l_snapshots L0 !! 0%N = Some (VObj l) -> doc_of h0 (VObj l) t0 -> Forall call_ok cs ->
  (forall op, handed_to L0 cs op -> direct op) ->
  forall v st' s, snapshot v (run (h0, L0) cs) = (st', Ok s) ->
  s = VNil ∨ s = VObj l ∧ exists t, doc_of (fst st') s t ∧
    forall names x ts, at_path t (keys names) = Some (TLeaf x ts) ->
      at_path t0 (keys names) = Some (TLeaf x ts) ∨ exists op, handed_to L0 cs op ∧ spells (op_path op) names ∧ gives op x ts.
Proof. exact place_snapshot. Qed.
Print Assumptions C110_place_snapshot.
Theorem C110_place_temporal_snapshot : forall T i p h h0 L0 l t0 cs,
  new_logument T i p h = (h0, Ok L0) -> l_snapshots L0 !! 0%N = Some (VObj l) -> doc_of h0 (VObj l) t0 -> Forall call_ok cs ->
  (forall op, handed_to L0 cs op -> direct op) ->
  forall orc ts st' s, oracle_ok orc -> temporal_snapshot orc ts (run (h0, L0) cs) = (st', Ok s) ->
  s = VNil ∨ s = VObj l ∧ exists t, doc_of (fst st') s t ∧
    forall names x ts, at_path t (keys names) = Some (TLeaf x ts) ->
      at_path t0 (keys names) = Some (TLeaf x ts) ∨ exists op, handed_to L0 cs op ∧ spells (op_path op) names ∧ gives op x ts.
Proof. exact place_temporal. Qed.
Print Assumptions C110_place_temporal_snapshot.

(** With other values this is false: a value can move to another place without being given there. *)
Theorem C110_place_refuted : exists T i p h h0 L0 l t0 cs t names x ts,
  new_logument T i p h = (h0, Ok L0) ∧ l_snapshots L0 !! 0%N = Some (VObj l) ∧ doc_of h0 (VObj l) t0 ∧ Forall call_ok cs ∧
  (forall op, handed_to L0 cs op -> exists names, spells (op_path op) names) ∧
  doc_of (fst (run (h0, L0) cs)) (VObj l) t ∧ at_path t (keys names) = Some (TLeaf x ts) ∧
  at_path t0 (keys names) <> Some (TLeaf x ts) ∧ ¬ exists op, handed_to L0 cs op ∧ gives op x ts.
Proof. exact place_refuted. Qed.
Print Assumptions C110_place_refuted.
