(** Logs that are fed with generated patches: C86, and patches on equal documents: C87. *)
From Verif Require Import Base BaseSpec BaseSpecLemmas F64 Tson TsonInd TsonSpec Serial GoText Heap HeapSpec Patch PatchSpec PatchDemo Diff DiffSpec DiffDemo
  Logument LogSpec LogDemo ReplaySpec ChainSpec ChainLemmas ChainDemo.

(** C86: the patches between consecutive documents, committed one by one as they are generated, never reach
    the log's document: whatever is asked, the members with a name are those of the initial document. *)
Theorem C86_stays : forall T i p h h0 L0 l m cs,
  new_logument T i p h = (h0, Ok L0) -> l_snapshots L0 !! 0%N = Some (VObj l) -> doc_of h0 (VObj l) (TObj m) ->
  (forall q, q ∈ pending L0 -> from_diff q) -> Forall call_ok cs -> (forall c q, c ∈ cs -> q ∈ handed c -> from_diff q) ->
  let st := run (h0, L0) cs in
  (forall v st' s, snapshot v st = (st', Ok s) ->
     s = VNil ∨ exists m', s = VObj l ∧ doc_of (fst st') s (TObj m') ∧ same_named_members m m') ∧
  (forall orc ts st' s, oracle_ok orc -> temporal_snapshot orc ts st = (st', Ok s) ->
     s = VNil ∨ exists m', s = VObj l ∧ doc_of (fst st') s (TObj m') ∧ same_named_members m m').
Proof. exact log_stays. Qed.
Print Assumptions C86_stays.
Example C86_case_stays :
  new_logument (go_lib (fun _ => true)) (SI_doc (VObj dloc)) None dheap = (dheap, Ok clog) ∧
  (forall c q, c ∈ scalls -> q ∈ handed c -> from_diff q) ∧
  exists st' m', snapshot 2 (run (dheap, clog) scalls) = (st', Ok (VObj dloc)) ∧
  read (fst st') (VObj dloc) = Some (TObj m') ∧ alookup "n" m' = None ∧ is_Some (alookup "n" dc) ∧ is_Some (alookup "" m').
Proof. exact (conj clog_new (conj scalls_from stays_case)). Qed.
(** Without the leading slashes the log follows: version [v] shows the [v]th document. *)
Theorem C86_follows : forall with_ts T i p h h0 L0 l d ps ds cs v e,
  new_logument T i p h = (h0, Ok L0) -> l_snapshots L0 !! 0%N = Some (VObj l) -> doc_of h0 (VObj l) d ->
  stages with_ts d ps ds ->
  let st := run (h0, L0) cs in
  ascending 0 cs -> records (snd st) ps -> (forall w, CSnapshot w ∈ cs -> (w <= N.of_nat v)%N) -> (d :: ds) !! v = Some e ->
  exists st' t', snapshot (N.of_nat v) st = (st', Ok (VObj l)) ∧ doc_of (fst st') (VObj l) t' ∧ equal_for with_ts t' e.
Proof. exact log_follows. Qed.
Print Assumptions C86_follows.
Example C86_case :
  new_logument (go_lib (fun _ => true)) (SI_doc (VObj dloc)) None dheap = (dheap, Ok clog) ∧
  l_snapshots clog !! 0%N = Some (VObj dloc) ∧ doc_of dheap (VObj dloc) (TObj da) ∧
  stages true (TObj da) [dops; cops] [TObj db; TObj dc] ∧ ascending 0 ccalls ∧
  records (snd (run (dheap, clog) ccalls)) [dops; cops] ∧ (forall w, CSnapshot w ∈ ccalls -> (w <= 2)%N).
Proof. exact follows_case. Qed.

(** C87: a patch has the same outcome on equal documents, and leaves equal documents. *)
Theorem C87_equal_documents : forall with_ts h l a h2 l2 b ops h' r h2' r2, wf a -> wf b -> equal_for with_ts a b -> Forall no_nan ops ->
  doc_of h (VObj l) a -> doc_of h2 (VObj l2) b -> apply_patch h (VObj l) ops = (h', r) -> apply_patch h2 (VObj l2) ops = (h2', r2) ->
  same_outcome r r2 ∧ exists a' b', doc_of h' (VObj l) a' ∧ doc_of h2' (VObj l2) b' ∧ wf a' ∧ wf b' ∧ equal_for with_ts a' b'.
Proof. exact congr_docs. Qed.
Print Assumptions C87_equal_documents.
Example C87_case : doc_of (eheap ea) (VObj (eloc ea)) (TObj ea) ∧ doc_of (eheap eb) (VObj (eloc eb)) (TObj eb) ∧
  wf (TObj ea) ∧ wf (TObj eb) ∧ same_content (TObj ea) (TObj eb) ∧ Forall no_nan eops ∧ ea <> eb ∧
  exists h', apply_patch (eheap ea) (VObj (eloc ea)) eops = (h', Panic) ∧
    read h' (VObj (eloc ea)) = Some (TObj [("a", TLeaf (PNum (S754_zero true)) 1); ("l", TArr [nleaf 1 2; TNil; nleaf 3 4])]).
Proof.
  exact (conj (proj1 e_docs) (conj (proj2 e_docs) (conj (proj1 e_wf) (conj (proj2 e_wf) (conj e_same (conj e_no_nan
    (conj e_ne e_outcome))))))).
Qed.
(** A NaN makes a document that does not equal itself. *)
Theorem C87_nan_refuted : exists h l ops h' r t', doc_of h (VObj l) (TObj []) ∧ apply_patch h (VObj l) ops = (h', Ok r) ∧
  doc_of h' (VObj l) t' ∧ ~ same_values t' t'.
Proof. exact nan_refuted. Qed.
Print Assumptions C87_nan_refuted.
