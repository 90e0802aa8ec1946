(** Properties of logs over an object document. *)
From Verif Require Import Base BaseSpec BaseSpecLemmas F64 Tson TsonSpec Serial GoText Heap HeapSpec Patch PatchSpec Logument LogSpec LogDemo PatchLemmas PatchDemo
  ReplaySpec ReplayLemmas SetLemmas CompactReplay ReplayDemo SnapAnySpec SnapAny SnapAnyDemo TempFail TempFailDemo.

(** C28: after storing, committing and asking for ascending versions, Snapshot(v) returns the
    initial document with the patches of versions 1..v applied in order. *)
Theorem C28_snapshot_replays : forall T i p h h0 L0 l t0 cs v tE,
  new_logument T i p h = (h0, Ok L0) -> l_snapshots L0 !! 0%N = Some (VObj l) -> doc_of h0 (VObj l) t0 ->
  let st := run (h0, L0) cs in
  ascending 0 cs -> (forall w, CSnapshot w ∈ cs -> (w <= v)%N) -> v ∈ l_version (snd st) ->
  (forall w, CSnapshot w ∈ cs -> has_ops (snd st) w) -> has_ops (snd st) v ->
  applied t0 (all_ops (snd st)) tE ->
  exists st' t', snapshot v st = (st', Ok (VObj l)) ∧ doc_of (fst st') (VObj l) t' ∧
    applied t0 (ops_between (snd st) 1 (v + 1)) t'.
Proof. exact snapshot_replays. Qed.
Print Assumptions C28_snapshot_replays.
Example C28_case :
  let cs := commits ++ [CSnapshot 1] in let st := run (pheap, plog) cs in
  new_logument (go_lib (fun _ => true)) (SI_doc proot) None pheap = (pheap, Ok plog) ∧
  l_snapshots plog !! 0%N = Some (VObj ploc) ∧ doc_of pheap (VObj ploc) pdoc ∧
  ascending 0 cs ∧ (forall w, CSnapshot w ∈ cs -> (w <= 3)%N) ∧ 3%N ∈ l_version (snd st) ∧
  (forall w, CSnapshot w ∈ cs -> has_ops (snd st) w) ∧ has_ops (snd st) 3 ∧
  exists tE, applied pdoc (all_ops (snd st)) tE.
Proof. exact replay_case. Qed.
(** A version without operations reads as null. *)
Theorem C28_empty_version_refuted : exists st st1, reachable st ∧ 1%N ∈ l_version (snd st) ∧ patch_at (snd st) 1 = [] ∧
  snapshot 1 st = (st1, Ok VNil).
Proof. exact empty_version_null. Qed.
Print Assumptions C28_empty_version_refuted.
(** What Snapshot does in any state, whatever was asked, set or edited before: it starts from
    the latest snapshot up to the version, as the document is now, and applies the patches
    after it; it panics exactly when the version does not exist or a patch cannot be applied. *)
Theorem C28_any_state : forall v h L l t, reachable (h, L) -> l_snapshots L !! 0%N = Some (VObj l) -> doc_of h (VObj l) t ->
  match snapshot v (h, L) with
  | ((h', L'), Ok r) => v ∈ l_version L ∧ exists w s, base_of L v w ∧ l_snapshots L !! w = Some s ∧
      ((w = v ∧ r = s ∧ h' = h ∧ L' = L)
       ∨ ((w < v)%N ∧ L' = with_snapshots L (<[v := r]> (l_snapshots L)) ∧
          r = (if decide (patch_at L v = []) then VNil else VObj l) ∧
          (s = VNil -> ops_between L (w + 1) (v + 1) = []) ∧
          exists t', doc_of h' (VObj l) t' ∧ applied t (ops_between L (w + 1) (v + 1)) t'))
  | (_, Err) => False
  | ((h', L'), Panic) => L' = L ∧
      (v ∉ l_version L
       ∨ exists w s, base_of L v w ∧ l_snapshots L !! w = Some s ∧ (w < v)%N ∧
           ((s = VNil ∧ ops_between L (w + 1) (v + 1) <> [])
            ∨ (s = VObj l ∧ forall t', ~ applied t (ops_between L (w + 1) (v + 1)) t')))
  end.
Proof. exact snapshot_any. Qed.
Print Assumptions C28_any_state.
Example C28_any_state_case : reachable late ∧ l_snapshots (snd late) !! 0%N = Some (VObj ploc) ∧
  (exists t, doc_of (fst late) (VObj ploc) t) ∧ is_Some (l_snapshots (snd late) !! 3%N) ∧ base_of (snd late) 2 0 ∧
  exists st', snapshot 2 late = (st', Ok (VObj ploc)).
Proof. exact late_case. Qed.
(** A version that could be asked for panics once a later version has been asked for. *)
Theorem C28_back_refuted : exists st st1 st2, reachable st ∧ 1%N ∈ l_version (snd st) ∧
  snapshot 1 st = (st1, Ok (VObj ploc)) ∧ snapshot 2 st = (st2, Ok (VObj ploc)) ∧ snd (snapshot 1 st2) = Panic.
Proof. exact back_panics. Qed.
Print Assumptions C28_back_refuted.

(** C29: in any history, every snapshot of a log over an object document and its current
    document are that one object, or null. *)
Theorem C29_one_object : forall st l, reachable st -> l_snapshots (snd st) !! 0%N = Some (VObj l) ->
  (forall v s, l_snapshots (snd st) !! v = Some s -> s = VObj l ∨ s = VNil) ∧
  (l_current (snd st) = VObj l ∨ l_current (snd st) = VNil).
Proof. exact reachable_root. Qed.
Print Assumptions C29_one_object.
(** So do two Snapshot queries, for whatever versions. *)
Theorem C29_queries_alias : forall h L l v w st1 st2 s s', reachable (h, L) -> l_snapshots L !! 0%N = Some (VObj l) ->
  snapshot v (h, L) = (st1, Ok s) -> snapshot w st1 = (st2, Ok s') ->
  (s = VObj l ∨ s = VNil) ∧ (s' = VObj l ∨ s' = VNil).
Proof. exact queries_one. Qed.
Print Assumptions C29_queries_alias.
Example C29_case : reachable rst ∧ l_snapshots (snd rst) !! 0%N = Some (VObj ploc).
Proof. exact (conj rst_reachable eq_refl). Qed.
(** A snapshot changes when a later version is asked for. *)
Theorem C29_immutable_refuted : exists st st1 st2 s0 s2 t t', reachable st ∧
  snapshot 0 st = (st1, Ok s0) ∧ read (fst st1) s0 = Some t ∧
  snapshot 2 st1 = (st2, Ok s2) ∧ s2 = s0 ∧ read (fst st2) s0 = Some t' ∧
  at_path t [Key "a"] = Some (nleaf 1 5) ∧ at_path t' [Key "a"] = Some (nleaf 3 11).
Proof. exact immutable_refuted. Qed.
Print Assumptions C29_immutable_refuted.
(** And when a value is set. *)
Theorem C29_set_refuted : exists st st1 t, reachable st ∧
  set (Op OReplace "a" (n1 8) 20) st = (st1, Ok tt) ∧
  read (fst st1) (default VNil (l_snapshots (snd st1) !! 0%N)) = Some t ∧ at_path t [Key "a"] = Some (nleaf 8 20).
Proof. exact set_reaches_snapshot. Qed.
Print Assumptions C29_set_refuted.

(** C33: when all operations write scalars to pairwise independent members, Compact succeeds
    and replaying any prefix of the compacted log gives the same document up to timestamps. *)
Theorem C33_compact_replay : forall target h L t0,
  reachable (h, L) -> (exists m, t0 = TObj m) -> independent t0 (all_ops L) ->
  exists L', compact target (h, L) = ((h, L'), Ok tt) ∧
  forall k, (1 <= k)%N -> exists t t',
    applied t0 (ops_between L 1 k) t ∧ applied t0 (ops_between L' 1 k) t' ∧ alike t t'.
Proof. exact compact_replay_obj. Qed.
Print Assumptions C33_compact_replay.
Example C33_case : reachable rst ∧ (exists m, pdoc = TObj m) ∧ independent pdoc (all_ops (snd rst)).
Proof. exact (conj rst_reachable (conj (ex_intro _ _ eq_refl) independent_case)). Qed.
(** Not when a value is removed through an ancestor, nor when a member is spelled in two ways. *)
Theorem C33_replay_refuted : compact_differs removed_ops ∧ compact_differs spelled_ops.
Proof. exact compact_removed. Qed.
Print Assumptions C33_replay_refuted.

(** C37: TemporalSnapshot takes the last snapshot of the leading ones from times up to [ts]
    and applies, in place, the latest operations per path of the next version only. *)
Theorem C37_one_version : forall orc ts h L h' L' r, reachable (h, L) -> oracle_ok orc ->
  temporal_snapshot orc ts (h, L) = ((h', L'), Ok r) ->
  exists n w s, last (l_version L) = Some n ∧ chosen h L ts w ∧ l_snapshots L !! w = Some s ∧ l_snapshots L' = l_snapshots L ∧
   ((w = n ∧ l_pool L = None ∧ h' = h ∧ L' = L ∧ r = s) ∨
    (exists ops sel, (if decide (w = n) then l_pool L else l_patches L !! (w + 1)%N) = Some ops ∧
       latest_per_path ts ops sel ∧ apply_patch h s sel = (h', Ok r) ∧
       exists ops', l_patches L' !! (w + 1)%N = Some ops' ∧ ops' ≡ₚ ops)).
Proof. exact temporal_snapshot_reach. Qed.
Print Assumptions C37_one_version.
Example C37_case : reachable rst ∧ oracle_ok fwd ∧ exists h' L' r, temporal_snapshot fwd 100 rst = ((h', L'), Ok r).
Proof. exact (conj rst_reachable (conj fwd_ok temporal_case)). Qed.
(** It panics only when a snapshot that has to be looked at has no timestamp, which happens
    when it is null, or when the chosen operations cannot be applied. *)
Theorem C37_fails : forall orc ts h L, reachable (h, L) -> oracle_ok orc ->
  match temporal_snapshot orc ts (h, L) with
  | (_, Ok _) => True
  | (_, Err) => False
  | ((h', L'), Panic) =>
      (h' = h ∧ L' = L ∧ exists u s, l_snapshots L !! u = Some s ∧
         (forall u', snapped L u' -> (u' < u)%N -> by_time h L ts u') ∧
         (forall t z, read h s = Some t -> latest_timestamp t <> Ok z))
      ∨ (exists n w s ops sel e, last (l_version L) = Some n ∧ chosen h L ts w ∧ l_snapshots L !! w = Some s ∧
         (if decide (w = n) then l_pool L else l_patches L !! (w + 1)%N) = Some ops ∧
         latest_per_path ts ops sel ∧ apply_patch h s sel = (h', e) ∧ forall r, e <> Ok r)
  end.
Proof. exact temporal_fails. Qed.
Print Assumptions C37_fails.
Example C37_fails_case : reachable hollow ∧ reachable misfit ∧ oracle_ok fwd ∧
  snd (temporal_snapshot fwd 100 hollow) = Panic ∧ snd (temporal_snapshot fwd 100 misfit) = Panic ∧
  exists r, snd (temporal_snapshot fwd 9 misfit) = Ok r.
Proof. exact fails_case. Qed.
(** Without an operation up to [ts] the result is null. *)
Theorem C37_null : forall ts ops sel h s h' r, latest_per_path ts ops sel ->
  (forall p, p ∈ ops -> ts < op_ts p) -> apply_patch h s sel = (h', Ok r) -> r = VNil ∧ h' = h.
Proof. exact temporal_snapshot_null. Qed.
Print Assumptions C37_null.
Example C37_null_case : exists st orc st', reachable st ∧ oracle_ok orc ∧ temporal_snapshot orc 8 st = (st', Ok VNil).
Proof. exact temporal_null. Qed.
(** Operations of later versions are missing from the result, and the stored snapshot changes. *)
Theorem C37_state_at_time_refuted : exists st orc st' r t p, reachable st ∧ oracle_ok orc ∧
  temporal_snapshot orc 100 st = (st', Ok r) ∧ read (fst st') r = Some t ∧
  p ∈ all_ops (snd st) ∧ op_ts p <= 100 ∧ op_path p = "b/c" ∧
  (forall q, q ∈ all_ops (snd st) -> op_path q = "b/c" -> q = p) ∧
  op_value p = AStr "y" ∧ at_path t [Key "b"; Key "c"] = Some (TLeaf (PStr "x") 6) ∧
  read (fst st') (default VNil (l_snapshots (snd st') !! 0%N)) = Some t ∧ at_path t [Key "a"] = Some (nleaf 2 9).
Proof. exact temporal_refuted. Qed.
Print Assumptions C37_state_at_time_refuted.

(** C38: Set with add or replace appends the operation to the pending ones and the current
    document shows it; nothing else in the log changes. *)
Theorem C38_set : forall op h L ks t p,
  doc_of h (l_current L) t -> spells (op_path op) ks -> free_way t ks -> writes op -> payload (op_value op) p ->
  exists h' L' t', set op (h, L) = ((h', L'), Ok tt) ∧
    pending L' = pending L ++ [op] ∧ l_current L' = l_current L ∧ doc_of h' (l_current L) t' ∧
    at_path t' (keys ks) = Some (TLeaf p (op_ts op)) ∧
    (forall q, apart (keys ks) q -> at_path t' q = at_path t q) ∧
    l_version L' = l_version L ∧ l_snapshots L' = l_snapshots L ∧ l_patches L' = l_patches L.
Proof. exact set_records. Qed.
Print Assumptions C38_set.
Example C38_case : l_current plog = proot ∧ doc_of pheap (l_current plog) pdoc ∧
  spells (op_path (Op OReplace "b/c" (AStr "z") 30)) ["b"; "c"] ∧ free_way pdoc ["b"; "c"].
Proof. exact set_case. Qed.
(** Other kinds have no effect. *)
Theorem C38_ignored : forall op st, ~ writes op -> set op st = (st, Ok tt).
Proof. exact set_ignored. Qed.
Print Assumptions C38_ignored.
(** Whatever happens, an operation is pending afterwards exactly when Set returns normally. *)
Theorem C38_recorded_iff : forall op h L, writes op ->
  (snd (set op (h, L)) = Ok tt ∧ pending (snd (fst (set op (h, L)))) = pending L ++ [op]) ∨
  (snd (set op (h, L)) = Panic ∧ pending (snd (fst (set op (h, L)))) = pending L).
Proof. exact set_pending. Qed.
Print Assumptions C38_recorded_iff.
(** One failing operation makes the current document null, and every later Set fails. *)
Theorem C38_broken : forall op h L h' L', writes op -> apply_operation h (l_current L) op = (h', Err) ->
  set op (h, L) = ((h', L'), snd (set op (h, L))) ->
  snd (set op (h, L)) = Panic ∧ pending L' = pending L ∧ l_current L' = VNil ∧
  forall ops, Forall writes ops ->
    Forall (fun op' => snd (set op' (h', L')) = Panic) ops ∧ run (h', L') (map CSet ops) = (h', L').
Proof. exact set_broken. Qed.
Print Assumptions C38_broken.
Example C38_broken_case : exists h', apply_operation pheap (l_current plog) (Op OAdd "b/c" ANil 9) = (h', Err).
Proof. exact set_broken_case. Qed.

(** C39: TestSet with replace compares with the snapshot of the last version: an equal leaf
    means no effect, a different node Set, a missing one Set as an add. *)
Theorem C39_replace : forall op h L n s t, op_kind op = OReplace -> last (l_version L) = Some n ->
  l_snapshots L !! n = Some s -> read h s = Some t ->
  match get_value t (op_path op) with
  | Ok c => (leaf_shows (op_value op) c -> test_set op (h, L) = ((h, L), Ok tt)) ∧
            (~ leaf_shows (op_value op) c -> test_set op (h, L) = set op (h, L))
  | Err => test_set op (h, L) = set (Op OAdd (op_path op) (op_value op) (op_ts op)) (h, L)
  | Panic => test_set op (h, L) = ((h, L), Panic)
  end.
Proof. exact test_set_replace. Qed.
Print Assumptions C39_replace.
Example C39_case : exists t, last (l_version (snd tst)) = Some 1%N ∧
  l_snapshots (snd tst) !! 1%N = Some proot ∧ read (fst tst) proot = Some t ∧
  get_value t "/a" = Ok (nleaf 2 9) ∧ leaf_shows (n1 2) (nleaf 2 9) ∧ ~ leaf_shows (AInt 2) (nleaf 2 9).
Proof. exact test_set_case. Qed.
(** Without a snapshot of the last version every replace is recorded, as an add. *)
Theorem C39_no_snapshot : forall op h L n, op_kind op = OReplace -> last (l_version L) = Some n ->
  l_snapshots L !! n = None ->
  test_set op (h, L) = set (Op OAdd (op_path op) (op_value op) (op_ts op)) (h, L).
Proof. exact test_set_none. Qed.
Print Assumptions C39_no_snapshot.
Example C39_no_snapshot_case : last (l_version (snd rst)) = Some 3%N ∧ l_snapshots (snd rst) !! 3%N = None.
Proof. exact no_snapshot_case. Qed.
(** Add is Set; other kinds have no effect. *)
Theorem C39_other_kinds : forall op st,
  (op_kind op = OAdd -> test_set op st = set op st) ∧ (~ writes op -> test_set op st = (st, Ok tt)).
Proof. exact test_set_kinds. Qed.
Print Assumptions C39_other_kinds.
(** For a pointer path the same replace is recorded again at every call: the write goes
    elsewhere. *)
Theorem C39_repeats : forall op h L n l t k ks p c m,
  op_kind op = OReplace -> op_path op = pointer (k :: ks) -> Forall plain (k :: ks) -> k <> "" ->
  payload (op_value op) p ->
  last (l_version L) = Some n -> l_snapshots L !! n = Some (VObj l) -> l_current L = VObj l ->
  doc_of h (VObj l) t -> free_way t ("" :: k :: ks) ->
  get_value t (op_path op) = Ok c -> ~ leaf_shows (op_value op) c ->
  pending (snd (run (h, L) (replicate m (CTestSet op)))) = pending L ++ replicate m op.
Proof. exact test_set_repeats. Qed.
Print Assumptions C39_repeats.
Example C39_repeats_case :
  let op := Op OReplace "/a" (n1 7) 30 in
  op_path op = pointer ["a"] ∧ Forall plain ["a"] ∧ payload (op_value op) (PNum (f64_of_Z 7)) ∧
  last (l_version plog) = Some 0%N ∧ l_snapshots plog !! 0%N = Some (VObj ploc) ∧ l_current plog = VObj ploc ∧
  doc_of pheap (VObj ploc) pdoc ∧ free_way pdoc ["" ; "a"] ∧ get_value pdoc (op_path op) = Ok (nleaf 1 5) ∧
  ~ leaf_shows (op_value op) (nleaf 1 5).
Proof. exact repeats_case. Qed.
(** The current document may already hold the value, and still it is recorded. *)
Theorem C39_only_changes_refuted : exists st st' op t ks c, reachable st ∧ op_kind op = OReplace ∧ spells (op_path op) ks ∧
  read (fst st) (l_current (snd st)) = Some t ∧ at_path t (keys ks) = Some c ∧ leaf_shows (op_value op) c ∧
  test_set op st = (st', Ok tt) ∧ length (pending (snd st')) = S (length (pending (snd st))).
Proof. exact test_set_refuted. Qed.
Print Assumptions C39_only_changes_refuted.
