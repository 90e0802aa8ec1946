(** The log: versions, commits, tracking, compaction, history, slices (C25-C27, C30-C32,
    C34-C36). *)
From Verif Require Import Base BaseSpec BaseSpecLemmas F64 Tson Serial GoText Heap Patch Logument LogSpec LogLemmas ChangeLemmas
  CompactLemmas HistoryLemmas SliceLemmas LogDemo.

(** C25: the version list is 0..n, patches exist for exactly 1..n, snapshots only for these
    versions, and version 0 has one. *)
Theorem C25_versions_consecutive : forall st, reachable st -> consistent (snd st).
Proof. exact reachable_consistent. Qed.
Print Assumptions C25_versions_consecutive.
Example C25_case : reachable demo_st ∧ l_version demo_log = [0; 1; 2]%N.
Proof. exact (conj demo_reachable (proj1 demo_versions)). Qed.

(** C26: Append succeeds; without stored operations nothing changes, otherwise they become
    the next version and nothing else changes. *)
Theorem C26_append_never_fails : forall st, reachable st ->
  snd (append st) = Ok tt ∧
  match l_pool (snd st) with
  | None => fst (append st) = st
  | Some ps =>
      let L := snd st in let L' := snd (fst (append st)) in
      exists n, last (l_version L) = Some n ∧
        l_version L' = l_version L ++ [(n + 1)%N] ∧
        (forall v, l_patches L' !! v = if decide (v = n + 1)%N then Some ps else l_patches L !! v) ∧
        l_patches L !! (n + 1)%N = None ∧
        l_pool L' = None ∧ l_snapshots L' = l_snapshots L ∧ l_current L' = l_current L ∧
        fst (fst (append st)) = fst st
  end.
Proof. exact append_spec. Qed.
Print Assumptions C26_append_never_fails.
(** The patch of the new version is the concatenation of everything stored, in order. *)
Theorem C26_commits_what_was_stored : forall h L cs,
  reachable (h, L) -> l_pool L = None -> Forall quiet cs -> stored cs <> [] ->
  let L' := snd (run (h, L) (cs ++ [CAppend])) in
  exists n, last (l_version L) = Some n ∧ l_version L' = l_version L ++ [(n + 1)%N] ∧
    l_patches L' !! (n + 1)%N = Some (stored cs) ∧ l_pool L' = None.
Proof. exact commit_stored. Qed.
Print Assumptions C26_commits_what_was_stored.
Theorem C26_nothing_stored : forall h L cs,
  reachable (h, L) -> l_pool L = None -> Forall (fun c => quiet c ∧ ~ is_store c) cs ->
  run (h, L) (cs ++ [CAppend]) = run (h, L) cs.
Proof. exact commit_nothing. Qed.
Print Assumptions C26_nothing_stored.
(** Storing an empty patch is not the same as storing nothing: it creates a version. *)
Theorem C26_empty_version : exists st, reachable st ∧ l_pool (snd st) = Some [] ∧
  l_version (snd (fst (append st))) = [0; 1]%N ∧ l_patches (snd (fst (append st))) !! 1%N = Some [].
Proof. exact empty_commit. Qed.
Print Assumptions C26_empty_version.
Example C26_case : Forall quiet stores1 ∧ stored stores1 <> [] ∧ l_pool log0 = None.
Proof. exact demo_quiet. Qed.
Example C26_case_pending : l_pool (snd (run (heap0, log0) stores1)) = Some (stored stores1).
Proof. exact demo_pool. Qed.

(** C27: recorded patches of existing versions. *)
Theorem C27_kept_exactly : forall c h L v ps, reachable (h, L) -> keeps_patches c ->
  l_patches L !! v = Some ps -> l_patches (snd (run_call (h, L) c)) !! v = Some ps.
Proof. exact (fun c h L v ps HR => keeps_lemma c h L v ps (reachable_consistent _ HR)). Qed.
Print Assumptions C27_kept_exactly.
Theorem C27_at_most_reordered : forall c h L v ps, reachable (h, L) -> call_ok c -> reorders_patches c ->
  l_patches L !! v = Some ps ->
  exists ps', l_patches (snd (run_call (h, L) c)) !! v = Some ps' ∧ ps' ≡ₚ ps.
Proof. exact (fun c h L v ps HR => reorders_lemma c h L v ps (reachable_consistent _ HR)). Qed.
Print Assumptions C27_at_most_reordered.
(** Over any calls a recorded version never disappears and never gains an operation. *)
Theorem C27_never_gains : forall cs h L v ps, reachable (h, L) -> Forall call_ok cs ->
  l_patches L !! v = Some ps ->
  exists ps', l_patches (snd (run (h, L) cs)) !! v = Some ps' ∧ ps' ⊆+ ps.
Proof. exact (fun cs h L v ps HR => kept_run cs h L v ps (reachable_consistent _ HR)). Qed.
Print Assumptions C27_never_gains.
(** Track, Compact and History do lose operations. *)
Theorem C27_track_refuted : exists st, reachable st ∧
  exists v ps ps', l_patches (snd st) !! v = Some ps ∧
    l_patches (snd (fst (track 1 2 st))) !! v = Some ps' ∧ (length ps' < length ps)%nat.
Proof. exact track_drops. Qed.
Print Assumptions C27_track_refuted.
Theorem C27_compact_refuted : exists st, reachable st ∧
  exists v ps ps', l_patches (snd st) !! v = Some ps ∧
    l_patches (snd (fst (compact "/a" st))) !! v = Some ps' ∧ (length ps' < length ps)%nat.
Proof. exact compact_drops. Qed.
Print Assumptions C27_compact_refuted.
Theorem C27_history_refuted : exists st orc, reachable st ∧ oracle_ok orc ∧
  exists v ps ps', l_patches (snd st) !! v = Some ps ∧
    l_patches (snd (fst (history orc "/a" st))) !! v = Some ps' ∧ (length ps' < length ps)%nat.
Proof. exact history_drops. Qed.
Print Assumptions C27_history_refuted.
Example C27_case : oracle_ok fwd ∧ l_patches demo_log !! 1%N = Some (stored stores1).
Proof. exact (conj fwd_ok (proj1 (proj2 demo_versions))). Qed.

(** C30: Track returns exactly the recorded patches of the range; as a side effect the log
    keeps only the operations of the range that change a value since version [vi]. *)
Theorem C30_track : forall vi vj h L, reachable (h, L) ->
  match track vi vj (h, L) with
  | ((h', L'), Ok m) =>
      ((vi <= vj)%N ∧ (forall n, last (l_version L) = Some n -> (vj <= n)%N)
       ∧ ~ clash (ops_between L vi (vj + 1))) ∧
      (forall v, m !! v = if decide (vi <= v <= vj)%N then l_patches L !! v else None)
      ∧ (h' = h ∧ l_version L' = l_version L ∧ l_snapshots L' = l_snapshots L
         ∧ l_pool L' = l_pool L ∧ l_current L' = l_current L)
      ∧ (forall v, l_patches L' !! v =
          if decide (vi <= v <= vj)%N
          then changes (ops_between L vi v) <$> (l_patches L !! v) else l_patches L !! v)
  | (_, Err) => False
  | (_, Panic) => (vj < vi)%N ∨ (exists n, last (l_version L) = Some n ∧ ((n < vi)%N ∨ (n < vj)%N))
      ∨ clash (ops_between L vi (vj + 1))
  end.
Proof. exact (fun vi vj h L HR => track_spec vi vj h L (reachable_consistent _ HR)). Qed.
Print Assumptions C30_track.
(** Unchanged values are reported, and asking again gives a different answer. *)
Theorem C30_changes_only_refuted : exists st m st' m', reachable st ∧
  track 1 2 st = (st', Ok m) ∧
  (exists p q, m !! 1%N = Some [p; q; Op OReplace "/b/c" (AStr "y") 9] ∧ op_path p = op_path q
     ∧ go_equal (op_value p) (op_value q)) ∧
  snd (track 1 2 st') = Ok m' ∧ m' !! 1%N <> m !! 1%N.
Proof. exact track_reports_repeats. Qed.
Print Assumptions C30_changes_only_refuted.

(** C31: TemporalTrack leaves the log alone and returns, per version, the in-range
    operations that change the value last seen in range on their path. *)
Theorem C31_temporal_track : forall tsi tsj h L, reachable (h, L) ->
  fst (temporal_track tsi tsj (h, L)) = (h, L) ∧
  match snd (temporal_track tsi tsj (h, L)) with
  | Ok m => (tsi <= tsj ∧ ~ clash (filter (in_range tsi tsj) (all_ops L))) ∧ forall v, m !! v =
      match changes (filter (in_range tsi tsj) (ops_between L 0 v)) (filter (in_range tsi tsj) (patch_at L v)) with
      | [] => None
      | ps => Some ps
      end
  | Err => False
  | Panic => tsj < tsi ∨ clash (filter (in_range tsi tsj) (all_ops L))
  end.
Proof. exact (fun tsi tsj h L HR => temporal_track_spec tsi tsj h L (reachable_consistent _ HR)). Qed.
Print Assumptions C31_temporal_track.
Example C31_case : exists m, snd (temporal_track 8 11 demo_st) = Ok m ∧
  m !! 1%N = Some [Op OReplace "/a" (num 2) 8; Op OReplace "/b/c" (AStr "y") 9] ∧
  m !! 2%N = Some [Op OReplace "/a" (num 3) 10].
Proof. exact ttrack_demo. Qed.

(** C32: Compact keeps everything outside the prefix, and inside it exactly the operations
    that change the value last written to their path.  It panics exactly when Go cannot
    compare two values. *)
Theorem C32_compact : forall target h L, reachable (h, L) ->
  match compact target (h, L) with
  | ((h', L'), Ok _) =>
      (h' = h ∧ l_version L' = l_version L ∧ l_snapshots L' = l_snapshots L
       ∧ l_pool L' = l_pool L ∧ l_current L' = l_current L)
      ∧ (forall v, l_patches L' !! v =
          changes_among (under target) (filter (under target) (ops_between L 0 v)) <$> (l_patches L !! v))
      ∧ ~ clash (filter (under target) (all_ops L))
  | (_, Err) => False
  | (_, Panic) => clash (filter (under target) (all_ops L))
  end.
Proof. exact (fun target h L HR => compact_spec target h L (reachable_consistent _ HR)). Qed.
Print Assumptions C32_compact.
(** An operation outside the prefix, or one that changes a value, is kept. *)
Theorem C32_changes_kept : forall target h L h' L' v pre p post, reachable (h, L) ->
  compact target (h, L) = ((h', L'), Ok tt) ->
  l_patches L !! v = Some (pre ++ p :: post) ->
  (under target p -> changed (filter (under target) (ops_between L 0 v ++ pre)) p) ->
  p ∈ patch_at L' v.
Proof. exact compact_keeps_changes. Qed.
Print Assumptions C32_changes_kept.
(** The value last written to each path, at each version, stays. *)
Theorem C32_last_values : forall target h L h' L', reachable (h, L) ->
  compact target (h, L) = ((h', L'), Ok tt) ->
  forall v k, same_last_value (last_on k (ops_between L 0 v)) (last_on k (ops_between L' 0 v)).
Proof. exact (fun target h L h' L' HR => compact_last_values target h L h' L' (reachable_consistent _ HR)). Qed.
Print Assumptions C32_last_values.
Theorem C32_idempotent : forall target h L h' L', reachable (h, L) ->
  compact target (h, L) = ((h', L'), Ok tt) -> compact target (h', L') = ((h', L'), Ok tt).
Proof. exact (fun target h L h' L' HR => compact_twice target h L h' L' (reachable_consistent _ HR)). Qed.
Print Assumptions C32_idempotent.
Example C32_case : exists L', compact "/a" demo_st = ((heap0, L'), Ok tt) ∧
  l_patches L' !! 1%N = Some [Op OReplace "/a" (num 2) 7; Op OReplace "/b/c" (AStr "y") 9] ∧
  l_patches L' !! 2%N = Some [Op OReplace "/a" (num 3) 10; Op OReplace "/b/c" (AStr "y") 11].
Proof. exact compact_demo. Qed.
Example C32_case_panic : exists st, reachable st ∧ snd (compact "" st) = Panic.
Proof. exact clash_demo. Qed.

(** C34: History compacts the prefix, then returns per path the initial value followed by
    the changes of the path; they are in order when Go happens to visit the versions in order. *)
Theorem C34_history : forall orc target h L, reachable (h, L) -> oracle_ok orc ->
  let chron k := filter (fun p => op_path p = k) (changes [] (filter (under target) (all_ops L))) in
  match history orc target (h, L) with
  | (st', Ok m) =>
      (fst (compact target (h, L)) = st' ∧ snd (compact target (h, L)) = Ok tt) ∧
      exists t0, read h (default VNil (l_snapshots L !! 0%N)) = Some t0 ∧
      (forall k, match alookup k m with
                 | None => chron k = []
                 | Some ps => chron k <> [] ∧ (exists v, get_value t0 k = Ok v)
                     ∧ exists ps', ps = initial_entry t0 k ++ ps' ∧ ps' ≡ₚ chron k
                       ∧ (or_versions orc (sorted_keys (l_patches L)) = sorted_keys (l_patches L) -> ps' = chron k)
                 end)
  | (_, Err) => False
  | (_, Panic) => clash (filter (under target) (all_ops L))
      ∨ read h (default VNil (l_snapshots L !! 0%N)) = None
      ∨ exists t0 k, read h (default VNil (l_snapshots L !! 0%N)) = Some t0 ∧ chron k <> []
          ∧ forall v, get_value t0 k <> Ok v
  end.
Proof. exact (fun orc target h L HR HO => history_spec orc target h L (reachable_consistent _ HR) (proj2 (proj2 HO))). Qed.
Print Assumptions C34_history.
Theorem C34_missing_panics : forall orc target h L p t0, reachable (h, L) -> oracle_ok orc ->
  p ∈ all_ops L -> under target p -> read h (default VNil (l_snapshots L !! 0%N)) = Some t0 ->
  (forall v, get_value t0 (op_path p) <> Ok v) ->
  snd (history orc target (h, L)) = Panic.
Proof. exact history_missing. Qed.
Print Assumptions C34_missing_panics.
Theorem C34_order_refuted : exists st orc m ps p q, reachable st ∧ oracle_ok orc ∧
  snd (history orc "/a" st) = Ok m ∧ alookup "/a" m = Some (ps ++ [p; q]) ∧ op_ts q < op_ts p.
Proof. exact history_unordered. Qed.
Print Assumptions C34_order_refuted.
Example C34_case : exists m, snd (history fwd "/a" demo_st) = Ok m ∧
  alookup "/a" m = Some [Op OAdd "/a" (ATson (TLeaf (PNum (f64_of_Z 1)) 5)) 0;
                         Op OReplace "/a" (num 2) 7; Op OReplace "/a" (num 3) 10].
Proof. exact history_demo. Qed.
Example C34_case_missing : exists h L p t0, reachable (h, L) ∧ p ∈ all_ops L ∧ under "/n" p ∧
  read h (default VNil (l_snapshots L !! 0%N)) = Some t0 ∧ forall v, get_value t0 (op_path p) <> Ok v.
Proof. exact history_missing_demo. Qed.

(** C35: a slice has the patches and snapshots of its range, and a new snapshot at [vi] when
    the range has none. *)
Theorem C35_slice : forall vi vj h L, reachable (h, L) ->
  match slice vi vj (h, L) with
  | (st', Ok R) =>
      (vi <= vj)%N ∧ (forall n, last (l_version L) = Some n -> (vj <= n)%N) ∧
      l_version R = range (N.max 1 vi) (vj + 1) ∧
      (forall v, l_patches R !! v = if decide (vi <= v <= vj)%N then l_patches L !! v else None) ∧
      l_pool R = None ∧ l_current R = VNil ∧
      (((exists v, (vi <= v <= vj)%N ∧ is_Some (l_snapshots L !! v)) ∧ st' = (h, L) ∧
        (forall v, l_snapshots R !! v = if decide (vi <= v <= vj)%N then l_snapshots L !! v else None))
       ∨ ((forall v, (vi <= v <= vj)%N -> l_snapshots L !! v = None) ∧
          exists s, snapshot vi (h, L) = (st', Ok s) ∧ l_snapshots R = {[ vi := s ]}))
  | (_, Err) => False
  | (st', Panic) => (vj < vi)%N ∨ (exists n, last (l_version L) = Some n ∧ (n < vj)%N)
      ∨ snapshot vi (h, L) = (st', Panic)
  end.
Proof. exact (fun vi vj h L HR => slice_spec vi vj h L (reachable_consistent _ HR)). Qed.
Print Assumptions C35_slice.
(** With a snapshot at [vi], or none at all in the range, every version of the range finds
    its base snapshot inside the slice. *)
Theorem C35_queries_find_base : forall vi vj h L st' R k,
  reachable (h, L) -> slice vi vj (h, L) = (st', Ok R) -> (0 < vj)%N -> (vi <= k <= vj)%N ->
  is_Some (l_snapshots L !! vi) ∨ (forall w, (vi <= w <= vj)%N -> l_snapshots L !! w = None) ->
  exists w s, find_latest R k = (R, Ok (w, s)) ∧ (vi <= w <= k)%N ∧ l_snapshots R !! w = Some s.
Proof. exact slice_query_ok. Qed.
Print Assumptions C35_queries_find_base.
(** Otherwise Snapshot on the slice panics. *)
Theorem C35_queries_panic : forall vi vj h L st' R k h2,
  reachable (h, L) -> slice vi vj (h, L) = (st', Ok R) ->
  vj = 0%N ∨ (exists w, (vi <= w <= vj)%N ∧ is_Some (l_snapshots L !! w))
             ∧ (forall w, (vi <= w <= k)%N -> l_snapshots L !! w = None) ->
  snd (snapshot k (h2, R)) = Panic.
Proof. exact slice_query_bad. Qed.
Print Assumptions C35_queries_panic.
Theorem C35_all_versions_refuted : exists st st' R, reachable st ∧ slice 1 2 st = (st', Ok R) ∧
  l_snapshots (snd st) !! 1%N = None ∧ is_Some (l_snapshots (snd st) !! 2%N) ∧
  snd (snapshot 1 (fst st, R)) = Panic.
Proof. exact slice_late_demo. Qed.
Print Assumptions C35_all_versions_refuted.
Example C35_case : exists st' R, slice 1 2 demo_st = (st', Ok R) ∧ l_version R = [1; 2]%N
  ∧ exists s, l_snapshots R = {[ 1%N := s ]}.
Proof. exact slice_demo. Qed.
Example C35_case_zero : exists st' R, slice 0 0 demo_st = (st', Ok R) ∧ l_version R = [].
Proof. exact slice_zero_demo. Qed.

(** C36: a time slice has exactly the operations in the time range, and one version entry
    per operation. *)
Theorem C36_temporal_slice : forall orc tsi tsj h L, reachable (h, L) ->
  match temporal_slice orc tsi tsj (h, L) with
  | (st', Ok R) =>
      tsi <= tsj ∧ l_pool R = None ∧ l_current R = VNil ∧
      l_version R = concat (map (fun v => replicate (length (filter (in_range tsi tsj) (patch_at L v))) v)
                              (sorted_keys (l_patches L))) ∧
      (forall v, l_patches R !! v =
         match filter (in_range tsi tsj) (patch_at L v) with [] => None | ps => Some ps end) ∧
      ((st' = (h, L) ∧ forall v s, l_snapshots R !! v = Some s <->
          l_snapshots L !! v = Some s ∧ exists lts, latest_ts_of h s = Ok lts ∧ tsi <= lts <= tsj)
       ∨ ((forall v s lts, l_snapshots L !! v = Some s -> latest_ts_of h s = Ok lts -> ~ (tsi <= lts <= tsj)) ∧
          exists s v0, temporal_snapshot orc tsi (h, L) = (st', Ok s) ∧ l_snapshots R = {[ v0 := s ]}
             ∧ head (l_version R) = Some v0))
  | (_, Err) => False
  | (_, Panic) => tsj < tsi
      ∨ (exists v s, l_snapshots L !! v = Some s ∧ forall lts, latest_ts_of h s <> Ok lts)
      ∨ ((forall v s lts, l_snapshots L !! v = Some s -> latest_ts_of h s = Ok lts -> ~ (tsi <= lts <= tsj)) ∧
         (filter (in_range tsi tsj) (all_ops L) = [] ∨ snd (temporal_snapshot orc tsi (h, L)) = Panic))
  end.
Proof. exact (fun orc tsi tsj h L HR => temporal_slice_spec orc tsi tsj h L (reachable_consistent _ HR)). Qed.
Print Assumptions C36_temporal_slice.
(** As soon as one version has two operations in range, the slice is unusable. *)
Theorem C36_unusable : forall orc tsi tsj h L st' R v, reachable (h, L) ->
  temporal_slice orc tsi tsj (h, L) = (st', Ok R) ->
  (2 <= length (filter (in_range tsi tsj) (patch_at L v)))%nat ->
  forall c h2, match c with
    | CSnapshot k => snd (snapshot k (h2, R)) = Panic
    | CSlice a b => snd (slice a b (h2, R)) = Panic
    | CTemporalSlice o a b => snd (temporal_slice o a b (h2, R)) = Panic
    | CTrack a b => snd (track a b (h2, R)) = Panic
    | CCompact t => snd (compact t (h2, R)) = Panic
    | CHistory o t => snd (history o t (h2, R)) = Panic
    | _ => True
    end.
Proof. exact tslice_repeats. Qed.
Print Assumptions C36_unusable.
Example C36_case : exists st' R, temporal_slice fwd 7 10 demo_st = (st', Ok R) ∧
  l_version R = [1; 1; 1; 2]%N ∧ l_patches R !! 2%N = Some [Op OReplace "/a" (num 3) 10].
Proof. exact tslice_demo. Qed.
