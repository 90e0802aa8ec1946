(** Property theorems about logs with the same operations in different versions (C107). *)
From Verif Require Import Base F64 Tson Heap Patch Logument LogSpec LogDemo RecompactDemo TrackUseDemo RegroupLemmas RegroupDemo.

(** However Store and Append alternate, the log ends up with everything stored, in order, once Append
    has come last; documents and snapshots stay as they were. *)
Theorem C107_recorded : forall cs h L, reachable (h, L) -> Forall recording cs -> let st := run (h, L) (cs ++ [CAppend]) in
  fst st = h ∧ l_snapshots (snd st) = l_snapshots L ∧ l_current (snd st) = l_current L ∧ l_pool (snd st) = None ∧
  all_ops (snd st) = all_ops L ++ pending L ++ stored cs.
Proof. exact recorded_all. Qed.
Print Assumptions C107_recorded.
Example C107_case_recorded : Forall recording (three "a" "b") ∧ Forall recording (two "a" "b") ∧
  stored (three "a" "b") = stored (two "a" "b") ∧ length (stored (two "a" "b")) = 3%nat.
Proof. exact (both_recording "a" "b"). Qed.

(** Compact of a target ends alike on logs with the same operations, and leaves the same operations. *)
Theorem C107_compact : forall t h L h' L', reachable (h, L) -> reachable (h', L') -> all_ops L = all_ops L' ->
  snd (compact t (h, L)) = snd (compact t (h', L')) ∧
  (snd (compact t (h, L)) = Ok tt -> all_ops (snd (fst (compact t (h, L)))) = all_ops (snd (fst (compact t (h', L'))))).
Proof. exact regroup_compact. Qed.
Print Assumptions C107_compact.
Example C107_case : reachable (three_st "a" "b") ∧ reachable (two_st "a" "b") ∧
  all_ops (snd (three_st "a" "b")) = all_ops (snd (two_st "a" "b")) ∧
  sizes (three_st "a" "b") = [1; 1; 1; 0; 0]%nat ∧ sizes (two_st "a" "b") = [2; 1; 0; 0; 0]%nat.
Proof. exact regroup_case. Qed.
Example C107_case_compact : finished (compact "a" (three_st "a" "b")) = true ∧
  sizes (fst (compact "a" (three_st "a" "b"))) = [1; 0; 1; 0; 0]%nat ∧
  sizes (fst (compact "a" (two_st "a" "b"))) = [1; 1; 0; 0; 0]%nat.
Proof. exact regroup_compacted. Qed.

(** Track of all versions answers with the same operations and leaves the same ones. *)
Theorem C107_track : forall h L h' L' n n', reachable (h, L) -> reachable (h', L') -> all_ops L = all_ops L' ->
  last (l_version L) = Some n -> last (l_version L') = Some n' ->
  match track 0 n (h, L), track 0 n' (h', L') with
  | ((_, L1), Ok m), ((_, L1'), Ok m') => flat (l_version L) m = flat (l_version L') m' ∧ all_ops L1 = all_ops L1'
  | (_, Panic), (_, Panic) => True
  | _, _ => False
  end.
Proof. exact regroup_track. Qed.
Print Assumptions C107_track.
Example C107_case_track : finished (track 0 3 (three_st "a" "b")) = true ∧ finished (track 0 2 (two_st "a" "b")) = true ∧
  sizes (tracked_st 0 3 (three_st "a" "b")) = [1; 0; 1; 0; 0]%nat ∧ sizes (tracked_st 0 2 (two_st "a" "b")) = [1; 1; 0; 0; 0]%nat.
Proof. exact regroup_tracked. Qed.

(** TemporalTrack of any range reports the same operations. *)
Theorem C107_temporal_track : forall a b h L h' L', reachable (h, L) -> reachable (h', L') -> all_ops L = all_ops L' ->
  match snd (temporal_track a b (h, L)), snd (temporal_track a b (h', L')) with
  | Ok m, Ok m' => flat (l_version L) m = flat (l_version L') m'
  | Panic, Panic => True
  | _, _ => False
  end.
Proof. exact regroup_temporal. Qed.
Print Assumptions C107_temporal_track.
Example C107_case_range : exists m m', snd (temporal_track 8 9 (three_st "a" "b")) = Ok m ∧ snd (temporal_track 8 9 (two_st "a" "b")) = Ok m' ∧
  m !! 2%N = Some [Op OReplace "a" (num 2) 8] ∧ m' !! 1%N = Some [Op OReplace "a" (num 2) 8] ∧
  m !! 3%N = Some [Op OReplace "b" (num 3) 9] ∧ m' !! 2%N = Some [Op OReplace "b" (num 3) 9].
Proof. exact regroup_ranged. Qed.

(** History answers the same when it meets the versions in their order. *)
Theorem C107_history : forall orc orc' t h L L', reachable (h, L) -> reachable (h, L') -> all_ops L = all_ops L' ->
  l_snapshots L !! 0%N = l_snapshots L' !! 0%N ->
  (forall vs, or_versions orc vs = vs) -> (forall vs, or_versions orc' vs = vs) ->
  snd (history orc t (h, L)) = snd (history orc' t (h, L')).
Proof. exact regroup_history. Qed.
Print Assumptions C107_history.
Example C107_case_history : (forall vs, or_versions fwd vs = vs) ∧
  snd (history fwd "/a" (two_st "/a" "/b")) =
    Ok [("/a", [Op OAdd "/a" (ATson (TLeaf (PNum (f64_of_Z 1)) 5)) 0; Op OReplace "/a" (num 2) 7])].
Proof. exact regroup_story. Qed.

(** Snapshot of the last version gives the same document, or panics alike. *)
Theorem C107_snapshot : forall h L L' n n' l, reachable (h, L) -> reachable (h, L') -> all_ops L = all_ops L' ->
  last (l_version L) = Some n -> last (l_version L') = Some n' ->
  l_snapshots L !! 0%N = Some (VObj l) -> l_snapshots L' !! 0%N = Some (VObj l) ->
  (forall v, is_Some (l_snapshots L !! v) -> v = 0%N) -> (forall v, is_Some (l_snapshots L' !! v) -> v = 0%N) ->
  patch_at L n <> [] -> patch_at L' n' <> [] ->
  fst (fst (snapshot n (h, L))) = fst (fst (snapshot n' (h, L'))) ∧ snd (snapshot n (h, L)) = snd (snapshot n' (h, L')).
Proof. exact regroup_snapshot. Qed.
Print Assumptions C107_snapshot.
Example C107_case_snapshot : (forall v, is_Some (l_snapshots (snd (three_st "a" "b")) !! v) -> v = 0%N) ∧
  (forall v, is_Some (l_snapshots (snd (two_st "a" "b")) !! v) -> v = 0%N) ∧
  fst (three_st "a" "b") = fst (two_st "a" "b") ∧
  let r := snapshot 2 (two_st "a" "b") in
  match snd r with Ok v => read (fst (fst r)) v | _ => None end =
    Some (TObj [("a", TLeaf (PNum (f64_of_Z 2)) 8); ("b", TLeaf (PNum (f64_of_Z 3)) 9)]).
Proof. exact regroup_shown. Qed.

(** TemporalSnapshot does depend on how operations were put into versions. *)
Theorem C107_temporal_snapshot_refuted : exists h L L' hA LA r hB LB q, reachable (h, L) ∧ reachable (h, L') ∧ all_ops L = all_ops L' ∧
  l_snapshots L = l_snapshots L' ∧ l_pool L = None ∧ l_pool L' = None ∧
  temporal_snapshot fwd 100 (h, L) = ((hA, LA), Ok r) ∧ temporal_snapshot fwd 100 (h, L') = ((hB, LB), Ok q) ∧
  read hA r = Some (TObj [("a", TLeaf (PNum (f64_of_Z 2)) 7); ("b", TObj [("c", TLeaf (PStr "x") 6)])]) ∧
  read hB q = Some (TObj [("a", TLeaf (PNum (f64_of_Z 2)) 8); ("b", TObj [("c", TLeaf (PStr "x") 6)])]).
Proof. exact regroup_temporal_refuted. Qed.
Print Assumptions C107_temporal_snapshot_refuted.
