(** Property theorems about what Track changes for later calls (C106). *)
From Verif Require Import Base F64 Tson Heap Patch Logument LogSpec PatchSpec ReplaySpec LogDemo PatchDemo ReplayDemo RecompactDemo TrackUseLemmas TrackUseDemo.

(** Track of the same range or of a part of it afterwards changes nothing and answers with what the
    first call left. *)
Theorem C106_inner : forall vi vj a b h L h1 L1 m, reachable (h, L) -> track vi vj (h, L) = ((h1, L1), Ok m) ->
  (vi <= a)%N -> (a <= b <= vj)%N ->
  exists m1, track a b (h1, L1) = ((h1, L1), Ok m1) ∧
    forall v, m1 !! v = if decide (a <= v <= b)%N then l_patches L1 !! v else None.
Proof. exact track_use_inner. Qed.
Print Assumptions C106_inner.

(** Track of a part of the range before makes no difference to the log left. *)
Theorem C106_before : forall vi vj a b h L h1 L1 m, reachable (h, L) -> track vi vj (h, L) = ((h1, L1), Ok m) ->
  (vi <= a)%N -> (a <= b <= vj)%N ->
  exists L2 m2 m3, track a b (h, L) = ((h, L2), Ok m2) ∧ track vi vj (h, L2) = ((h1, L1), Ok m3).
Proof. exact track_use_before. Qed.
Print Assumptions C106_before.
Example C106_case : reachable four_st ∧ sizes four_st = [1; 1; 1; 1; 1]%nat ∧
  finished (track 2 4 four_st) = true ∧ sizes (tracked_st 2 4 four_st) = [1; 1; 0; 0; 1]%nat ∧
  finished (track 3 4 four_st) = true ∧ sizes (tracked_st 3 4 four_st) = [1; 1; 1; 0; 1]%nat ∧
  sizes (tracked_st 2 4 (tracked_st 3 4 four_st)) = [1; 1; 0; 0; 1]%nat.
Proof. exact (conj four_reachable four_inner). Qed.

(** Calls about ranges without a common version can be exchanged. *)
Theorem C106_apart : forall vi vj a b h L h1 L1 m h2 L2 m2, reachable (h, L) -> (vj < a)%N ∨ (b < vi)%N ->
  track vi vj (h, L) = ((h1, L1), Ok m) -> track a b (h1, L1) = ((h2, L2), Ok m2) ->
  exists L1', track a b (h, L) = ((h, L1'), Ok m2) ∧ track vi vj (h, L1') = ((h2, L2), Ok m).
Proof. exact track_use_apart. Qed.
Print Assumptions C106_apart.
Example C106_case_apart : finished (track 1 2 four_st) = true ∧ finished (track 3 5 (tracked_st 1 2 four_st)) = true ∧
  sizes (tracked_st 3 5 (tracked_st 1 2 four_st)) = [1; 0; 1; 0; 1]%nat.
Proof. exact four_apart. Qed.

(** For ranges that overlap, the log left depends on the order of the calls. *)
Theorem C106_overlap_refuted : exists st stA stAB stB stBA mA mAB mB mBA, reachable st ∧
  track 1 2 st = (stA, Ok mA) ∧ track 2 3 stA = (stAB, Ok mAB) ∧
  track 2 3 st = (stB, Ok mB) ∧ track 1 2 stB = (stBA, Ok mBA) ∧
  patch_at (snd stAB) 3 <> [] ∧ patch_at (snd stBA) 3 = [].
Proof. exact overlap_refuted. Qed.
Print Assumptions C106_overlap_refuted.

(** Track and Compact of any target can be exchanged. *)
Theorem C106_compact : forall vi vj t h L h1 L1 m h2 L2, reachable (h, L) ->
  track vi vj (h, L) = ((h1, L1), Ok m) -> compact t (h1, L1) = ((h2, L2), Ok tt) ->
  exists L1' m', compact t (h, L) = ((h, L1'), Ok tt) ∧ track vi vj (h, L1') = ((h2, L2), Ok m').
Proof. exact track_use_compact. Qed.
Print Assumptions C106_compact.
Example C106_case_compact : finished (track 2 4 four_st) = true ∧ finished (compact "a" (tracked_st 2 4 four_st)) = true ∧
  sizes (fst (compact "a" (tracked_st 2 4 four_st))) = [1; 0; 0; 0; 1]%nat.
Proof. exact four_compact. Qed.

(** Compact of all paths after Track ends as it does without, and leaves the same log. *)
Theorem C106_all : forall vi vj h L h1 L1 m, reachable (h, L) -> track vi vj (h, L) = ((h1, L1), Ok m) ->
  snd (compact "" (h1, L1)) = snd (compact "" (h, L)) ∧
  (snd (compact "" (h, L)) = Ok tt -> fst (compact "" (h1, L1)) = fst (compact "" (h, L))).
Proof. exact track_use_all. Qed.
Print Assumptions C106_all.

(** History answers the same before and after Track. *)
Theorem C106_history : forall vi vj orc t h L h1 L1 m, reachable (h, L) -> track vi vj (h, L) = ((h1, L1), Ok m) ->
  snd (history orc t (h1, L1)) = snd (history orc t (h, L)).
Proof. exact track_use_history. Qed.
Print Assumptions C106_history.
Example C106_case_history : finished (track 2 3 slash_st) = true ∧
  snd (history fwd "/a" (tracked_st 2 3 slash_st)) =
    Ok [("/a", [Op OAdd "/a" (ATson (TLeaf (PNum (f64_of_Z 1)) 5)) 0; Op OReplace "/a" (num 2) 7; Op OReplace "/a" (num 3) 9])].
Proof. exact slash_history. Qed.

(** So does TemporalTrack of a range with all operations. *)
Theorem C106_temporal_track : forall vi vj a b h L h1 L1 m, reachable (h, L) -> track vi vj (h, L) = ((h1, L1), Ok m) ->
  (forall p, p ∈ all_ops L -> a <= op_ts p <= b) ->
  snd (temporal_track a b (h1, L1)) = snd (temporal_track a b (h, L)).
Proof. exact track_use_temporal. Qed.
Print Assumptions C106_temporal_track.
Example C106_case_range : (forall p, p ∈ all_ops (snd four_st) -> 7 <= op_ts p <= 11) ∧
  exists m, snd (temporal_track 7 11 (tracked_st 2 4 four_st)) = Ok m ∧ m !! 1%N = Some [Op OReplace "a" (num 2) 7] ∧ m !! 2%N = None.
Proof. exact four_range. Qed.

(** If the operations are independent writes of plain values, replaying the log left gives the same
    values at every version. *)
Theorem C106_replay : forall vi vj n h L t0, reachable (h, L) -> (exists m, t0 = TObj m) -> independent t0 (all_ops L) ->
  last (l_version L) = Some n -> (vi <= vj <= n)%N ->
  exists L' m, track vi vj (h, L) = ((h, L'), Ok m) ∧
  forall k, (1 <= k)%N -> exists t t', applied t0 (ops_between L 1 k) t ∧ applied t0 (ops_between L' 1 k) t' ∧ alike t t'.
Proof. exact track_use_replay. Qed.
Print Assumptions C106_replay.
Example C106_case_replay : reachable rst ∧ (exists m, pdoc = TObj m) ∧ independent pdoc (all_ops (snd rst)) ∧
  last (l_version (snd rst)) = Some 3%N ∧
  length (all_ops (snd (tracked_st 1 3 rst))) = 3%nat ∧ length (all_ops (snd rst)) = 4%nat.
Proof. exact replay_track. Qed.
