(** Property theorems about the ways to ask a log for changes (C108). *)
From Verif Require Import Base F64 Tson Heap Patch Logument LogSpec LogDemo RecompactDemo TrackUseDemo RegroupLemmas RegroupDemo AgreeLemmas AgreeDemo.

(** TemporalTrack of a range with all operations, Compact of all paths and Track of all versions end
    alike: what the first reports is what the others leave.  Track answers with all operations. *)
Theorem C108_all : forall a b n h L, reachable (h, L) -> a <= b -> (forall p, p ∈ all_ops L -> a <= op_ts p <= b) ->
  last (l_version L) = Some n ->
  match snd (temporal_track a b (h, L)), compact "" (h, L), track 0 n (h, L) with
  | Ok m, ((_, L1), Ok _), ((_, L2), Ok m') => flat (l_version L) m = all_ops L1 ∧ flat (l_version L) m = all_ops L2 ∧
      flat (l_version L) m' = all_ops L
  | Panic, (_, Panic), (_, Panic) => True
  | _, _, _ => False
  end.
Proof. exact agree_all. Qed.
Print Assumptions C108_all.
Example C108_case : reachable twice_st ∧ (forall p, p ∈ all_ops (snd twice_st) -> 7 <= op_ts p <= 9) ∧
  last (l_version (snd twice_st)) = Some 5%N ∧ length (all_ops (snd twice_st)) = 5%nat ∧
  counted (snd (temporal_track 7 9 twice_st)) (fun m => length (flat (l_version (snd twice_st)) m)) = Some 3%nat ∧
  length (all_ops (snd (fst (compact "" twice_st)))) = 3%nat ∧ length (all_ops (snd (fst (track 0 5 twice_st)))) = 3%nat.
Proof. exact agree_case_all. Qed.

(** History has, for each path below its target, the initial value and then what TemporalTrack of a
    range with all operations reports about the path. *)
Theorem C108_history : forall orc t a b h L st r m, reachable (h, L) -> (forall vs, or_versions orc vs = vs) ->
  history orc t (h, L) = (st, Ok r) -> (forall p, p ∈ all_ops L -> a <= op_ts p <= b) -> snd (temporal_track a b (h, L)) = Ok m ->
  exists t0, read h (default VNil (l_snapshots L !! 0%N)) = Some t0 ∧
  forall k, leads t k -> alookup k r =
    match filter (fun p => op_path p = k) (flat (l_version L) m) with [] => None | ps => Some (initial_entry t0 k ++ ps) end.
Proof. exact agree_history. Qed.
Print Assumptions C108_history.

(** History of a longer target is the part of History of its prefix that is below it, whatever order
    Go chooses for the versions; if the latter answers, so does the former. *)
Theorem C108_longer : forall orc t r h L st m, reachable (h, L) -> history orc t (h, L) = (st, Ok m) ->
  snd (history orc (t +++ r) (h, L)) = Ok (filter (fun kv => leads (t +++ r) (fst kv)) m).
Proof. exact agree_longer. Qed.
Print Assumptions C108_longer.
Example C108_case_history : (forall vs, or_versions fwd vs = vs) ∧ leads "/" "/a" ∧
  (exists m, snd (temporal_track 7 9 (three_st "/a" "/b")) = Ok m ∧
    filter (fun p => op_path p = "/a") (flat [0; 1; 2; 3]%N m) = [Op OReplace "/a" (num 2) 7]) ∧
  snd (history fwd "/" (three_st "/a" "/b")) =
    Ok [("/a", [Op OAdd "/a" (ATson (TLeaf (PNum (f64_of_Z 1)) 5)) 0; Op OReplace "/a" (num 2) 7]);
        ("/b", [Op OAdd "/b" (ATson (TObj [("c", TLeaf (PStr "x") 6)])) 0; Op OReplace "/b" (num 3) 9])] ∧
  snd (history fwd ("/" +++ "a") (three_st "/a" "/b")) =
    Ok [("/a", [Op OAdd "/a" (ATson (TLeaf (PNum (f64_of_Z 1)) 5)) 0; Op OReplace "/a" (num 2) 7])].
Proof. exact agree_case_history. Qed.

(** If operations were recorded in time order, TemporalTrack of a shorter range reports all operations
    in it that TemporalTrack of the longer range reports. *)
Theorem C108_narrow : forall a b a' b' h L m, reachable (h, L) -> StronglySorted (fun p q => op_ts p <= op_ts q) (all_ops L) ->
  a <= a' -> a' <= b' -> b' <= b -> snd (temporal_track a b (h, L)) = Ok m ->
  exists m', snd (temporal_track a' b' (h, L)) = Ok m' ∧
    forall v, filter (in_range a' b') (default [] (m !! v)) `sublist_of` default [] (m' !! v).
Proof. exact agree_narrow. Qed.
Print Assumptions C108_narrow.
Example C108_case_narrow : StronglySorted (fun p q => op_ts p <= op_ts q) (all_ops (snd twice_st)) ∧
  (exists m, snd (temporal_track 7 9 twice_st) = Ok m ∧ m !! 2%N = None ∧ m !! 5%N = Some [Op OReplace "a" (num 3) 9]) ∧
  (exists m, snd (temporal_track 8 9 twice_st) = Ok m ∧ m !! 2%N = Some [Op OReplace "a" (num 2) 8] ∧ m !! 5%N = Some [Op OReplace "a" (num 3) 9]).
Proof. exact agree_case_narrow. Qed.

(** Otherwise the shorter range may miss a change the longer one reports. *)
Theorem C108_narrow_refuted : exists st m m' p, reachable st ∧
  snd (temporal_track 0 30 st) = Ok m ∧ snd (temporal_track 0 10 st) = Ok m' ∧ 0 <= op_ts p <= 10 ∧
  m !! 3%N = Some [p] ∧ m' !! 3%N = None.
Proof. exact agree_narrow_refuted. Qed.
Print Assumptions C108_narrow_refuted.
