(** C103: a log made by Slice used as a log (internal/logument/logument.go 304-360 with
    130-242, 418-476, 634-672). *)
From Verif Require Import Base F64 Tson Heap Patch Logument LogSpec LogDemo SliceUseSpec SliceUseLemmas SliceUseDemo.

(** When the log has a snapshot of the first version, which it has after the call if the range
    had none, any sequence of Snapshot, Slice and Track about versions of the slice gets the
    same answers from the slice as from the log, and leaves the same documents. *)
Theorem C103_same_answers : forall vi vj h L h1 L1 R cs,
  reachable (h, L) -> slice vi vj (h, L) = ((h1, L1), Ok R) ->
  (0 < vj)%N -> is_Some (l_snapshots L1 !! vi) -> Forall (about vi vj) cs ->
  snd (asks cs (h1, R)) = snd (asks cs (h1, L1)) ∧ fst (fst (asks cs (h1, R))) = fst (fst (asks cs (h1, L1))).
Proof. exact slice_same_answers. Qed.
Print Assumptions C103_same_answers.
Example C103_case : exists h1 L1, use_slice = ((h1, L1), Ok use_log) ∧ is_Some (l_snapshots L1 !! 1%N)
  ∧ last (l_version (snd demo_st)) = Some 2%N ∧ l_pool (snd demo_st) = None
  ∧ Forall (about 1 2) use_calls ∧ Forall (from 1) on_calls.
Proof. exact use_demo. Qed.
Example C103_case_answers : exists v R m, snd (asks use_calls (fst (fst use_slice), use_log)) =
  [AnsDoc (Ok v); AnsPatches (Ok m); AnsLog (Ok R); AnsDoc (Ok v)] ∧ v = root0 ∧ l_version R = [2%N] ∧ is_Some (m !! 2%N).
Proof. exact use_answers. Qed.

(** A slice up to the latest version of a log with nothing pending goes on like the log, when
    patches are stored and appended too. *)
Theorem C103_goes_on : forall vi vj h L h1 L1 R cs,
  reachable (h, L) -> slice vi vj (h, L) = ((h1, L1), Ok R) ->
  (0 < vj)%N -> is_Some (l_snapshots L1 !! vi) -> last (l_version L) = Some vj -> l_pool L = None ->
  Forall (from vi) cs ->
  snd (asks cs (h1, R)) = snd (asks cs (h1, L1)) ∧ fst (fst (asks cs (h1, R))) = fst (fst (asks cs (h1, L1))).
Proof. exact slice_goes_on. Qed.
Print Assumptions C103_goes_on.
Example C103_case_on : exists m, snd (asks on_calls (fst (fst use_slice), use_log)) =
  [AnsDone (Ok tt); AnsDone (Ok tt); AnsDoc (Ok root0); AnsDoc Panic; AnsPatches (Ok m)] ∧
  m !! 3%N = Some [Op OReplace "/a" (num 4) 12].
Proof. exact on_answers. Qed.

(** A slice that ends earlier goes on after its own last version. *)
Theorem C103_fork : forall vi vj h L st' R ps h2,
  reachable (h, L) -> slice vi vj (h, L) = (st', Ok R) -> (0 < vj)%N ->
  exists R', asks [CStore (PI_patch (Some ps)); CAppend] (h2, R) = ((h2, R'), [AnsDone (Ok tt); AnsDone (Ok tt)]) ∧
    l_version R' = range (N.max 1 vi) (vj + 2) ∧ l_snapshots R' = l_snapshots R ∧ l_pool R' = None ∧
    forall v, l_patches R' !! v = if decide (v = vj + 1)%N then Some ps else l_patches R !! v.
Proof. exact slice_fork. Qed.
Print Assumptions C103_fork.

(** TemporalTrack on a slice reports what changes against the operations of the slice alone. *)
Theorem C103_temporal_track : forall vi vj h L st' R tsi tsj h2,
  reachable (h, L) -> slice vi vj (h, L) = (st', Ok R) ->
  fst (temporal_track tsi tsj (h2, R)) = (h2, R) ∧
  match snd (temporal_track tsi tsj (h2, R)) with
  | Ok m => (tsi <= tsj ∧ ~ clash (filter (in_range tsi tsj) (ops_between L vi (vj + 1)))) ∧ forall v, m !! v =
      if decide (vi <= v <= vj)%N then
        match changes (filter (in_range tsi tsj) (ops_between L vi v)) (filter (in_range tsi tsj) (patch_at L v)) with
        | [] => None
        | ps => Some ps
        end
      else None
  | Err => False
  | Panic => tsj < tsi ∨ clash (filter (in_range tsi tsj) (ops_between L vi (vj + 1)))
  end.
Proof. exact slice_temporal_track. Qed.
Print Assumptions C103_temporal_track.
Example C103_case_more : exists R m m', snd (slice 2 2 demo_st) = Ok R ∧
  snd (temporal_track 0 20 (heap0, R)) = Ok m ∧ snd (temporal_track 0 20 demo_st) = Ok m' ∧
  m !! 2%N = Some [Op OReplace "/a" (num 3) 10; Op OReplace "/b/c" (AStr "y") 11] ∧
  m' !! 2%N = Some [Op OReplace "/a" (num 3) 10].
Proof. exact track_more. Qed.

(** History on a slice that begins after version 0 panics as soon as the slice has an
    operation on the target, and otherwise answers nothing. *)
Theorem C103_history : forall vi vj h L st' R orc target h2,
  reachable (h, L) -> slice vi vj (h, L) = (st', Ok R) -> (1 <= vi)%N -> oracle_ok orc ->
  match snd (history orc target (h2, R)) with
  | Ok m => m = [] ∧ forall p, p ∈ ops_between L vi (vj + 1) -> ~ under target p
  | Err => False
  | Panic => exists p, p ∈ ops_between L vi (vj + 1) ∧ under target p
  end.
Proof. exact slice_history. Qed.
Print Assumptions C103_history.
Example C103_case_history : snd (history fwd "/a" (heap0, use_log)) = Panic ∧ snd (history fwd "/z" (heap0, use_log)) = Ok []
  ∧ exists m, snd (history fwd "/a" demo_st) = Ok m ∧ is_Some (alookup "/a" m).
Proof. exact history_panics. Qed.
