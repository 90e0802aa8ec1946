(** C104: a log made by TemporalSlice used as a log (internal/logument/logument.go 362-416 with
    69-102, 130-242, 478-519, 596-672). *)
From Verif Require Import Base F64 Tson Heap Patch Logument LogSpec LogDemo SliceUseSpec TimeUseSpec TimeUseLemmas TimeUseDemo.

(** TemporalTrack on a time slice leaves it as it is and answers like TemporalTrack on the log for
    the times in both ranges. *)
Theorem C104_temporal_track : forall orc tsi tsj h L st' R a b h2,
  reachable (h, L) -> temporal_slice orc tsi tsj (h, L) = (st', Ok R) ->
  fst (temporal_track a b (h2, R)) = (h2, R) ∧
  (b < a -> snd (temporal_track a b (h2, R)) = Panic) ∧
  (a <= b -> Z.min b tsj < Z.max a tsi -> snd (temporal_track a b (h2, R)) = Ok ∅) ∧
  (Z.max a tsi <= Z.min b tsj ->
     snd (temporal_track a b (h2, R)) = snd (temporal_track (Z.max a tsi) (Z.min b tsj) (h, L))).
Proof. exact time_use_track. Qed.
Print Assumptions C104_temporal_track.
Example C104_case : exists st', time_cut = (st', Ok cut_log) ∧ l_version cut_log = [2; 3]%N ∧
  (exists m, snd (temporal_track 0 8 (fst st', cut_log)) = Ok m ∧ m !! 2%N = Some [Op OReplace "a" (num 3) 8] ∧ m !! 3%N = None) ∧
  l_version (snd (fst (asks [CStore (PI_patch (Some [])); CAppend] (fst st', cut_log)))) = [2; 3; 4]%N.
Proof. exact time_demo. Qed.
Example C104_case_log : reachable time_st ∧ gapless 8 9 (snd time_st) ∧
  last_kept 8 9 (snd time_st) 3 ∧ can_grow 8 9 (snd time_st).
Proof. exact (conj time_reachable (conj time_gapless time_last)). Qed.

(** If a version has two operations in the range, or one between two others has none, every call
    that checks the versions panics and changes nothing. *)
Theorem C104_stops : forall orc tsi tsj h L st' R,
  reachable (h, L) -> temporal_slice orc tsi tsj (h, L) = (st', Ok R) -> ~ gapless tsi tsj L ->
  forall c h2, checks c -> fst (ask c (h2, R)) = (h2, R) ∧ panicked (snd (ask c (h2, R))).
Proof. exact time_use_stops. Qed.
Print Assumptions C104_stops.
Example C104_case_gap : (exists st', temporal_slice fwd 8 9 gap_st = (st', Ok gap_log)) ∧ l_version gap_log = [1; 3]%N ∧
  ~ gapless 8 9 (snd gap_st) ∧ ~ can_grow 8 9 (snd gap_st) ∧
  snd (asks [CSnapshot 1; CStore (PI_patch (Some [])); CAppend] (fst gap_st, gap_log)) =
    [AnsDoc Panic; AnsDone (Ok tt); AnsDone Err].
Proof. exact gap_demo. Qed.

(** Otherwise Compact drops the repetitions among the operations in the range, and panics only if Go
    cannot compare two of them. *)
Theorem C104_compact : forall orc tsi tsj h L st' R t h2,
  reachable (h, L) -> temporal_slice orc tsi tsj (h, L) = (st', Ok R) -> gapless tsi tsj L ->
  match compact t (h2, R) with
  | ((h', R'), Ok _) => h' = h2 ∧ ~ clash (filter (under t) (filter (in_range tsi tsj) (all_ops L))) ∧
      forall v, l_patches R' !! v = match kept tsi tsj L v with
        | [] => None
        | ps => Some (changes_among (under t) (filter (under t) (filter (in_range tsi tsj) (ops_between L 0 v))) ps)
        end
  | (_, Err) => False
  | (_, Panic) => clash (filter (under t) (filter (in_range tsi tsj) (all_ops L)))
  end.
Proof. exact time_use_compact. Qed.
Print Assumptions C104_compact.
Example C104_case_compact : exists st' R h' R', temporal_slice fwd 8 9 same_st = (st', Ok R) ∧
  compact "a" (fst st', R) = ((h', R'), Ok tt) ∧
  l_patches R' !! 2%N = Some [Op OReplace "a" (num 3) 8] ∧ l_patches R' !! 3%N = Some [].
Proof. exact same_demo. Qed.

(** Slicing a time slice by time again keeps the versions and operations of a slice by the times in
    both ranges. *)
Theorem C104_again : forall orc tsi tsj h L st' R o a b h2 st2 R2 o' st3 R3,
  reachable (h, L) -> temporal_slice orc tsi tsj (h, L) = (st', Ok R) ->
  temporal_slice o a b (h2, R) = (st2, Ok R2) ->
  temporal_slice o' (Z.max a tsi) (Z.min b tsj) (h, L) = (st3, Ok R3) ->
  l_version R2 = l_version R3 ∧ l_patches R2 = l_patches R3.
Proof. exact time_use_again. Qed.
Print Assumptions C104_again.
Example C104_case_again : exists st2 R2 st3 R3,
  temporal_slice fwd 9 30 (fst (fst time_cut), cut_log) = (st2, Ok R2) ∧
  temporal_slice fwd 9 9 time_st = (st3, Ok R3) ∧ l_version R2 = [3]%N ∧ l_version R3 = [3]%N.
Proof. exact again_demo. Qed.

(** Appending to a time slice: a panic if no operation was in the range; an error, with the patch
    still pending, unless the last two version entries follow each other; otherwise the next
    version. *)
Theorem C104_append : forall orc tsi tsj h L st' R ps h2,
  reachable (h, L) -> temporal_slice orc tsi tsj (h, L) = (st', Ok R) ->
  ((forall v, kept tsi tsj L v = []) ->
     asks [CStore (PI_patch (Some ps)); CAppend] (h2, R) = ((h2, with_pool R (Some ps)), [AnsDone (Ok tt); AnsDone Panic])) ∧
  ((exists v, kept tsi tsj L v <> []) -> ~ can_grow tsi tsj L ->
     asks [CStore (PI_patch (Some ps)); CAppend] (h2, R) = ((h2, with_pool R (Some ps)), [AnsDone (Ok tt); AnsDone Err])) ∧
  (forall v, can_grow tsi tsj L -> last_kept tsi tsj L v ->
     exists R', asks [CStore (PI_patch (Some ps)); CAppend] (h2, R) = ((h2, R'), [AnsDone (Ok tt); AnsDone (Ok tt)]) ∧
       l_version R' = l_version R ++ [(v + 1)%N] ∧ l_snapshots R' = l_snapshots R ∧ l_pool R' = None ∧
       forall w, l_patches R' !! w = if decide (w = v + 1)%N then Some ps else l_patches R !! w).
Proof. exact time_use_append. Qed.
Print Assumptions C104_append.

(** If no stored snapshot is in the range, the slice's first version shows the document at the
    start of the range, and the operations of that version have no effect on any snapshot. *)
Theorem C104_first : forall orc tsi tsj h L st' R h2,
  reachable (h, L) -> temporal_slice orc tsi tsj (h, L) = (st', Ok R) -> gapless tsi tsj L ->
  (forall v s lts, l_snapshots L !! v = Some s -> latest_ts_of h s = Ok lts -> ~ (tsi <= lts <= tsj)) ->
  exists v s, temporal_snapshot orc tsi (h, L) = (st', Ok s) ∧
    kept tsi tsj L v <> [] ∧ (forall u, (u < v)%N -> kept tsi tsj L u = []) ∧
    snapshot v (h2, R) = ((h2, R), Ok s) ∧
    forall k ps, let R' := with_patches R (<[v := ps]> (l_patches R)) in
      snd (snapshot k (h2, R')) = snd (snapshot k (h2, R)) ∧ fst (fst (snapshot k (h2, R'))) = fst (fst (snapshot k (h2, R))).
Proof. exact time_use_first. Qed.
Print Assumptions C104_first.
Example C104_case_first : (forall v s lts, l_snapshots (snd time_st) !! v = Some s -> latest_ts_of (fst time_st) s = Ok lts -> ~ (8 <= lts <= 9)) ∧
  a_at 2 time_st = Some (PNum (f64_of_Z 3)) ∧ a_at 2 (fst (fst time_cut), cut_log) = Some (PNum (f64_of_Z 2)).
Proof. exact first_missing. Qed.
