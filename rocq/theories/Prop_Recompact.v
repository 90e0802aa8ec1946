(** Property theorems about what Compact changes for later calls (C105). *)
From Verif Require Import Base F64 Tson Heap Patch Logument LogSpec LogDemo RecompactLemmas RecompactDemo.

(** Two Compact calls can be exchanged: if both finish, they finish in the other order too and
    leave the same log. *)
Theorem C105_commute : forall t t' h L h1 L1 h2 L2, reachable (h, L) ->
  compact t (h, L) = ((h1, L1), Ok tt) -> compact t' (h1, L1) = ((h2, L2), Ok tt) ->
  exists L1', compact t' (h, L) = ((h, L1'), Ok tt) ∧ compact t (h, L1') = ((h2, L2), Ok tt).
Proof. exact recompact_commute. Qed.
Print Assumptions C105_commute.
Example C105_case : reachable twice_st ∧ compact "a" twice_st = (after "a" twice_st, Ok tt) ∧
  compact "b" (after "a" twice_st) = (after "b" (after "a" twice_st), Ok tt) ∧
  let L2 := snd (after "b" (after "a" twice_st)) in
  l_patches (snd (after "a" twice_st)) !! 2%N = Some [] ∧
  l_patches (snd (after "a" twice_st)) !! 4%N = Some [Op OReplace "b" (num 2) 9] ∧
  l_patches L2 !! 2%N = Some [] ∧ l_patches L2 !! 4%N = Some [] ∧ l_patches L2 !! 5%N = Some [Op OReplace "a" (num 3) 9].
Proof. exact (conj twice_reachable twice_compact). Qed.

(** A longer target is covered: compacting it afterwards changes nothing, and compacting it first
    makes no difference. *)
Theorem C105_nested : forall t r h L h1 L1, reachable (h, L) -> compact t (h, L) = ((h1, L1), Ok tt) ->
  compact (t +++ r) (h1, L1) = ((h1, L1), Ok tt) ∧
  exists L1', compact (t +++ r) (h, L) = ((h, L1'), Ok tt) ∧ compact t (h, L1') = ((h1, L1), Ok tt).
Proof. exact recompact_covered. Qed.
Print Assumptions C105_nested.
Example C105_case_nested : compact "" twice_st = (after "" twice_st, Ok tt) ∧
  after "a" twice_st <> twice_st ∧ after "a" twice_st <> after "" twice_st.
Proof. exact twice_nested. Qed.

(** Track over all versions leaves the log as Compact of every path does, also when it panics, and
    returns the patches from before. *)
Theorem C105_track : forall h L n, reachable (h, L) -> last (l_version L) = Some n ->
  fst (track 0 n (h, L)) = fst (compact "" (h, L)) ∧
  snd (track 0 n (h, L)) = match snd (compact "" (h, L)) with Ok _ => Ok (l_patches L) | _ => Panic end.
Proof. exact recompact_track. Qed.
Print Assumptions C105_track.
Example C105_case_track : last (l_version (snd twice_st)) = Some 5%N ∧
  (exists m, snd (track 0 5 twice_st) = Ok m ∧ m !! 2%N = Some [Op OReplace "a" (num 2) 8]) ∧
  l_patches (snd (fst (track 0 5 twice_st))) !! 2%N = Some [].
Proof. exact twice_track. Qed.

(** History answers the same before and after any Compact. *)
Theorem C105_history : forall orc t t' h L h1 L1, reachable (h, L) -> compact t' (h, L) = ((h1, L1), Ok tt) ->
  snd (history orc t (h1, L1)) = snd (history orc t (h, L)).
Proof. exact recompact_history. Qed.
Print Assumptions C105_history.
Example C105_case_history : reachable slash_st ∧ compact "/" slash_st = (after "/" slash_st, Ok tt) ∧
  snd (history fwd "/a" (after "/" slash_st)) =
    Ok [("/a", [Op OAdd "/a" (ATson (TLeaf (PNum (f64_of_Z 1)) 5)) 0; Op OReplace "/a" (num 2) 7; Op OReplace "/a" (num 3) 9])].
Proof. exact twice_history. Qed.

(** So does TemporalTrack of a range that has every operation. *)
Theorem C105_temporal_track : forall t a b h L h1 L1, reachable (h, L) -> compact t (h, L) = ((h1, L1), Ok tt) ->
  (forall p, p ∈ all_ops L -> a <= op_ts p <= b) ->
  snd (temporal_track a b (h1, L1)) = snd (temporal_track a b (h, L)).
Proof. exact recompact_temporal_track. Qed.
Print Assumptions C105_temporal_track.
Example C105_case_range : (forall p, p ∈ all_ops (snd twice_st) -> 7 <= op_ts p <= 9) ∧
  exists m, snd (temporal_track 7 9 (after "a" twice_st)) = Ok m ∧ m !! 1%N = Some [Op OReplace "a" (num 2) 7] ∧ m !! 2%N = None ∧
    m !! 5%N = Some [Op OReplace "a" (num 3) 9].
Proof. exact twice_range. Qed.

(** For other ranges, if the operations were recorded in the order of their times, TemporalTrack
    answers with the operations in the range that changed a value of the whole log, and all of
    them were reported before. *)
Theorem C105_ordered : forall a b h L h1 L1, reachable (h, L) -> compact "" (h, L) = ((h1, L1), Ok tt) ->
  StronglySorted (fun p q => op_ts p <= op_ts q) (all_ops L) -> a <= b ->
  exists m m', snd (temporal_track a b (h, L)) = Ok m ∧ snd (temporal_track a b (h1, L1)) = Ok m' ∧
    (forall v, m' !! v = match filter (in_range a b) (changes (ops_between L 0 v) (patch_at L v)) with [] => None | ps => Some ps end) ∧
    forall v, default [] (m' !! v) `sublist_of` default [] (m !! v).
Proof. exact recompact_ordered_fewer. Qed.
Print Assumptions C105_ordered.
Example C105_case_ordered : StronglySorted (fun p q => op_ts p <= op_ts q) (all_ops (snd twice_st)) ∧
  (exists m, snd (temporal_track 8 9 twice_st) = Ok m ∧ m !! 2%N = Some [Op OReplace "a" (num 2) 8] ∧ m !! 5%N = Some [Op OReplace "a" (num 3) 9]) ∧
  (exists m, snd (temporal_track 8 9 (after "" twice_st)) = Ok m ∧ m !! 2%N = None ∧ m !! 5%N = Some [Op OReplace "a" (num 3) 9]).
Proof. exact twice_ordered. Qed.

(** Otherwise TemporalTrack may report, after Compact, an operation of a version it did not report before. *)
Theorem C105_order_refuted : exists st st1 m m' v p, reachable st ∧ compact "" st = (st1, Ok tt) ∧
  snd (temporal_track 5 6 st) = Ok m ∧ snd (temporal_track 5 6 st1) = Ok m' ∧
  p ∈ default [] (m' !! v) ∧ default [] (m !! v) = [].
Proof. exact recompact_refuted. Qed.
Print Assumptions C105_order_refuted.
