(** Properties of several logs that share operation slices. *)
From Verif Require Import Base F64 Tson Heap Patch Logument LogSpec LogDemo Alias AliasSpec Share ShareSpec ShareLemmas ShareRun ShareDemo.

(** C96: a slice of a log and the log have the same operations in the versions of the slice, after
    any later calls on any logs, until one of the two is tracked or compacted. *)
Theorem C96_shared : forall w k vi vj l v, reached w ->
  let w1 := kstep w (KSlice k vi vj) in let n := length (snd w) in
  length (snd w1) <> n -> kalong w1 l -> Forall (fun c => ~ replaces k c ∧ ~ replaces n c) l ->
  (vi <= v <= vj)%N -> is_Some (ops_at w k v) ->
  is_Some (ops_at (krun w1 l) k v) ∧ ops_at (krun w1 l) n v = ops_at (krun w1 l) k v.
Proof. exact (fun w k vi vj l v H => slice_shares w k vi vj l v (reached_inv w H)). Qed.
Print Assumptions C96_shared.
(** So a temporal query on the slice puts the operations of the log itself in another order. *)
Theorem C96_sorts : forall w k vi vj l v orc vs vl, reached w ->
  let w1 := kstep w (KSlice k vi vj) in let n := length (snd w) in
  length (snd w1) <> n -> kalong w1 l -> Forall (fun c => ~ replaces k c ∧ ~ replaces n c) l ->
  (vi <= v + 1 <= vj)%N -> is_Some (ops_at w k (v + 1)) -> oracle_ok orc ->
  versions (krun w1 l) n = Some vs -> last vs = Some vl -> (v < vl)%N ->
  ops_at (kstep (krun w1 l) (KTemporal n orc v)) k (v + 1) = or_sort orc <$> ops_at (krun w1 l) k (v + 1).
Proof. exact (fun w k vi vj l v orc vs vl H => slice_sorts w k vi vj l v orc vs vl (reached_inv w H)). Qed.
Print Assumptions C96_sorts.
Example C96_shared_case : reached world ∧ length (snd sliced) <> length (snd world) ∧ kalong sliced later_calls ∧
  Forall (fun c => ~ replaces 0 c ∧ ~ replaces (length (snd world)) c) later_calls ∧ is_Some (ops_at world 0 1) ∧
  ops_at (krun sliced later_calls) 0 1 = Some [early; late] ∧ ops_at (krun sliced later_calls) 0 2 = Some [late] ∧
  ops_at (krun sliced later_calls) 1 2 = Some [early].
Proof. exact sharing_shown. Qed.
(** And then [Snapshot] of the log returns another document than before the query. *)
Theorem C96_query_refuted : exists w h V V2 W orc tsk,
  reached w ∧ oracle_ok orc ∧ shows w 0 V ∧
  Logument.slice 0 1 (h, V) = ((h, V), Ok W) ∧ pick_snapshot h W tsk (sorted_keys (l_snapshots W)) 1 = Ok 0%N ∧
  let w1 := kstep w (KSlice 0 0 1) in let w2 := kstep w1 (KTemporal 1 orc 0) in
  shows w1 0 V ∧ shows w1 1 W ∧ shows w2 0 V2 ∧ l_snapshots V2 = l_snapshots V ∧ l_current V2 = l_current V ∧
  snapshot_tree 1 (h, V) = Some (TObj [("a", TLeaf (PStr "early") 3)]) ∧
  snapshot_tree 1 (h, V2) = Some (TObj [("a", TLeaf (PStr "late") 5)]).
Proof. exact query_changes. Qed.
Print Assumptions C96_query_refuted.
(** That is all: calls on other logs leave the versions and the pending operations of a log, and
    its operations up to their order; exactly, when the operations of the version are in strict
    time order or no temporal query was made. *)
Theorem C96_others : forall w l j, reached w -> kalong w l -> Forall (fun c => about c <> Some j) l -> is_Some (snd w !! j) ->
  versions (krun w l) j = versions w j ∧ pending (krun w l) j = pending w j ∧
  (forall v, option_Forall2 (fun ps' ps => ps' ≡ₚ ps ∧ (in_order ps -> ps' = ps) ∧ (Forall (fun c => ~ sorts c) l -> ps' = ps))
     (ops_at (krun w l) j v) (ops_at w j v)).
Proof. exact (fun w l j H => others_kept l w j (reached_inv w H)). Qed.
Print Assumptions C96_others.
Example C96_others_case : kalong sliced slice_calls ∧ Forall (fun c => about c <> Some 0%nat) slice_calls ∧
  versions sliced 0 = Some [0; 1]%N ∧ ops_at sliced 0 1 = Some [late; early] ∧ ops_at (krun sliced slice_calls) 0 1 = Some [early; late] ∧
  ops_at (krun sliced slice_calls) 2 1 = Some [early] ∧ ops_at (krun sliced slice_calls) 3 1 = Some [early; late] ∧
  in_order [early; late].
Proof. exact slice_calls_shown. Qed.
(** The log a call is made on changes as the log of [Logument.v] does, whatever is shared. *)
Theorem C96_own : forall w c k V h h' V', reached w -> klegal w c -> kcareful w c -> about c = Some k -> shows w k V ->
  kvalue (fst w) c (h, V) (h', V') -> shows (kstep w c) k V'.
Proof. exact (fun w c k V h h' V' H => own_step w c k V h h' V' (reached_inv w H)). Qed.
Print Assumptions C96_own.
(** So, however calls on several logs are mixed, a log ends as if only the calls on it had been
    made, except for what temporal queries of others do to operations out of order. *)
Theorem C96_interleaved : forall k w l V V', reached w -> kalong w l -> shows w k V -> kpath k w l V V' -> shows (krun w l) k V'.
Proof. exact (fun k w l V V' H HA HS HP => interleaved k w l V V' HP (reached_inv w H) HA HS). Qed.
Print Assumptions C96_interleaved.
Example C96_interleaved_case : reached sliced ∧ shows sliced 1 part ∧ kalong sliced mixed ∧
  kpath 1 sliced mixed part (snd mixed_end) ∧
  l_version (snd mixed_end) = [1; 2]%N ∧ l_patches (snd mixed_end) !! 2%N = Some [late].
Proof. exact mixed_shown. Qed.
(** A log made by [Slice] or [TemporalSlice] is the one of [Logument.v]. *)
Theorem C96_made : forall w k V h st R, reached w -> shows w k V ->
  (forall vi vj, Logument.slice vi vj (h, V) = (st, Ok R) -> shows (kstep w (KSlice k vi vj)) (length (snd w)) R) ∧
  (forall n orc tsi tsj, temporal_slice orc tsi tsj (h, V) = (st, Ok R) -> shows (kstep w (KTSlice k n tsi tsj)) (length (snd w)) R).
Proof.
  exact (fun w k V h st R H HS =>
    conj (fun vi vj => slice_new w k vi vj V h st R (reached_inv w H) HS)
         (fun n orc tsi tsj => tslice_new w k n tsi tsj orc V h st R (reached_inv w H) HS)).
Qed.
Print Assumptions C96_made.
Example C96_own_case : reached sliced ∧ shows sliced 1 part ∧
  kvalue (fst sliced) (KTemporal 1 fwd 0) (old_heap, part) (fst (temporal_snapshot fwd 10 (old_heap, part))) ∧
  l_patches (snd (fst (temporal_snapshot fwd 10 (old_heap, part)))) !! 1%N = Some [early; late].
Proof. exact own_shown. Qed.
