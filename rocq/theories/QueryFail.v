(** When an event search fails. *)
From Verif Require Import Base BaseSpec F64 Tson Heap HeapSpec Patch PatchSpec Logument LogSpec CompactLemmas Query QuerySpec.

Lemma search_fails ord path s e thr h L : consistent L ->
  fst (find_events ord path s e thr (h, L)) = (h, L) ∧ snd (find_events ord path s e thr (h, L)) <> Err ∧
  (snd (find_events ord path s e thr (h, L)) = Panic <-> e < s ∨ clash (filter (LogSpec.in_range s e) (all_ops L))).
Proof.
  intros HC. destruct (temporal_track_spec s e h L HC) as [H1 H]. unfold find_events.
  destruct (temporal_track s e (h, L)) as [st' [m| |]]; cbn [fst snd] in *; (split; [done|]); [|done|done].
  split; [done|]. split; [done|]. destruct H as [[Hle Hc] _]. intros [?|?]; [lia|done].
Qed.

Lemma run_stops orc t qs2 qs1 : forall st st1 ds st2, snapshot_run qs1 st = (st1, Ok ds) ->
  temporal_snapshot orc t st1 = (st2, Panic) -> snapshot_run (qs1 ++ (orc, t) :: qs2) st = (st2, Panic).
Proof.
  induction qs1 as [|[o z] qs1 IH]; intros st st1 ds st2 E1 E2; cbn [app snapshot_run] in *.
  - injection E1 as <- <-. by rewrite E2.
  - destruct (temporal_snapshot o z st) as [sta [r| |]]; [|done|done]. destruct (read (fst sta) r); [|done].
    destruct (snapshot_run qs1 sta) as [stb [ds'| |]] eqn:Eb; [|done|done]. injection E1 as -> _.
    by rewrite (IH _ _ _ _ Eb E2).
Qed.
