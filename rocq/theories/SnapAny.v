(** [Snapshot] in any state of a log over an object document. *)
From Verif Require Import Base BaseSpec BaseSpecLemmas F64 Tson BaseLemmas Serial Heap HeapSpec Patch Own PatchSpec TreePatch PatchLemmas
  Logument LogSpec LogLemmas ChangeLemmas CompactLemmas ReplaySpec ReplayLemmas SnapAnySpec.
From Coq Require Import Lia.

Lemma replay_any ps : forall h l t x h' r, doc_of h (VObj l) t ->
  replay_versions h (VObj l) x ps = (h', r) ->
  match r, papply t (concat ps) with
  | Ok v, (t', Ok _) => doc_of h' (VObj l) t' ∧
      v = match last ps with None => x | Some [] => VNil | Some _ => VObj l end
  | Ok _, _ => False
  | _, (_, Ok _) => False
  | _, _ => True
  end.
Proof.
  induction ps as [|p ps IH]; intros h l t x h' r HD E.
  - cbn in *. by injection E as <- <-.
  - cbn [concat replay_versions] in *. rewrite papply_app.
    destruct (apply_patch h (VObj l) p) as [h1 r1] eqn:Ea. pose proof (apply_patch_doc _ _ _ _ _ _ HD Ea) as HX.
    destruct r1 as [v1| |], (papply t p) as [t1 [[]| |]]; try done; try (by injection E as <- <-).
    destruct HX as [HD1 ->]. pose proof (IH _ _ _ _ _ _ HD1 E) as HY.
    destruct r as [v| |], (papply t1 (concat ps)) as [t2 [[]| |]]; try done. destruct HY as [HD2 ->]. split; [done|].
    destruct ps as [|p2 ps]; [cbn; by destruct p|]. change (last (p :: p2 :: ps)) with (last (p2 :: ps)).
    destruct (last (p2 :: ps)) eqn:El; [done|]. by apply last_None in El.
Qed.
Lemma apply_patch_nil_ne h p : p <> [] -> exists e, apply_patch h VNil p = (h, e) ∧ e <> Ok VNil.
Proof.
  intros Hp. unfold apply_patch. destruct p as [|op p]; [done|]. cbn [apply_ops].
  unfold apply_operation. destruct (op_parts (op_path op)) eqn:E; [by apply op_parts_ne in E|]. cbn. by eexists.
Qed.
Lemma replay_nil ps : forall h h' r, replay_versions h VNil VNil ps = (h', r) ->
  h' = h ∧ match r with Ok v => v = VNil ∧ concat ps = [] | _ => concat ps <> [] end.
Proof.
  induction ps as [|p ps IH]; intros h h' r E; cbn [replay_versions concat] in *; [by injection E as <- <-|].
  destruct (decide (p = [])) as [->|Hp].
  - cbn in E. apply IH in E. done.
  - destruct (apply_patch_nil_ne h p Hp) as (e & Ee & He). rewrite Ee in E.
    destruct e as [v| |]; [|injection E as <- <-..]; try (split; [done|]; intros [??]%app_nil; done).
    apply apply_patch_nil in Ee as ->. done.
Qed.
Lemma base_unique L v w w' : base_of L v w -> base_of L v w' -> w = w'.
Proof. intros (H1 & H2 & H3) (H1' & H2' & H3'). assert (w <= w')%N by auto. assert (w' <= w)%N by auto. lia. Qed.

Lemma snapshot_any v h L l t : reachable (h, L) -> l_snapshots L !! 0%N = Some (VObj l) -> doc_of h (VObj l) t ->
  match snapshot v (h, L) with
  | ((h', L'), Ok r) => v ∈ l_version L ∧ exists w s, base_of L v w ∧ l_snapshots L !! w = Some s ∧
      ((w = v ∧ r = s ∧ h' = h ∧ L' = L)
       ∨ ((w < v)%N ∧ L' = with_snapshots L (<[v := r]> (l_snapshots L)) ∧
          r = (if decide (patch_at L v = []) then VNil else VObj l) ∧
          (s = VNil -> ops_between L (w + 1) (v + 1) = []) ∧
          exists t', doc_of h' (VObj l) t' ∧ applied t (ops_between L (w + 1) (v + 1)) t'))
  | (_, Err) => False
  | ((h', L'), Panic) => L' = L ∧
      (v ∉ l_version L
       ∨ exists w s, base_of L v w ∧ l_snapshots L !! w = Some s ∧ (w < v)%N ∧
           ((s = VNil ∧ ops_between L (w + 1) (v + 1) <> [])
            ∨ (s = VObj l ∧ forall t', ~ applied t (ops_between L (w + 1) (v + 1)) t')))
  end.
Proof.
  intros HR H0 HD. pose proof (reachable_consistent _ HR) as HC. cbn [snd] in HC.
  pose proof (reachable_root _ l HR H0) as [Hone _]. cbn [snd] in Hone.
  destruct (versions_of L HC) as [n Hn].
  assert (Hin : forall k, k ∈ l_version L <-> (k <= N.of_nat n)%N).
  { intros k. rewrite Hn. unfold nats. split.
    - intros (i & -> & Hi)%elem_of_list_fmap. apply elem_of_seq in Hi. lia.
    - intros Hk. apply elem_of_list_fmap. exists (N.to_nat k). split; [lia|]. apply elem_of_seq. lia. }
  unfold snapshot. pose proof (find_latest_spec L v HC) as HF.
  destruct (find_latest L v) as [L1 [[w s]| |]]; [|done|].
  2:{ destruct HF as (-> & n' & Hn' & Hlt). split; [done|]. left. rewrite Hin.
      assert (n = n') as -> by (eapply version_count; [exact Hn|exact Hn']). lia. }
  destruct HF as (-> & Hw & Hs & Hmax & Hv).
  assert (HB : base_of L v w). { split; [by eexists|]. done. }
  assert (HVin : v ∈ l_version L).
  { destruct Hv as (n' & Hn' & Hle). apply Hin. rewrite (version_count L n n' Hn Hn'). lia. }
  destruct (N.eqb_spec w v) as [->|Hne].
  - rewrite Hs. split; [done|]. exists v, s. split; [done|]. split; [done|]. by left.
  - assert (Hlt : (w < v)%N) by lia.
    assert (Hnone : l_snapshots L !! v = None).
    { destruct (l_snapshots L !! v) eqn:Ev; [|done]. assert (v <= w)%N by (apply Hmax; [by eexists|lia]). lia. }
    destruct (N.to_nat (v - w)) as [|d] eqn:Ed; [lia|].
    assert (Ev : v = (w + 1 + N.of_nat d)%N) by lia.
    assert (Eop : concat (map (patch_at L) (seqN (w + 1) (S d))) = ops_between L (w + 1) (v + 1)).
    { rewrite seqN_ops. f_equal. lia. }
    assert (El : last (map (patch_at L) (seqN (w + 1) (S d))) = Some (patch_at L v)).
    { rewrite fmap_last, seqN_last. cbn. by rewrite <- Ev. }
    destruct (replay_versions _ _ _ _) as [h1 r] eqn:Er.
    destruct (Hone _ _ Hs) as [-> | ->].
    + pose proof (replay_any _ _ _ _ _ _ _ HD Er) as HX. rewrite Eop in HX.
      assert (Hno : snd (papply t (ops_between L (w + 1) (v + 1))) <> Ok tt ->
        forall t', ~ applied t (ops_between L (w + 1) (v + 1)) t').
      { intros H t' Ha%applied_papply. by rewrite Ha in H. }
      destruct r as [x| |].
      * rewrite Hnone. destruct (papply t _) as [t' [[]| |]] eqn:Ep; try done. destruct HX as [HD' ->].
        rewrite El. split; [done|]. exists w, (VObj l). split; [done|]. split; [done|]. right. split; [done|].
        split; [done|]. split; [by destruct (patch_at L v)|]. split; [done|]. exists t'. split; [done|].
        apply papply_applied; [by eapply doc_obj|done].
      * split; [done|]. right. exists w, (VObj l). split; [done|]. split; [done|]. split; [done|]. right. split; [done|].
        apply Hno. by destruct (papply t _) as [t' [[]| |]].
      * split; [done|]. right. exists w, (VObj l). split; [done|]. split; [done|]. split; [done|]. right. split; [done|].
        apply Hno. by destruct (papply t _) as [t' [[]| |]].
    + pose proof (replay_nil _ _ _ _ Er) as [-> HX]. rewrite Eop in HX. destruct r as [x| |].
      * rewrite Hnone. destruct HX as [-> HX]. split; [done|]. exists w, VNil. split; [done|]. split; [done|]. right.
        split; [done|]. split; [done|]. rewrite HX. split.
        { rewrite decide_True; [done|]. rewrite <- Eop in HX. rewrite Ev.
          rewrite seqN_range, seq_S, map_app, map_app, concat_app in HX. apply app_nil in HX as [_ HX].
          cbn [map concat] in HX. rewrite app_nil_r in HX. exact HX. }
        split; [done|]. exists t. split; [done|]. apply papply_applied; [by eapply doc_obj|done].
      * split; [done|]. right. exists w, VNil. split; [done|]. split; [done|]. split; [done|]. by left.
      * split; [done|]. right. exists w, VNil. split; [done|]. split; [done|]. split; [done|]. by left.
Qed.
