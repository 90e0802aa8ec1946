(** Proofs about logs with the same operations in different versions. *)
From Verif Require Import Base BaseSpec BaseSpecLemmas F64 Tson TsonInd TsonSpec Serial Heap HeapSpec Own PatchSpec TreePatch PatchLemmas Patch Logument LogSpec BaseLemmas F64Lemmas LogLemmas
  ChangeLemmas CompactLemmas HistoryLemmas ReplaySpec ReplayLemmas SetLemmas CompactReplay RecompactLemmas TrackUseLemmas.
From Coq Require Import Lia.

(** What a map from versions to operations holds, in the order of [vs]. *)
Definition flat (vs : list N) (m : gmap N (list operation)) : list operation :=
  concat (map (fun v => default [] (m !! v)) vs).
(** Store and Append. *)
Definition recording (c : call) : Prop := match c with CStore _ | CAppend => True | _ => False end.

Lemma versions_last L : consistent L -> exists n, l_version L = nats (S n) ∧ last (l_version L) = Some (N.of_nat n).
Proof. intros (n & Hv & _). exists n. split; [done|]. rewrite Hv. apply nats_last. Qed.
Lemma all_ops_count L n : l_version L = nats (S n) -> all_ops L = ops_between L 0 (N.of_nat n + 1).
Proof. intros H. unfold all_ops. by rewrite H, nats_last. Qed.

(** ** Recording *)
Lemma append_ops h L : consistent L -> let L' := snd (fst (append (h, L))) in
  fst (fst (append (h, L))) = h ∧ l_snapshots L' = l_snapshots L ∧ l_current L' = l_current L ∧
  l_pool L' = None ∧ all_ops L' = all_ops L ++ pending L.
Proof.
  intros HC. cbv zeta. destruct (append_cases h L HC) as [_ H]. unfold pending. destruct (l_pool L) as [ps|] eqn:EP.
  - destruct H as (n & Hv & HN & ->). cbn [fst snd l_snapshots l_current l_pool]. do 4 (split; [done|]).
    rewrite (all_ops_count _ (S n)) by (cbn [l_version]; rewrite ?Hv, ?nats_snoc; done). rewrite (all_ops_count L n) by done.
    replace (N.of_nat (S n)) with (N.of_nat n + 1)%N by lia. rewrite ops_between_snoc by lia. f_equal.
    + apply ops_same. intros v Hr. unfold patch_at. cbn [l_patches]. rewrite lookup_insert_ne by lia. done.
    + unfold patch_at. cbn [l_patches]. rewrite lookup_insert. done.
  - rewrite H. cbn [fst snd]. rewrite app_nil_r. done.
Qed.
Lemma store_ops p h L : let L' := snd (fst (store p (h, L))) in
  fst (fst (store p (h, L))) = h ∧ l_snapshots L' = l_snapshots L ∧ l_current L' = l_current L ∧ all_ops L' = all_ops L.
Proof. cbv zeta. unfold store. by destruct (store_arg p). Qed.
Lemma recorded cs : forall h L, consistent L -> Forall recording cs -> let L' := snd (run (h, L) cs) in
  fst (run (h, L) cs) = h ∧ l_snapshots L' = l_snapshots L ∧ l_current L' = l_current L ∧
  all_ops L' ++ pending L' = all_ops L ++ pending L ++ stored cs.
Proof.
  cbv zeta. induction cs as [|c cs IH]; intros h L HC HF.
  - cbn. by rewrite app_nil_r.
  - inversion HF as [|? ? Hc Hcs]; subst. pose proof (run_call_consistent c h L HC) as HC'.
    change (run (h, L) (c :: cs)) with (run (run_call (h, L) c) cs). unfold stored. cbn [map concat]. fold (stored cs).
    destruct c; try done; cbn [run_call] in *.
    + pose proof (store_ops p h L) as H. pose proof (store_pending p h L) as HP. cbv zeta in H.
      destruct (store p (h, L)) as [[h' L'] r]. cbn [fst snd] in *. destruct H as (-> & H2 & H3 & H4).
      destruct (IH h L' HC' Hcs) as (I1 & I2 & I3 & I4). rewrite I1, I2, I3, I4, H2, H3, H4, HP. by rewrite <- !app_assoc.
    + pose proof (append_ops h L HC) as H. cbv zeta in H.
      destruct (append (h, L)) as [[h' L'] r]. cbn [fst snd] in *. destruct H as (-> & H2 & H3 & H4 & H5).
      destruct (IH h L' HC' Hcs) as (I1 & I2 & I3 & I4). rewrite I1, I2, I3, I4, H2, H3, H5. unfold pending at 2. rewrite H4.
      by rewrite <- !app_assoc.
Qed.
Lemma recorded_all cs h L : reachable (h, L) -> Forall recording cs -> let st := run (h, L) (cs ++ [CAppend]) in
  fst st = h ∧ l_snapshots (snd st) = l_snapshots L ∧ l_current (snd st) = l_current L ∧ l_pool (snd st) = None ∧
  all_ops (snd st) = all_ops L ++ pending L ++ stored cs.
Proof.
  intros HR HF. apply reachable_consistent in HR. cbn in HR. cbv zeta. rewrite run_app.
  destruct (recorded cs h L HR HF) as (I1 & I2 & I3 & I4). pose proof (run_consistent cs h L HR) as HC.
  destruct (run (h, L) cs) as [h' L']. cbn [fst snd] in *. subst h'. cbn [run fold_left run_call].
  destruct (append_ops h L' HC) as (A1 & A2 & A3 & A4 & A5). rewrite A1, A2, A3, A4, A5, I2, I3, I4. done.
Qed.

(** ** Compact, Track, TemporalTrack *)
Lemma compact_all_ops t h L h' L' : consistent L -> compact t (h, L) = ((h', L'), Ok tt) ->
  all_ops L' = changes_among (under t) [] (all_ops L).
Proof.
  intros HC E. destruct (compact_ok t h L h' L' HC E) as (_ & _ & C & _). unfold all_ops. rewrite (cp_version _ _ _ _ C).
  by apply (compact_ops t h L h').
Qed.
Lemma regroup_compact t h L h' L' : reachable (h, L) -> reachable (h', L') -> all_ops L = all_ops L' ->
  snd (compact t (h, L)) = snd (compact t (h', L')) ∧
  (snd (compact t (h, L)) = Ok tt -> all_ops (snd (fst (compact t (h, L)))) = all_ops (snd (fst (compact t (h', L'))))).
Proof.
  intros HR HR' E. apply reachable_consistent in HR, HR'. cbn in HR, HR'.
  pose proof (compact_spec t h L HR) as S0. pose proof (compact_spec t h' L' HR') as S1. rewrite E in S0.
  destruct (compact t (h, L)) as [[hA LA] rA] eqn:EA, (compact t (h', L')) as [[hB LB] rB] eqn:EB.
  destruct rA as [[]| |]; [|done|]; destruct rB as [[]| |]; try done; try tauto. cbn. split; [done|]. intros _.
  rewrite (compact_all_ops _ _ _ _ _ HR EA), (compact_all_ops _ _ _ _ _ HR' EB). by rewrite E.
Qed.
Lemma flat_changes a b (m : gmap N (list operation)) L : (forall v, m !! v =
      match changes (filter (in_range a b) (ops_between L 0 v)) (filter (in_range a b) (patch_at L v)) with
      | [] => None
      | ps => Some ps
      end) -> forall n, flat (nats n) m = changes [] (filter (in_range a b) (ops_between L 0 (N.of_nat n))).
Proof.
  intros H n. induction n as [|n IH]; [done|]. unfold flat, nats. rewrite seq_S, !map_app, concat_app.
  change (concat _) with (flat (nats n) m) at 1. rewrite IH. cbn [map concat]. rewrite app_nil_r.
  replace (N.of_nat (S n)) with (N.of_nat n + 1)%N by lia. rewrite ops_between_snoc by lia. rewrite filter_app, changes_app. f_equal.
  cbn [app Nat.add]. rewrite H. by match goal with |- _ = ?c => generalize c; intros [|??] end.
Qed.
Lemma regroup_temporal a b h L h' L' : reachable (h, L) -> reachable (h', L') -> all_ops L = all_ops L' ->
  match snd (temporal_track a b (h, L)), snd (temporal_track a b (h', L')) with
  | Ok m, Ok m' => flat (l_version L) m = flat (l_version L') m'
  | Panic, Panic => True
  | _, _ => False
  end.
Proof.
  intros HR HR' E. apply reachable_consistent in HR, HR'. cbn in HR, HR'.
  destruct (temporal_track_spec a b h L HR) as [_ A]. destruct (temporal_track_spec a b h' L' HR') as [_ B]. rewrite <- E in B.
  destruct (snd (temporal_track a b (h, L))) as [m| |], (snd (temporal_track a b (h', L'))) as [m'| |]; try done.
  - destruct A as [_ A], B as [_ B]. destruct (versions_last L HR) as (n & Hv & _), (versions_last L' HR') as (n' & Hv' & _).
    rewrite Hv, Hv', (flat_changes a b m L A), (flat_changes a b m' L' B).
    replace (N.of_nat (S n)) with (N.of_nat n + 1)%N by lia. replace (N.of_nat (S n')) with (N.of_nat n' + 1)%N by lia.
    rewrite <- (all_ops_count L n), <- (all_ops_count L' n') by done. by rewrite E.
  - destruct A as [[A1 A2] _], B as [B|B]; [lia|tauto].
  - destruct B as [[A1 A2] _], A as [B|B]; [lia|tauto].
Qed.
Lemma flat_patches L n m : (forall v, m !! v = if decide (0 <= v <= N.of_nat n)%N then l_patches L !! v else None) ->
  forall k, (k <= S n)%nat -> flat (nats k) m = ops_between L 0 (N.of_nat k).
Proof.
  intros H k. induction k as [|k IH]; intros Hk; [done|]. unfold flat, nats. rewrite seq_S, !map_app, concat_app.
  change (concat _) with (flat (nats k) m) at 1. rewrite IH by lia. cbn [map concat]. rewrite app_nil_r.
  replace (N.of_nat (S k)) with (N.of_nat k + 1)%N by lia. rewrite ops_between_snoc by lia. f_equal.
  cbn [Nat.add]. rewrite H, decide_True by lia. done.
Qed.
Lemma regroup_track h L h' L' n n' : reachable (h, L) -> reachable (h', L') -> all_ops L = all_ops L' ->
  last (l_version L) = Some n -> last (l_version L') = Some n' ->
  match track 0 n (h, L), track 0 n' (h', L') with
  | ((_, L1), Ok m), ((_, L1'), Ok m') => flat (l_version L) m = flat (l_version L') m' ∧ all_ops L1 = all_ops L1'
  | (_, Panic), (_, Panic) => True
  | _, _ => False
  end.
Proof.
  intros HR HR' E Hn Hn'. apply reachable_consistent in HR, HR'. cbn in HR, HR'.
  destruct (versions_last L HR) as (k & Hv & Hl), (versions_last L' HR') as (k' & Hv' & Hl').
  assert (n = N.of_nat k) as -> by congruence. assert (n' = N.of_nat k') as -> by congruence.
  pose proof (track_spec 0 (N.of_nat k) h L HR) as A. pose proof (track_spec 0 (N.of_nat k') h' L' HR') as B.
  rewrite <- (all_ops_count L k Hv) in A. rewrite <- (all_ops_count L' k' Hv'), <- E in B.
  destruct (track 0 (N.of_nat k) (h, L)) as [[hA LA] rA] eqn:EA, (track 0 (N.of_nat k') (h', L')) as [[hB LB] rB] eqn:EB.
  destruct rA as [m| |]; [|done|]; destruct rB as [m'| |]; try done.
  - destruct (track_ok _ _ _ _ _ _ _ HR EA) as (_ & _ & TA & _ & _ & _ & MA).
    destruct (track_ok _ _ _ _ _ _ _ HR' EB) as (_ & _ & TB & _ & _ & _ & MB). split.
    + rewrite Hv, Hv', (flat_patches L k m MA) by lia. rewrite (flat_patches L' k' m' MB) by lia.
      replace (N.of_nat (S k)) with (N.of_nat k + 1)%N by lia. replace (N.of_nat (S k')) with (N.of_nat k' + 1)%N by lia.
      rewrite <- (all_ops_count L k), <- (all_ops_count L' k') by done. done.
    + pose proof (tracked_thinned _ _ _ _ TA) as XA. pose proof (tracked_thinned _ _ _ _ TB) as XB.
      rewrite (all_ops_count LA k), (all_ops_count LB k') by (rewrite ?(th_version _ _ XA), ?(th_version _ _ XB); done).
      rewrite (tracked_ops _ _ _ _ _ TA), (tracked_ops _ _ _ _ _ TB) by lia.
      rewrite <- (all_ops_count L k), <- (all_ops_count L' k') by done. by rewrite E.
  - destruct A as ((A1 & A2 & A3) & _), B as [B|[(x & Hx & B)|B]]; [lia| |tauto]. assert (x = N.of_nat k') by congruence. lia.
  - destruct B as ((A1 & A2 & A3) & _), A as [B|[(x & Hx & B)|B]]; [lia| |tauto]. assert (x = N.of_nat k) by congruence. lia.
Qed.

(** ** History *)
Lemma regroup_history orc orc' t h L L' : reachable (h, L) -> reachable (h, L') -> all_ops L = all_ops L' ->
  l_snapshots L !! 0%N = l_snapshots L' !! 0%N ->
  (forall vs, or_versions orc vs = vs) -> (forall vs, or_versions orc' vs = vs) ->
  snd (history orc t (h, L)) = snd (history orc' t (h, L')).
Proof.
  intros HR HR' E ES HO HO'. destruct (regroup_compact t h L h L' HR HR' E) as [R1 R2].
  apply reachable_consistent in HR, HR'. cbn in HR, HR'.
  unfold history. rewrite (consistent_continuous _ HR), (consistent_continuous _ HR'). cbn [negb].
  destruct (compact t (h, L)) as [[hA LA] rA] eqn:EA, (compact t (h, L')) as [[hB LB] rB] eqn:EB. cbn [fst snd] in R1, R2. subst rB.
  destruct rA as [[]| |]; [|done|done]. specialize (R2 eq_refl).
  destruct (compact_ok t h L hA LA HR EA) as (-> & HCA & CA & _).
  destruct (compact_ok t h L' hB LB HR' EB) as (-> & HCB & CB & _).
  rewrite (cp_snapshots _ _ _ _ CA), (cp_snapshots _ _ _ _ CB), ES, HO, HO'.
  destruct (read h _); [|done]. cbn [snd]. f_equal. unfold collect_history.
  by rewrite (all_ops_versions LA _ HCA eq_refl), (all_ops_versions LB _ HCB eq_refl), R2.
Qed.

(** ** Snapshot *)
(** The same outcome, whatever document comes with it. *)
Definition ends {A B} (r : res A) (q : res B) : Prop :=
  match r, q with Ok _, Ok _ | Err, Err | Panic, Panic => True | _, _ => False end.
Lemma replay_concat l ps : forall h t t', fst (replay_versions h (VObj l) t ps) = fst (apply_ops h (VObj l) t' (concat ps)) ∧
  ends (snd (replay_versions h (VObj l) t ps)) (snd (apply_ops h (VObj l) t' (concat ps))).
Proof.
  induction ps as [|p ps IH]; intros h t t'; [done|]. cbn [replay_versions concat]. rewrite apply_ops_app. unfold apply_patch.
  assert (X : forall p h a b, fst (apply_ops h (VObj l) a p) = fst (apply_ops h (VObj l) b p) ∧ ends (snd (apply_ops h (VObj l) a p)) (snd (apply_ops h (VObj l) b p))).
  { clear. intros p h a b. destruct p as [|op p]; [done|]. cbn [apply_ops]. destruct (apply_operation h (VObj l) op) as [h1 [v| |]]; [|done|done].
    destruct (apply_ops h1 (VObj l) v p) as [h2 [?| |]]; done. }
  destruct (X p h VNil t') as [X1 X2].
  destruct (apply_ops h (VObj l) VNil p) as [h1 [v1| |]], (apply_ops h (VObj l) t' p) as [h2 [v2| |]]; cbn [fst snd] in *; subst; try done.
Qed.
Lemma replay_end l ps p h t h' v : replay_versions h (VObj l) t (ps ++ [p]) = (h', Ok v) -> p <> [] -> v = VObj l.
Proof.
  revert h t. induction ps as [|q ps IH]; intros h t; cbn [app replay_versions].
  - destruct (apply_patch h (VObj l) p) as [h1 [v1| |]] eqn:E; try done. intros [= <- <-] Hp. by apply (apply_patch_in_place h l p h1).
  - destruct (apply_patch h (VObj l) q) as [h1 [v1| |]]; try done. apply IH.
Qed.
Lemma snapshot_first n h L l : consistent L -> l_version L = nats (S n) -> l_snapshots L !! 0%N = Some (VObj l) ->
  (forall v, is_Some (l_snapshots L !! v) -> v = 0%N) -> patch_at L (N.of_nat n) <> [] ->
  fst (fst (snapshot (N.of_nat n) (h, L))) = fst (apply_patch h (VObj l) (all_ops L)) ∧
  snd (snapshot (N.of_nat n) (h, L)) = match snd (apply_patch h (VObj l) (all_ops L)) with Ok _ => Ok (VObj l) | _ => Panic end.
Proof.
  intros HC Hv H0 HS HP. destruct n as [|n].
  { destruct HP. apply no_patch_empty. destruct HC as (k & _ & Hp & _). rewrite Hp. lia. }
  unfold snapshot, find_latest. rewrite (consistent_continuous _ HC). cbn [negb]. unfold last_version. rewrite Hv, nats_last.
  rewrite N.ltb_irrefl.
  assert (EK : sorted_keys (l_snapshots L) = [0%N]).
  { apply sorted_unique_lt; [apply sorted_keys_sorted|repeat constructor|]. apply NoDup_Permutation; [apply sorted_keys_nodup|repeat constructor; set_solver|].
    intros v. rewrite sorted_keys_elem, elem_of_list_singleton. split; [apply HS|]. intros ->. by eexists. }
  rewrite EK. rewrite filter_cons, decide_True by lia. rewrite filter_nil. cbn [last]. rewrite H0. cbn [default from_option id].
  replace (0 =? N.of_nat (S n))%N with false by (symmetry; apply N.eqb_neq; lia).
  assert (EN : l_snapshots L !! N.of_nat (S n) = None).
  { destruct (l_snapshots L !! N.of_nat (S n)) eqn:Es; [|done]. specialize (HS (N.of_nat (S n)) ltac:(by eexists)). lia. }
  rewrite EN. rewrite N.sub_0_r, Nat2N.id.
  set (ps := map (patch_at L) (seqN (0 + 1) (S n))).
  assert (EC : concat ps = all_ops L).
  { unfold ps. rewrite seqN_ops. rewrite (all_ops_one L (S n) HC Hv). f_equal. lia. }
  assert (EL : exists qs, ps = qs ++ [patch_at L (N.of_nat (S n))]).
  { unfold ps. rewrite seqN_range, seq_S, !map_app. eexists. cbn [map]. do 3 f_equal. lia. }
  destruct (replay_concat l ps h VNil VNil) as [R1 R2]. rewrite EC in R1, R2. unfold apply_patch.
  destruct (replay_versions h (VObj l) VNil ps) as [h1 r1] eqn:ER. cbn [fst snd] in R1, R2. subst h1.
  destruct r1 as [v| |]; cbn [fst snd]; destruct (snd (apply_ops h (VObj l) VNil (all_ops L))); try done.
  destruct EL as [qs EL]. rewrite EL in ER. split; [done|]. f_equal. by eapply replay_end.
Qed.
Lemma regroup_snapshot h L L' n n' l : reachable (h, L) -> reachable (h, L') -> all_ops L = all_ops L' ->
  last (l_version L) = Some n -> last (l_version L') = Some n' ->
  l_snapshots L !! 0%N = Some (VObj l) -> l_snapshots L' !! 0%N = Some (VObj l) ->
  (forall v, is_Some (l_snapshots L !! v) -> v = 0%N) -> (forall v, is_Some (l_snapshots L' !! v) -> v = 0%N) ->
  patch_at L n <> [] -> patch_at L' n' <> [] ->
  fst (fst (snapshot n (h, L))) = fst (fst (snapshot n' (h, L'))) ∧ snd (snapshot n (h, L)) = snd (snapshot n' (h, L')).
Proof.
  intros HR HR' E Hn Hn' H0 H0' HS HS' HP HP'. apply reachable_consistent in HR, HR'. cbn in HR, HR'.
  destruct (versions_last L HR) as (k & Hv & Hl), (versions_last L' HR') as (k' & Hv' & Hl').
  assert (n = N.of_nat k) as -> by congruence. assert (n' = N.of_nat k') as -> by congruence.
  destruct (snapshot_first k h L l HR Hv H0 HS HP) as [A1 A2].
  destruct (snapshot_first k' h L' l HR' Hv' H0' HS' HP') as [B1 B2]. by rewrite A1, A2, B1, B2, E.
Qed.
