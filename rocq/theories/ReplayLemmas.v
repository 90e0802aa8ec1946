(** Logs over an object document. *)
From Verif Require Import Base BaseSpec BaseSpecLemmas F64 Tson BaseLemmas Serial Heap HeapSpec Patch Own PatchSpec TreePatch PatchLemmas
  Logument LogSpec LogLemmas ChangeLemmas CompactLemmas ReplaySpec.
From Coq Require Import Lia.

(** ** One object behind all snapshots *)
Definition one (l : loc) (v : val) : Prop := v = VObj l ∨ v = VNil.

Lemma apply_patch_nil h p h' v : apply_patch h VNil p = (h', Ok v) -> v = VNil.
Proof.
  unfold apply_patch. destruct p as [|op p]; [by intros [= _ <-]|]. cbn [apply_ops].
  unfold apply_operation. destruct (op_parts (op_path op)) eqn:E; [by apply op_parts_ne in E|]. done.
Qed.
Lemma apply_patch_one_obj l h s p h' v : one l s -> apply_patch h s p = (h', Ok v) -> one l v.
Proof.
  intros [-> | ->] E; [|right; by eapply apply_patch_nil].
  apply apply_ops_obj in E as [(_ & -> & _)|[_ ->]]; [by right|by left].
Qed.
Lemma replay_one l h s t ps h' v : one l s -> one l t -> replay_versions h s t ps = (h', Ok v) -> one l v.
Proof.
  revert h t. induction ps as [|p ps IH]; intros h t Hs Ht E; cbn in E; [by injection E as _ <-|].
  destruct (apply_patch h s p) as [h1 [v1| |]] eqn:Ea; [|done|done].
  apply (IH h1 v1 Hs); [by apply (apply_patch_one_obj l h s p h1)|exact E].
Qed.

Definition shared_root (l : loc) (L : logument) : Prop :=
  (forall v s, l_snapshots L !! v = Some s -> one l s) ∧ one l (l_current L).
Lemma snapshot_one l vk h L st' r : consistent L -> (forall v s, l_snapshots L !! v = Some s -> one l s) ->
  snapshot vk (h, L) = (st', Ok r) -> one l r.
Proof.
  intros HC HS E. unfold snapshot in E. pose proof (find_latest_spec L vk HC) as HF.
  destruct (find_latest L vk) as [L1 [[w s]| |]]; [|done|done].
  destruct HF as (-> & _ & Hw & _). apply HS in Hw.
  destruct (if (w =? vk)%N then _ else _) as [h1 [t| |]] eqn:Er; [|done|done].
  assert (Ht : one l t).
  { destruct (w =? vk)%N; [by injection Er as _ <-|]. eapply replay_one; [exact Hw|by right|exact Er]. }
  destruct (l_snapshots L !! vk); by injection E as _ <-.
Qed.
Lemma temporal_snapshot_one l orc ts h L st' r : (forall v s, l_snapshots L !! v = Some s -> one l s) ->
  temporal_snapshot orc ts (h, L) = (st', Ok r) -> one l r.
Proof.
  intros HS E. unfold temporal_snapshot in E. destruct (l_version L) as [|v0 vs]; [done|].
  destruct (last_version L) as [vl|]; [|done].
  destruct (pick_snapshot _ _ _ _ _) as [v| |]; [|done|done].
  assert (Hs : one l (default VNil (l_snapshots L !! v))).
  { destruct (l_snapshots L !! v) eqn:Ev; [by eapply HS|by right]. }
  assert (HG : forall L2 h s p, one l s ->
    match apply_patch h s p with (h1, Ok t) => (((h1, L2) : state), Ok t) | (h1, _) => ((h1, L2), Panic) end = (st', Ok r) -> one l r).
  { intros L2 h2 s p Hs2 E2. destruct (apply_patch h2 s p) as [h1 [t| |]] eqn:Ea; [|done|done].
    injection E2 as _ <-. by eapply apply_patch_one_obj. }
  destruct (vl <=? v)%N.
  - destruct (l_pool L); [|by injection E as _ <-].
    destruct (append (h, L)) as [[ha La] ra]. by eapply HG in E.
  - by eapply HG in E.
Qed.

(** The snapshot of version 0 never changes. *)
Lemma insert_zero (m : gmap N val) vk t x : m !! 0%N = Some x -> m !! vk = None -> <[vk := t]> m !! 0%N = Some x.
Proof. intros H1 H2. rewrite lookup_insert_ne; [done|]. intros ->. congruence. Qed.

Lemma append_snaps h L : consistent L ->
  l_snapshots (snd (fst (append (h, L)))) = l_snapshots L ∧ l_current (snd (fst (append (h, L)))) = l_current L
  ∧ fst (fst (append (h, L))) = h.
Proof.
  intros HC. destruct (append_cases h L HC) as [_ H]. destruct (l_pool L) as [ps|]; [|by rewrite H].
  destruct H as (n & _ & _ & ->). done.
Qed.
Lemma touch_snaps L v ps : l_snapshots (touch_patch L v ps) = l_snapshots L ∧ l_current (touch_patch L v ps) = l_current L.
Proof. unfold touch_patch. by destruct (l_patches L !! v). Qed.
Lemma temporal_snapshot_snaps orc ts h L : consistent L ->
  l_snapshots (snd (fst (temporal_snapshot orc ts (h, L)))) = l_snapshots L ∧
  l_current (snd (fst (temporal_snapshot orc ts (h, L)))) = l_current L.
Proof.
  intros HC. pose proof (temporal_snapshot_log orc ts h L HC) as HT.
  destruct (temporal_snapshot orc ts (h, L)) as [[h' L'] r]. cbn.
  destruct HT as [->|(L1 & v & HL1 & ->)]; [done|].
  destruct (touch_snaps L1 v (or_sort orc (patch_at L1 v))) as [-> ->].
  destruct HL1 as [->|[_ ->]]; [done|]. by destruct (append_snaps h L HC) as (-> & -> & _).
Qed.

Lemma set_root l op h L : shared_root l L -> shared_root l (snd (fst (set op (h, L)))).
Proof.
  intros [HS HC]. unfold set. destruct (is_set _); [|done]. cbn [negb].
  destruct (apply_operation _ _ _) as [h1 [v| |]] eqn:Ea; [|split; [done|by right]|done].
  split; [done|]. cbn. rewrite <- apply_patch_one in Ea. by eapply apply_patch_one_obj.
Qed.
Lemma snapshot_root l vk h L : consistent L -> shared_root l L -> shared_root l (snd (fst (snapshot vk (h, L)))).
Proof.
  intros HC [HS HU]. pose proof (snapshot_log vk h L HC) as HL.
  destruct (snapshot vk (h, L)) as [[h' L'] r] eqn:E. destruct HL as (n & Hn & [->|(t & -> & Hle & Hno & ->)]); [done|].
  split; [|done]. cbn. intros v s Hv. apply lookup_insert_Some in Hv as [[_ <-]|[_ Hv]]; [|by eapply HS].
  by eapply snapshot_one.
Qed.
Lemma snapshot_zero vk h L x : consistent L -> l_snapshots L !! 0%N = Some x ->
  l_snapshots (snd (fst (snapshot vk (h, L)))) !! 0%N = Some x.
Proof.
  intros HC H0. pose proof (snapshot_log vk h L HC) as HL.
  destruct (snapshot vk (h, L)) as [[h' L'] r] eqn:E. destruct HL as (n & Hn & [->|(t & -> & Hle & Hno & ->)]); [done|].
  by apply insert_zero.
Qed.

Lemma run_call_root l c h L : consistent L -> shared_root l L ->
  shared_root l (snd (run_call (h, L) c)) .
Proof.
  intros HC HR. pose proof HR as [HS HU].
  assert (Hsame : forall L', l_snapshots L' = l_snapshots L -> l_current L' = l_current L -> shared_root l L').
  { intros L' E1 E2. split; [by rewrite E1|by rewrite E2]. }
  destruct c; cbn [run_call].
  - pose proof (store_shape p h L) as H. destruct (store p (h, L)) as [[h' L'] r]. destruct H as (_ & _ & E & _ & E2). by apply Hsame.
  - apply Hsame; by apply append_snaps.
  - by apply snapshot_root.
  - apply Hsame; by apply temporal_snapshot_snaps.
  - destruct (slice_log vi vj h L HC) as [->| ->]; [done|]. by apply snapshot_root.
  - destruct (temporal_slice_log orc tsi tsj h L HC) as [->| ->]; [done|]. apply Hsame; by apply temporal_snapshot_snaps.
  - destruct (track_shape vi vj h L HC) as ((_ & E & _) & _ & E2 & _). by apply Hsame.
  - unfold temporal_track. by destruct (tsj <? tsi).
  - by apply set_root.
  - destruct (test_set_cases op (h, L)) as [->|(op' & ->)]; [done|]. by apply set_root.
  - destruct (compact_shape target h L HC) as ((_ & E & _) & _ & E2 & _). by apply Hsame.
  - rewrite history_log by done. destruct (compact_shape target h L HC) as ((_ & E & _) & _ & E2 & _). by apply Hsame.
Qed.
Lemma run_call_zero c h L x : consistent L -> l_snapshots L !! 0%N = Some x ->
  l_snapshots (snd (run_call (h, L) c)) !! 0%N = Some x.
Proof.
  intros HC H0. destruct c; cbn [run_call].
  - pose proof (store_shape p h L) as H. destruct (store p (h, L)) as [[h' L'] r]. destruct H as (_ & _ & E & _). cbn. by rewrite E.
  - by rewrite (proj1 (append_snaps h L HC)).
  - by apply snapshot_zero.
  - by rewrite (proj1 (temporal_snapshot_snaps orc ts h L HC)).
  - destruct (slice_log vi vj h L HC) as [->| ->]; [done|]. by apply snapshot_zero.
  - destruct (temporal_slice_log orc tsi tsj h L HC) as [->| ->]; [done|]. by rewrite (proj1 (temporal_snapshot_snaps orc tsi h L HC)).
  - destruct (track_shape vi vj h L HC) as ((_ & E & _) & _). by rewrite E.
  - unfold temporal_track. by destruct (tsj <? tsi).
  - destruct (set_log op h L) as ((_ & E & _) & _). by rewrite E.
  - destruct (test_set_cases op (h, L)) as [->|(op' & ->)]; [done|]. destruct (set_log op' h L) as ((_ & E & _) & _). by rewrite E.
  - destruct (compact_shape target h L HC) as ((_ & E & _) & _). by rewrite E.
  - rewrite history_log by done. destruct (compact_shape target h L HC) as ((_ & E & _) & _). by rewrite E.
Qed.

Lemma new_root T i p h h' L : new_logument T i p h = (h', Ok L) ->
  exists v, l_snapshots L = {[ 0%N := v ]} ∧ l_current L = v ∧ l_version L = [0%N] ∧ l_patches L = ∅.
Proof.
  assert (HM : forall h v, (match p with
      | None => (h, Ok (Lgm [0%N] v {[ 0%N := v ]} ∅ None))
      | Some p => match store p (h, Lgm [0%N] v {[ 0%N := v ]} ∅ None) with
                | ((h', L'), Ok _) => (h', Ok L')
                | ((h', _), _) => (h', Panic)
                end end) = (h', Ok L) -> exists v, l_snapshots L = {[ 0%N := v ]} ∧ l_current L = v ∧ l_version L = [0%N] ∧ l_patches L = ∅).
  { intros h1 v E. exists v. destruct p as [p|]; [|by injection E as _ <-].
    pose proof (store_shape p h1 (Lgm [0%N] v {[0%N := v]} ∅ None)) as H.
    destruct (store p _) as [[h2 L2] [u| |]]; [|done|done]. injection E as _ <-.
    destruct H as (_ & E1 & E2 & E3 & E4). done. }
  unfold new_logument. destruct i as [s|v|]; [| |done].
  - destruct (unmarshal T s); [|done|done]. destruct (alloc_tree h a). apply HM.
  - destruct v; try done; apply HM.
Qed.

Lemma reachable_root st l : reachable st -> l_snapshots (snd st) !! 0%N = Some (VObj l) -> shared_root l (snd st).
Proof.
  intros HR. revert l. induction HR as [T i p h h' L H|[h L] c HR IH Hc|h h' L HR IH]; intros l H0.
  - destruct (new_root _ _ _ _ _ _ H) as (v & E1 & E2 & _). cbn in *. rewrite E1, lookup_singleton in H0.
    injection H0 as ->. split; [|rewrite E2; by left].
    rewrite E1. intros w s Hw. apply lookup_singleton_Some in Hw as [_ <-]. by left.
  - apply reachable_consistent in HR as HC. cbn in HC.
    destruct HC as (n & HC'). pose proof (ex_intro _ n HC' : consistent L) as HC. destruct HC' as (_ & _ & _ & [x Hx]).
    rewrite (run_call_zero c h L x HC Hx) in H0. injection H0 as ->.
    apply run_call_root; [done|]. by apply IH.
  - by apply IH.
Qed.

(** ** Replay of an unshared document *)
Lemma doc_unique h v t t' : doc_of h v t -> doc_of h v t' -> t = t'.
Proof. intros H1 H2. apply read_doc in H1, H2. congruence. Qed.
Lemma doc_obj h l t : doc_of h (VObj l) t -> is_obj t.
Proof. intros (lt & _ & Hr & <-). by destruct lt. Qed.
Lemma applied_papply t ops t' : applied t ops t' -> papply t ops = (t', Ok tt).
Proof.
  intros (h & l & h' & r & HD & E & HD'). pose proof (apply_patch_doc _ _ _ _ _ _ HD E) as HX.
  destruct (papply t ops) as [t1 [[]| |]]; try done. destruct HX as [HX _]. by rewrite (doc_unique _ _ _ _ HX HD').
Qed.
Lemma obj_has_doc t : is_obj t -> (exists h l, doc_of h (VObj l) t) .
Proof.
  intros Ht. destruct (alloc_tree [] t) as [h v] eqn:E. pose proof (alloc_tree_doc _ _ _ _ E) as HD.
  assert (exists l, v = VObj l) as [l ->].
  { destruct HD as (lt & _ & Hr & He). subst t. destruct lt; try done. cbn in Hr. by eexists. }
  by exists h, l.
Qed.
Lemma papply_applied t ops t' : is_obj t -> papply t ops = (t', Ok tt) -> applied t ops t'.
Proof.
  intros Ht E. destruct (obj_has_doc t Ht) as (h & l & HD).
  destruct (apply_patch h (VObj l) ops) as [h' r] eqn:Ea. pose proof (apply_patch_doc _ _ _ _ _ _ HD Ea) as HX.
  rewrite E in HX. destruct r as [v| |]; try done. exists h, l, h', v. split; [done|]. split; [done|]. by destruct HX.
Qed.
Lemma applied_prefix t p q t' : applied t (p ++ q) t' -> exists t1, applied t p t1 ∧ papply t1 q = (t', Ok tt).
Proof.
  intros H. assert (Ht : is_obj t) by (destruct H as (h & l & h' & r & HD & _); by eapply doc_obj).
  apply applied_papply in H. rewrite papply_app in H.
  destruct (papply t p) as [t1 [[]| |]] eqn:E; try done. exists t1. split; [by apply papply_applied|done].
Qed.

Lemma replay_doc ps : forall h l t s h' r t', doc_of h (VObj l) t -> papply t (concat ps) = (t', Ok tt) ->
  replay_versions h (VObj l) s ps = (h', r) ->
  doc_of h' (VObj l) t' ∧
  r = Ok match last ps with None => s | Some [] => VNil | Some _ => VObj l end.
Proof.
  induction ps as [|p ps IH]; intros h l t s h' r t' HD E Er.
  - cbn in *. injection E as <-. by injection Er as <- <-.
  - cbn [concat replay_versions] in *. rewrite papply_app in E.
    destruct (apply_patch h (VObj l) p) as [h1 r1] eqn:Ea. pose proof (apply_patch_doc _ _ _ _ _ _ HD Ea) as HX.
    destruct (papply t p) as [t1 [[]| |]]; try done. destruct r1 as [v1| |]; try done. destruct HX as [HD1 ->].
    destruct (IH _ _ _ _ _ _ _ HD1 E Er) as [HD2 ->]. split; [done|].
    destruct ps as [|p2 ps]; [cbn; by destruct p|]. change (last (p :: p2 :: ps)) with (last (p2 :: ps)).
    destruct (last (p2 :: ps)) eqn:El; [done|]. by apply last_None in El.
Qed.
Lemma seqN_range lo n : seqN lo n = map (fun i => (lo + N.of_nat i)%N) (seq 0 n).
Proof.
  revert lo. induction n as [|n IH]; intros lo; [done|]. cbn [seqN seq map]. rewrite IH, N.add_0_r. f_equal.
  rewrite <- seq_shift, map_map. apply map_ext. intros i. lia.
Qed.
Lemma seqN_ops L v n : concat (map (patch_at L) (seqN (v + 1) n)) = ops_between L (v + 1) (v + 1 + N.of_nat n).
Proof.
  rewrite seqN_range, map_map. unfold ops_between. do 3 f_equal. lia.
Qed.
Lemma seqN_last v n : last (seqN (v + 1) (S n)) = Some (v + 1 + N.of_nat n)%N.
Proof. rewrite seqN_range, seq_S, map_app. cbn [map]. by rewrite last_snoc. Qed.

(** The document shows version [k], the latest one with a snapshot. *)
Definition shows (h : heap) (L : logument) (l : loc) (t0 : tson) (k : N) : Prop :=
  l_snapshots L !! k = Some (VObj l) ∧ (forall u, is_Some (l_snapshots L !! u) -> (u <= k)%N) ∧
  exists t, doc_of h (VObj l) t ∧ papply t0 (ops_between L 1 (k + 1)) = (t, Ok tt).

Lemma snapshot_shows h L l t0 k vk t' n : consistent L -> l_version L = nats (S n) ->
  shows h L l t0 k -> (k <= vk <= N.of_nat n)%N ->
  has_ops L vk -> papply t0 (ops_between L 1 (vk + 1)) = (t', Ok tt) ->
  exists h' L', snapshot vk (h, L) = ((h', L'), Ok (VObj l)) ∧ doc_of h' (VObj l) t' ∧
    shows h' L' l t0 vk ∧ l_patches L' = l_patches L ∧ l_version L' = l_version L ∧ l_pool L' = l_pool L.
Proof.
  intros HC Hn (HS & Hmax & t & HD & Ht) Hk Hops E. unfold snapshot.
  pose proof (find_latest_spec L vk HC) as HF.
  destruct (find_latest L vk) as [L1 [[w s]| |]]; [|done|].
  2:{ destruct HF as (_ & n' & Hn' & Hlt). rewrite Hn in Hn'. apply (f_equal last) in Hn'.
      rewrite !nats_last in Hn'. assert (N.of_nat n = N.of_nat n') by congruence. lia. }
  destruct HF as (-> & Hw & Hs & Hwmax & _).
  assert (w = k) as ->.
  { assert (w <= k)%N by (apply Hmax; by eexists). assert (k <= w)%N by (apply Hwmax; [by eexists|lia]). lia. }
  rewrite HS in Hs. injection Hs as <-. destruct (N.eqb_spec k vk) as [->|Hne].
  - rewrite HS. exists h, L. rewrite Ht in E. injection E as ->. split; [done|]. split; [done|].
    split; [|done]. split; [done|]. split; [done|]. by exists t'.
  - destruct (N.to_nat (vk - k)) as [|d] eqn:Ed; [lia|].
    assert (Evk : vk = (k + 1 + N.of_nat d)%N) by lia.
    destruct (replay_versions _ _ _ _) as [h1 r] eqn:Er.
    rewrite (ops_between_le L 1 (k + 1) (vk + 1)) in E by lia. rewrite papply_app, Ht in E.
    assert (Eop : ops_between L (k + 1) (vk + 1) = concat (map (patch_at L) (seqN (k + 1) (S d)))).
    { rewrite seqN_ops. f_equal. lia. }
    rewrite Eop in E. destruct (replay_doc _ _ _ _ _ _ _ _ HD E Er) as [HD' ->].
    rewrite fmap_last, seqN_last. cbn [fmap option_fmap option_map]. rewrite <- Evk.
    assert (Hp : patch_at L vk <> []) by (apply Hops; lia).
    destruct (patch_at L vk) as [|o os] eqn:Ep; [done|].
    assert (Hnone : l_snapshots L !! vk = None).
    { destruct (l_snapshots L !! vk) eqn:Ev; [|done]. assert (vk <= k)%N by (apply Hmax; by eexists). lia. }
    rewrite Hnone. do 2 eexists. split; [reflexivity|]. split; [done|]. split; [|done].
    split; [cbn; apply lookup_insert|]. split.
    + intros u [x Hu]. cbn in Hu. apply lookup_insert_Some in Hu as [[<- _]|[_ Hu]]; [lia|].
      assert (u <= k)%N by (apply Hmax; by eexists). lia.
    + exists t'. split; [done|]. rewrite (ops_between_le _ 1 (k + 1) (vk + 1)) by lia.
      change (ops_between (with_snapshots L (<[vk:=VObj l]> (l_snapshots L)))) with (ops_between L).
      by rewrite papply_app, Ht, Eop.
Qed.

Definition grows (L L' : logument) : Prop := forall v ps, l_patches L !! v = Some ps -> l_patches L' !! v = Some ps.
Lemma ascending_keeps k c cs : ascending k (c :: cs) -> keeps_patches c ∧ exists k', ascending k' cs.
Proof. destruct c; cbn; try done; intros H; (split; [done|]); try by exists k. destruct H as [_ H]. by eexists. Qed.
Lemma ascending_grows cs : forall k h L, consistent L -> ascending k cs ->
  consistent (snd (run (h, L) cs)) ∧ grows L (snd (run (h, L) cs)).
Proof.
  induction cs as [|c cs IH]; intros k h L HC HA; [by split; [|intros v ps Hv]|].
  destruct (ascending_keeps _ _ _ HA) as (Hk & k' & HA').
  cbn [run fold_left]. pose proof (run_call_consistent c h L HC) as HC1.
  destruct (run_call (h, L) c) as [h1 L1] eqn:E. cbn [snd] in HC1.
  destruct (IH k' h1 L1 HC1 HA') as [IH1 IH2]. split; [exact IH1|].
  intros v ps Hv. apply IH2. change L1 with (snd (h1, L1)). rewrite <- E. by apply keeps_lemma.
Qed.
Lemma grows_ops L L' n k : l_version L = nats (S n) -> consistent L -> grows L L' -> (k <= N.of_nat n)%N ->
  ops_between L' 1 (k + 1) = ops_between L 1 (k + 1).
Proof.
  intros Hn (n' & Hv & Hp & _) HG Hk. assert (n' = n) as ->.
  { rewrite Hn in Hv. apply (f_equal last) in Hv. change (map N.of_nat (seq 0 (S n'))) with (nats (S n')) in Hv.
    rewrite !nats_last in Hv. assert (N.of_nat n = N.of_nat n') by congruence. lia. }
  unfold ops_between. f_equal. apply map_ext_in. intros i Hi. apply in_seq in Hi. unfold patch_at.
  destruct (l_patches L !! (1 + N.of_nat i)%N) as [ps|] eqn:E; [by rewrite (HG _ _ E)|].
  assert (HS : is_Some (l_patches L !! (1 + N.of_nat i)%N)) by (apply Hp; lia). rewrite E in HS. by destruct HS.
Qed.
Lemma all_ops_one L n : consistent L -> l_version L = nats (S n) -> all_ops L = ops_between L 1 (N.of_nat n + 1).
Proof.
  intros HC Hn. unfold all_ops. rewrite Hn, nats_last. rewrite (ops_between_le L 0 1) by lia.
  change (ops_between L 0 1) with (patch_at L 0 ++ []). rewrite no_patch_empty; [done|].
  destruct HC as (n' & _ & Hp & _). rewrite Hp. lia.
Qed.
Lemma papply_upto L n k t0 t' : consistent L -> l_version L = nats (S n) -> (k <= N.of_nat n)%N ->
  papply t0 (all_ops L) = (t', Ok tt) -> exists t, papply t0 (ops_between L 1 (k + 1)) = (t, Ok tt).
Proof.
  intros HC Hn Hk E. rewrite (all_ops_one L n) in E by done. rewrite (ops_between_le L 1 (k + 1)), papply_app in E by lia.
  destruct (papply t0 (ops_between L 1 (k + 1))) as [t [[]| |]]; try done. by exists t.
Qed.
Lemma versions_of L : consistent L -> exists n, l_version L = nats (S n).
Proof. intros (n & H & _). by exists n. Qed.
Lemma version_count L n n' : l_version L = nats (S n) -> l_version L = nats (S n') -> n = n'.
Proof.
  intros -> E. apply (f_equal last) in E. rewrite !nats_last in E. assert (N.of_nat n = N.of_nat n') by congruence. lia.
Qed.
Lemma grows_count L L' n n' : consistent L -> consistent L' -> grows L L' ->
  l_version L = nats (S n) -> l_version L' = nats (S n') -> (n <= n')%nat.
Proof.
  intros (m & Hm & Hp & _) (m' & Hm' & Hp' & _) HG Hn Hn'.
  assert (m = n) as -> by (by eapply version_count). assert (m' = n') as -> by (by eapply version_count).
  destruct n as [|n]; [lia|]. destruct (Hp (N.of_nat (S n))) as [_ HH]. destruct HH as [ps HS]; [lia|].
  apply HG in HS. assert (HI : is_Some (l_patches L' !! N.of_nat (S n))) by (by eexists). apply Hp' in HI. lia.
Qed.

Lemma ascending_shows l t0 tE cs : forall k kq h L, consistent L -> shows h L l t0 k -> (k <= kq)%N -> ascending kq cs ->
  papply t0 (all_ops (snd (run (h, L) cs))) = (tE, Ok tt) ->
  (forall w, CSnapshot w ∈ cs -> has_ops (snd (run (h, L) cs)) w) ->
  exists k', shows (fst (run (h, L) cs)) (snd (run (h, L) cs)) l t0 k' ∧ (k' = k ∨ CSnapshot k' ∈ cs).
Proof.
  induction cs as [|c cs IH]; intros k kq h L HC HS Hk HA HE HQ.
  - exists k. split; [done|by left].
  - pose proof (ascending_grows _ _ h L HC HA) as [HCf HGf].
    pose proof (run_call_consistent c h L HC) as HC1.
    assert (Hstep : exists k1 kq1, shows (fst (run_call (h, L) c)) (snd (run_call (h, L) c)) l t0 k1 ∧ (k1 <= kq1)%N ∧ ascending kq1 cs
      ∧ (k1 = k ∨ c = CSnapshot k1)).
    { destruct HS as (HS1 & HS2 & t & HD & Ht).
      destruct (versions_of L HC) as [n Hn].
      assert (Hkn : (k <= N.of_nat n)%N).
      { destruct HC as (m & Hm & _ & Hs & _). assert (m = n) as -> by (by eapply version_count). apply Hs. by eexists. }
      assert (Hsame : l_snapshots (snd (run_call (h, L) c)) = l_snapshots L -> fst (run_call (h, L) c) = h ->
        grows L (snd (run_call (h, L) c)) -> shows (fst (run_call (h, L) c)) (snd (run_call (h, L) c)) l t0 k).
      { intros E1 E2 HG. split; [by rewrite E1|]. split; [by rewrite E1|]. exists t. rewrite E2. split; [done|].
        by rewrite (grows_ops L _ n). }
      assert (Hg : keeps_patches c -> grows L (snd (run_call (h, L) c))).
      { intros Hk' v ps Hv. by apply keeps_lemma. }
      destruct c; try done; cbn [ascending] in HA.
      - exists k, kq. split; [|auto]. pose proof (store_shape p h L) as H. cbn [run_call] in *.
        destruct (store p (h, L)) as [[h' L'] r]. destruct H as (E1 & E2 & E3 & _). by apply Hsame; [..|apply Hg].
      - exists k, kq. split; [|auto]. apply Hsame; [apply append_snaps; done|apply append_snaps; done|by apply Hg].
      - destruct HA as [Hv HA]. cbn [run_call].
        destruct (decide (v <= N.of_nat n)%N) as [Hvn|Hvn].
        + destruct (versions_of _ HCf) as [nf Hnf].
          pose proof (grows_count _ _ _ _ HC HCf HGf Hn Hnf) as Hle.
          destruct (papply_upto _ nf v t0 tE HCf Hnf ltac:(lia) HE) as [tv Hv1].
          rewrite (grows_ops L _ n) in Hv1 by done.
          destruct (snapshot_shows h L l t0 k v tv n) as (h' & L' & E & HD' & HS' & _); [done|done|by split; [|split; [|exists t]]|lia| |done|].
          { intros H0. specialize (HQ v (elem_of_list_here _ _) H0). unfold patch_at in *.
            destruct (l_patches L !! v) as [ps|] eqn:Ep; [by rewrite (HGf _ _ Ep) in HQ|].
            destruct HC as (m & Hm & Hp & _). assert (m = n) as -> by (by eapply version_count).
            assert (HI : is_Some (l_patches L !! v)) by (apply Hp; lia). rewrite Ep in HI. by destruct HI. }
          rewrite E. exists v, v. split; [done|]. split; [lia|]. auto.
        + exists k, v. split; [|split; [lia|auto]].
          assert (E : snapshot v (h, L) = ((h, L), Panic)).
          { unfold snapshot. pose proof (find_latest_spec L v HC) as HF.
            destruct (find_latest L v) as [L1 [[w s]| |]]; [|done|by destruct HF as [-> _]].
            destruct HF as (_ & _ & _ & _ & n' & Hn' & Hle). assert (n' = n) as -> by (by eapply version_count). lia. }
          rewrite E. split; [done|]. split; [done|]. by exists t.
      - exists k, kq. split; [|auto]. assert (E : run_call (h, L) (CTemporalTrack tsi tsj) = (h, L)).
        { cbn [run_call]. unfold temporal_track. by destruct (tsj <? tsi). }
        rewrite E in *. split; [done|]. split; [done|]. by exists t. }
    destruct Hstep as (k1 & kq1 & HS1 & Hk1 & HA1 & Hor).
    change (run (h, L) (c :: cs)) with (run (run_call (h, L) c) cs) in *.
    destruct (run_call (h, L) c) as [h1 L1]. cbn [fst snd] in *.
    destruct (IH k1 kq1 h1 L1 HC1 HS1 Hk1 HA1 HE) as (k' & HS' & Hor').
    { intros w Hw. apply HQ. by apply elem_of_list_further. }
    exists k'. split; [done|]. destruct Hor' as [->|Hin]; [|right; by apply elem_of_list_further].
    destruct Hor as [->| ->]; [by left|right; apply elem_of_list_here].
Qed.

Lemma snapshot_replays T i p h h0 L0 l t0 cs v tE :
  new_logument T i p h = (h0, Ok L0) -> l_snapshots L0 !! 0%N = Some (VObj l) -> doc_of h0 (VObj l) t0 ->
  let st := run (h0, L0) cs in
  ascending 0 cs -> (forall w, CSnapshot w ∈ cs -> (w <= v)%N) -> v ∈ l_version (snd st) ->
  (forall w, CSnapshot w ∈ cs -> has_ops (snd st) w) -> has_ops (snd st) v ->
  applied t0 (all_ops (snd st)) tE ->
  exists st' t', snapshot v st = (st', Ok (VObj l)) ∧ doc_of (fst st') (VObj l) t' ∧
    applied t0 (ops_between (snd st) 1 (v + 1)) t'.
Proof.
  intros HN H0 HD st HA Hmax Hv HQ Hov HE.
  pose proof (new_consistent _ _ _ _ _ _ HN) as HC. destruct (new_root _ _ _ _ _ _ HN) as (x & E1 & _ & _ & E4).
  assert (HS : shows h0 L0 l t0 0).
  { split; [done|]. split.
    - intros u [y Hu]. rewrite E1 in Hu. apply lookup_singleton_Some in Hu as [<- _]. done.
    - exists t0. split; [done|]. rewrite ops_between_empty by lia. done. }
  assert (Ht0 : is_obj t0) by (by eapply doc_obj).
  apply applied_papply in HE. destruct (ascending_shows l t0 tE cs 0 0 h0 L0 HC HS ltac:(lia) HA HE HQ) as (k & HSk & Hk).
  fold st in HSk. destruct (ascending_grows _ _ h0 L0 HC HA) as [HCf _]. fold st in HCf.
  destruct (versions_of _ HCf) as [n Hn].
  assert (Hvn : (v <= N.of_nat n)%N).
  { rewrite Hn in Hv. unfold nats in Hv. apply elem_of_list_fmap in Hv as (y & -> & Hy). apply elem_of_seq in Hy. lia. }
  destruct (papply_upto _ n v t0 tE HCf Hn Hvn HE) as [t' Ht'].
  assert (Hkv : (k <= v)%N) by (destruct Hk as [->|Hk]; [lia|by apply Hmax]).
  destruct (snapshot_shows _ _ _ _ _ v t' n HCf Hn HSk) as (h' & L' & E & HD' & _); [lia|done|done|].
  exists (h', L'), t'. rewrite <- surjective_pairing in E. split; [done|]. split; [done|]. by apply papply_applied.
Qed.

Lemma queries_one h L l v w st1 st2 s s' : reachable (h, L) -> l_snapshots L !! 0%N = Some (VObj l) ->
  snapshot v (h, L) = (st1, Ok s) -> snapshot w st1 = (st2, Ok s') -> one l s ∧ one l s'.
Proof.
  intros HR H0 E1 E2. pose proof (reachable_consistent _ HR) as HC. cbn in HC.
  destruct (reachable_root _ _ HR H0) as [HS _]. split; [by eapply snapshot_one|].
  assert (HR1 : reachable st1).
  { replace st1 with (run_call (h, L) (CSnapshot v)) by (cbn [run_call]; by rewrite E1). by apply reach_call. }
  destruct st1 as [h1 L1]. pose proof (reachable_consistent _ HR1) as HC1.
  assert (H1 : l_snapshots L1 !! 0%N = Some (VObj l)).
  { pose proof (snapshot_zero v h L _ HC H0) as H. by rewrite E1 in H. }
  destruct (reachable_root _ _ HR1 H1) as [HS1 _]. by eapply snapshot_one.
Qed.
