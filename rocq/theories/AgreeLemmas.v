(** Proofs that the ways to ask a log for changes agree. *)
From Verif Require Import Base BaseSpec BaseSpecLemmas F64 Tson TsonInd TsonSpec Serial Heap HeapSpec Own PatchSpec TreePatch PatchLemmas Patch Logument LogSpec BaseLemmas F64Lemmas LogLemmas
  ChangeLemmas CompactLemmas HistoryLemmas ReplaySpec ReplayLemmas SetLemmas CompactReplay RecompactLemmas TrackUseLemmas RegroupLemmas.
From Coq Require Import Lia.

(** The decoded path starts with the target. *)
Definition leads (target k : string) : Prop := exists rest, decoded k (target +++ rest).
#[global] Instance leads_dec target k : Decision (leads target k) := _ : Decision (under target (Op OAdd k ANil 0)).
Lemma leads_under target p : leads target (op_path p) <-> under target p.
Proof. done. Qed.

(** ** The three that look at all paths *)
Lemma flat_all a b h L m : consistent L -> snd (temporal_track a b (h, L)) = Ok m ->
  flat (l_version L) m = changes [] (filter (in_range a b) (all_ops L)).
Proof.
  intros HC E. destruct (temporal_track_spec a b h L HC) as [_ A]. rewrite E in A. destruct A as [_ A].
  destruct (versions_last L HC) as (n & Hv & _). rewrite (all_ops_count L n Hv), Hv, (flat_changes a b m L A).
  do 3 f_equal. lia.
Qed.
Lemma all_in a b L : (forall p, p ∈ all_ops L -> a <= op_ts p <= b) -> filter (in_range a b) (all_ops L) = all_ops L.
Proof. intros H. apply filter_every. exact H. Qed.
Lemma agree_all a b n h L : reachable (h, L) -> a <= b -> (forall p, p ∈ all_ops L -> a <= op_ts p <= b) ->
  last (l_version L) = Some n ->
  match snd (temporal_track a b (h, L)), compact "" (h, L), track 0 n (h, L) with
  | Ok m, ((_, L1), Ok _), ((_, L2), Ok m') => flat (l_version L) m = all_ops L1 ∧ flat (l_version L) m = all_ops L2 ∧
      flat (l_version L) m' = all_ops L
  | Panic, (_, Panic), (_, Panic) => True
  | _, _, _ => False
  end.
Proof.
  intros HR Hab HA Hn. apply reachable_consistent in HR. cbn in HR.
  destruct (versions_last L HR) as (k & Hv & Hl). assert (n = N.of_nat k) as -> by congruence.
  pose proof (proj2 (temporal_track_spec a b h L HR)) as A. pose proof (flat_all a b h L) as FA.
  pose proof (compact_spec "" h L HR) as B. pose proof (track_spec 0 (N.of_nat k) h L HR) as C.
  rewrite (all_in a b L HA) in A, FA. rewrite <- (all_ops_count L k Hv) in C.
  pose proof (clash_all (all_ops L)) as HCl.
  destruct (snd (temporal_track a b (h, L))) as [m| |]; [|done|].
  - destruct A as [[_ NC] _]. destruct (compact "" (h, L)) as [[h1 L1] [[]| |]] eqn:E1; [|done|tauto].
    destruct (track 0 (N.of_nat k) (h, L)) as [[h2 L2] [m'| |]] eqn:E2; [|done|].
    + destruct (compact_ok "" h L h1 L1 HR E1) as (_ & _ & C1 & _).
      destruct (track_ok _ _ _ _ _ _ _ HR E2) as (_ & _ & T & _ & _ & _ & MA).
      rewrite (FA m HR eq_refl). split; [|split].
      * unfold all_ops at 2. rewrite (cp_version _ _ _ _ C1). symmetry. apply (compacted_all L L1 C1).
      * rewrite (all_ops_count L2 k) by (by rewrite (th_version _ _ (tracked_thinned _ _ _ _ T))).
        rewrite (tracked_ops _ _ _ _ _ T) by lia. by rewrite <- (all_ops_count L k).
      * rewrite Hv, (flat_patches L k m' MA) by lia. replace (N.of_nat (S k)) with (N.of_nat k + 1)%N by lia. by rewrite <- (all_ops_count L k).
    + destruct C as [C|[(x & Hx & C)|C]]; [lia| |tauto]. assert (x = N.of_nat k) by congruence. lia.
  - destruct A as [A|A]; [lia|]. destruct (compact "" (h, L)) as [[h1 L1] [[]| |]]; [tauto|done|].
    destruct (track 0 (N.of_nat k) (h, L)) as [[h2 L2] [m'| |]]; [|done|done]. destruct C as ((C1 & C2 & C3) & _). tauto.
Qed.

(** ** History and TemporalTrack *)
Lemma agree_history orc t a b h L st r m : reachable (h, L) -> (forall vs, or_versions orc vs = vs) ->
  history orc t (h, L) = (st, Ok r) -> (forall p, p ∈ all_ops L -> a <= op_ts p <= b) -> snd (temporal_track a b (h, L)) = Ok m ->
  exists t0, read h (default VNil (l_snapshots L !! 0%N)) = Some t0 ∧
  forall k, leads t k -> alookup k r =
    match filter (fun p => op_path p = k) (flat (l_version L) m) with [] => None | ps => Some (initial_entry t0 k ++ ps) end.
Proof.
  intros HR HO E HA Em. apply reachable_consistent in HR. cbn in HR.
  pose proof (history_spec orc t h L HR ltac:(intros vs; by rewrite HO)) as H. rewrite E in H.
  destruct H as (_ & t0 & Ht & H). exists t0. split; [done|]. intros k Hk. specialize (H k).
  rewrite (flat_all a b h L m HR Em), (all_in a b L HA).
  assert (EF : filter (fun p => op_path p = k) (changes [] (filter (under t) (all_ops L))) = filter (fun p => op_path p = k) (changes [] (all_ops L))).
  { rewrite <- (changes_all [] (all_ops L)), <- (changes_all [] (filter (under t) (all_ops L))). rewrite !filter_nil.
    rewrite !(filter_changes_among (fun p => op_path p = k) (under "")) by (try (intros; by apply under_empty); intros ? ? ->; done).
    rewrite !filter_nil. f_equal. rewrite list_filter_filter. apply filter_ext_iff. intros p. split; [tauto|]. intros <-. split; [done|]. done. }
  rewrite EF in H. destruct (alookup k r) as [ps|].
  - destruct H as (H1 & _ & ps' & -> & _ & H2). rewrite (H2 (HO _)). by destruct (filter _ (changes _ _)).
  - by rewrite H.
Qed.

(** ** History of a longer target *)
Lemma push_filter (P : string -> Prop) {HP : forall k, Decision (P k)} (l : list operation) : forall m,
  filter (fun kv => P (fst kv)) (fold_left push_history l m) =
  fold_left push_history (filter (fun p => P (op_path p)) l) (filter (fun kv => P (fst kv)) m).
Proof.
  assert (AL : forall k (m : list (string * list operation)), P k -> alookup k (filter (fun kv => P (fst kv)) m) = alookup k m).
  { intros k m HK. induction m as [|[k' v] m IH]; [done|]. rewrite filter_cons. cbn [fst alookup].
    destruct (decide (P k')) as [X|X].
    - cbn [alookup]. by rewrite IH.
    - rewrite IH. destruct (decide (k = k')) as [->|N]; done. }
  assert (AI : forall k v (m : list (string * list operation)), filter (fun kv => P (fst kv)) (ainsert k v m) =
    if decide (P k) then ainsert k v (filter (fun kv => P (fst kv)) m) else filter (fun kv => P (fst kv)) m).
  { intros k v m. induction m as [|[k' v'] m IH]; cbn [ainsert].
    - rewrite filter_cons, filter_nil. cbn [fst]. done.
    - destruct (decide (k = k')) as [->|N].
      + rewrite !filter_cons. cbn [fst]. destruct (decide (P k')) as [X|X]; [|done]. cbn [ainsert]. by rewrite decide_True.
      + rewrite !filter_cons. cbn [fst]. rewrite IH. destruct (decide (P k')) as [X|X], (decide (P k)) as [Y|Y]; try done.
        cbn [ainsert]. by rewrite (decide_False _ _ N). }
  induction l as [|p l IH]; intros m; [done|]. cbn [fold_left]. rewrite IH, filter_cons. unfold push_history at 2. rewrite AI.
  destruct (decide (P (op_path p))) as [X|X]; [|done]. cbn [fold_left]. f_equal. unfold push_history. by rewrite AL.
Qed.
Lemma add_initial_filter (P : string -> Prop) {HP : forall k, Decision (P k)} t0 m : forall r, add_initial t0 m = Ok r ->
  add_initial t0 (filter (fun kv => P (fst kv)) m) = Ok (filter (fun kv => P (fst kv)) r).
Proof.
  induction m as [|[k ps] m IH]; intros r; cbn [add_initial].
  - by intros [= <-].
  - destruct (get_value t0 k) as [v| |] eqn:Ev; [|done|done]. destruct (add_initial t0 m) as [r'| |]; [|done|done]. cbn [rbind].
    intros [= <-]. rewrite !filter_cons. cbn [fst]. specialize (IH r' eq_refl). destruct (decide (P k)) as [X|X]; [|done].
    cbn [add_initial]. by rewrite Ev, IH.
Qed.
Lemma agree_longer orc t r h L st m : reachable (h, L) -> history orc t (h, L) = (st, Ok m) ->
  snd (history orc (t +++ r) (h, L)) = Ok (filter (fun kv => leads (t +++ r) (fst kv)) m).
Proof.
  intros HR E. apply reachable_consistent in HR. cbn in HR. revert E.
  unfold history. rewrite (consistent_continuous _ HR). cbn [negb].
  destruct (compact t (h, L)) as [[h1 L1] [[]| |]] eqn:E1; [|done|done].
  destruct (compact_ok t h L h1 L1 HR E1) as (-> & HC1 & C1 & N1).
  assert (PP := under_same t). assert (PP' := under_same (t +++ r)).
  destruct (compact_does (t +++ r) h L HR) as (L2 & E2).
  { intros (pre & p & q & post & EF & H1 & H2). apply N1.
    assert (EG : filter (under (t +++ r)) (all_ops L) = filter (under (t +++ r)) (filter (under t) (all_ops L))).
    { rewrite list_filter_filter. apply filter_ext_iff. intros x. split; [|tauto]. intros X. split; [done|by eapply under_longer]. }
    rewrite EG in EF. apply filter_split in EF as (x & y & -> & <- & <- & HQ). exists x, p, q, y. split; [done|]. split; [|done].
    rewrite last_on_filter in H1; [done|]. intros z Hz. by apply (PP' q). }
  rewrite E2. destruct (compact_ok (t +++ r) h L h L2 HR E2) as (_ & HC2 & C2 & _).
  rewrite (compacted_keys _ _ _ _ C1), (compacted_keys _ _ _ _ C2), (cp_snapshots _ _ _ _ C1), (cp_snapshots _ _ _ _ C2).
  destruct (read h _) as [t0|]; [|done]. intros E. assert (EI : add_initial t0 (collect_history t (map (patch_at L1) (or_versions orc (sorted_keys (l_patches L))))) = Ok m) by congruence.
  clear E. cbn [snd]. apply (add_initial_filter (leads (t +++ r))) in EI. rewrite <- EI. f_equal.
  rewrite (collect_history_same (t +++ r) (patch_at L2) (patch_at L1)).
  - unfold collect_history. rewrite push_filter, filter_nil. f_equal.
    rewrite (filter_bool _ (under (t +++ r))) by apply on_target_under. rewrite (filter_bool _ (under t)) by apply on_target_under.
    rewrite list_filter_filter. apply filter_ext_iff. intros x. rewrite leads_under. split; [|tauto]. intros X. split; [done|by eapply under_longer].
  - intros v. unfold patch_at. rewrite (cp_patches _ _ _ _ C1), (cp_patches _ _ _ _ C2). destruct (l_patches L !! v) as [ps|]; [|done]. cbn.
    rewrite !(filter_changes_among (under (t +++ r)) _ PP'); [|by intros; eapply under_longer|done]. f_equal. rewrite !list_filter_filter.
    apply filter_ext_iff. intros x. split; intros [X _]; (split; [done|]); [by eapply under_longer|done].
Qed.

(** ** A shorter time range *)
Lemma agree_narrow a b a' b' h L m : reachable (h, L) -> StronglySorted (fun p q => op_ts p <= op_ts q) (all_ops L) ->
  a <= a' -> a' <= b' -> b' <= b -> snd (temporal_track a b (h, L)) = Ok m ->
  exists m', snd (temporal_track a' b' (h, L)) = Ok m' ∧
    forall v, filter (in_range a' b') (default [] (m !! v)) `sublist_of` default [] (m' !! v).
Proof.
  intros HR HS H1 H2 H3 E. apply reachable_consistent in HR. cbn in HR.
  destruct (temporal_track_spec a b h L HR) as [_ A]. rewrite E in A. destruct A as [[_ NC] A].
  destruct (temporal_track_spec a' b' h L HR) as [_ B].
  assert (FF : forall l : list operation, filter (in_range a' b') (filter (in_range a b) l) = filter (in_range a' b') l).
  { intros l. rewrite list_filter_filter. apply filter_ext_iff. intros p. unfold in_range. lia. }
  assert (SF : forall l : list operation, StronglySorted (fun p q => op_ts p <= op_ts q) l -> StronglySorted (fun p q => op_ts p <= op_ts q) (filter (in_range a b) l)).
  { intros l. apply ss_sublist. clear. induction l as [|p l IH]; [done|]. rewrite filter_cons. case_decide; by constructor. }
  destruct (snd (temporal_track a' b' (h, L))) as [m'| |]; [|done|].
  - exists m'. split; [done|]. intros v. destruct B as [_ B]. rewrite A, B.
    assert (HX : filter (in_range a' b') (changes (filter (in_range a b) (ops_between L 0 v)) (filter (in_range a b) (patch_at L v))) `sublist_of`
      changes (filter (in_range a' b') (ops_between L 0 v)) (filter (in_range a' b') (patch_at L v))).
    { rewrite <- (FF (ops_between L 0 v)), <- (FF (patch_at L v)). apply range_fewer. rewrite <- filter_app, <- ops_between_snoc by lia. apply SF.
      destruct HR as (n & Hv & Hr). assert (HR : consistent L) by (by exists n).
      destruct (decide (N.of_nat n + 1 <= v + 1)%N) as [X|X]; [by rewrite (ops_beyond L n (v + 1) HR Hv X)|].
      rewrite <- (ops_beyond L n (N.of_nat n + 1)%N HR Hv) in HS by lia.
      rewrite (ops_between_le L 0 (v + 1) (N.of_nat n + 1)) in HS by lia. by apply ss_app_l in HS. }
    by destruct (changes (filter (in_range a b) _) _), (changes (filter (in_range a' b') _) _).
  - exfalso. destruct B as [B|B]; [lia|]. apply NC. destruct B as (pre & p & q & post & EF & HL & HU).
    rewrite <- FF in EF. destruct (range_changed a' b' _ pre q post (SF _ HS) EF) as (x & y & EC & Ex & [HX|HX]); [congruence|].
    exists x, p, q, y. split; [done|]. split; [congruence|done].
Qed.
