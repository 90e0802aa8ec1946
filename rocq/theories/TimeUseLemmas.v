(** Proofs about logs made by TemporalSlice that are used further. *)
From Verif Require Import Base BaseSpec BaseSpecLemmas F64 Tson Serial Heap Patch Logument LogSpec BaseLemmas F64Lemmas LogLemmas
  ChangeLemmas CompactLemmas HistoryLemmas SliceLemmas SliceUseSpec SliceUseLemmas TimeUseSpec.
From Coq Require Import Lia.

(** [R] has the operations of [L] within the times. *)
Record cut (tsi tsj : Z) (L R : logument) : Prop := Cut {
  c_version : l_version R = concat (map (fun v => replicate (length (kept tsi tsj L v)) v) (sorted_keys (l_patches L)));
  c_patches : forall v, l_patches R !! v = match kept tsi tsj L v with [] => None | ps => Some ps end;
  c_pool : l_pool R = None
}.
Lemma slice_cut orc tsi tsj h L st' R : reachable (h, L) -> temporal_slice orc tsi tsj (h, L) = (st', Ok R) -> cut tsi tsj L R.
Proof.
  intros HR Es. apply reachable_consistent in HR. cbn in HR.
  pose proof (temporal_slice_spec orc tsi tsj h L HR) as H. rewrite Es in H.
  destruct H as (_ & Hpool & _ & Hv & Hp & _). by constructor.
Qed.
Lemma kept_in tsi tsj L v : kept tsi tsj L v <> [] -> v ∈ sorted_keys (l_patches L).
Proof.
  intros H. destruct (decide (v ∈ sorted_keys (l_patches L))) as [?|Hn]; [done|]. destruct H. unfold kept.
  rewrite sorted_keys_elem in Hn. by rewrite no_patch_empty.
Qed.

Section cut.
Context (tsi tsj : Z) (L R : logument) (HC : cut tsi tsj L R).
Notation K := (kept tsi tsj L).

Lemma cut_patch_at v : patch_at R v = K v.
Proof. unfold patch_at. rewrite (c_patches _ _ _ _ HC). by destruct (K v). Qed.
Lemma cut_keys_elem v : v ∈ sorted_keys (l_patches R) <-> K v <> [].
Proof.
  rewrite sorted_keys_elem, (c_patches _ _ _ _ HC). destruct (K v); [|split; [done|by eexists]].
  split; [by intros [? ?]|done].
Qed.
Lemma cut_keys : sorted_keys (l_patches R) = filter (fun v => K v <> []) (sorted_keys (l_patches L)).
Proof.
  apply sorted_unique_lt; [apply sorted_keys_sorted|apply filter_sorted, sorted_keys_sorted|].
  apply NoDup_Permutation; [apply sorted_keys_nodup|apply NoDup_filter, sorted_keys_nodup|].
  intros v. rewrite elem_of_list_filter, cut_keys_elem. split; [|by intros [? _]].
  intros H. split; [done|]. by apply (kept_in tsi tsj).
Qed.
Lemma cut_version_elem v : v ∈ l_version R <-> K v <> [].
Proof.
  rewrite (c_version _ _ _ _ HC), elem_of_list_In, in_concat. split.
  - intros (l & Hl & Hv). apply in_map_iff in Hl as (w & <- & _). apply elem_of_list_In, elem_of_replicate in Hv as [-> Hv].
    destruct (K w); [cbn in Hv; lia|done].
  - intros H. exists (replicate (length (K v)) v). split.
    + apply in_map_iff. exists v. split; [done|]. apply elem_of_list_In. by apply (kept_in tsi tsj).
    + apply elem_of_list_In, elem_of_replicate. split; [done|]. destruct (K v); [done|]. cbn. lia.
Qed.
End cut.

(** ** The version list *)
Lemma replicate_app_sorted n v l : StronglySorted N.le l -> Forall (N.le v) l -> StronglySorted N.le (replicate n v ++ l).
Proof.
  intros HS HF. induction n as [|n IH]; [done|]. cbn. constructor; [done|]. apply Forall_app. split; [|done].
  apply Forall_forall. intros x Hx. apply elem_of_replicate in Hx as [-> _]. lia.
Qed.
Lemma replicates_sorted (f : N -> nat) vs : StronglySorted N.le vs -> StronglySorted N.le (concat (map (fun v => replicate (f v) v) vs)).
Proof.
  induction 1 as [|v vs HS IH HF]; [constructor|]. cbn [map concat]. apply replicate_app_sorted; [done|].
  apply Forall_forall. intros x Hx. apply elem_of_list_In, in_concat in Hx as (l & Hl & Hx).
  apply in_map_iff in Hl as (w & <- & Hw). apply elem_of_list_In, elem_of_replicate in Hx as [-> _].
  rewrite Forall_forall in HF. apply HF. by apply elem_of_list_In.
Qed.
Lemma replicates_nodup (f : N -> nat) vs : NoDup vs ->
  NoDup (concat (map (fun v => replicate (f v) v) vs)) <-> forall v, v ∈ vs -> (f v <= 1)%nat.
Proof.
  induction 1 as [|v vs Hv HN IH]; [split; [by intros _ v ?%elem_of_nil|constructor]|]. cbn [map concat].
  rewrite NoDup_app, IH. split.
  - intros (H1 & _ & H2) u Hu. apply elem_of_cons in Hu as [->|Hu]; [|auto].
    destruct (f v) as [|[|n]]; [lia|lia|]. cbn in H1. apply NoDup_cons in H1 as [H1 _]. destruct H1. apply elem_of_list_here.
  - intros H. split; [|split].
    + pose proof (H v (elem_of_list_here _ _)). destruct (f v) as [|[|n]]; [constructor| |lia]. cbn. apply NoDup_singleton.
    + intros x Hx Hx2. apply elem_of_replicate in Hx as [-> _]. apply elem_of_list_In, in_concat in Hx2 as (l & Hl & Hx2).
      apply in_map_iff in Hl as (w & <- & Hw). apply elem_of_list_In, elem_of_replicate in Hx2 as [-> _].
      apply Hv. by apply elem_of_list_In.
    + intros u Hu. apply H. by apply elem_of_list_further.
Qed.
Lemma steps_iff ws : forall v, StronglySorted N.le (v :: ws) ->
  steps_by_one v ws = true <-> NoDup (v :: ws) ∧
    forall a b c, (a < b < c)%N -> a ∈ v :: ws -> c ∈ v :: ws -> b ∈ v :: ws.
Proof.
  induction ws as [|w ws IH]; intros v HS; cbn [steps_by_one].
  - split; [|done]. intros _. split; [apply NoDup_singleton|].
    intros a b c Hl Ha%elem_of_list_singleton Hc%elem_of_list_singleton. lia.
  - inversion HS as [|? ? HS' HF]; subst. rewrite andb_true_iff, N.eqb_eq, (IH w HS').
    inversion HS' as [|? ? _ HF2]; subst. rewrite Forall_forall in HF, HF2.
    split.
    + intros (E & HN & HB). split.
      * constructor; [|done]. intros Hv. apply elem_of_cons in Hv as [Hv|Hv]; [lia|]. specialize (HF2 _ Hv). lia.
      * intros a b c Hl Ha Hc. apply elem_of_cons in Hc as [Hc|Hc].
        { subst c. apply elem_of_cons in Ha as [Ha|Ha]; [lia|]. specialize (HF _ Ha). lia. }
        apply elem_of_list_further. apply elem_of_cons in Ha as [Ha|Ha]; [|by apply (HB a b c)].
        destruct (decide (b = w)) as [->|Hne]; [apply elem_of_list_here|].
        apply (HB w b c); [lia|apply elem_of_list_here|done].
    + intros (HN & HB). apply NoDup_cons in HN as [Hv HN].
      assert (Hlt : (v < w)%N).
      { pose proof (HF w (elem_of_list_here _ _)). destruct (decide (v = w)) as [->|]; [|lia]. destruct Hv. apply elem_of_list_here. }
      split; [|split; [done|]].
      * destruct (decide (w = v + 1)%N) as [?|Hne]; [done|exfalso].
        assert (Hb : (v + 1)%N ∈ v :: w :: ws).
        { apply (HB v (v + 1)%N w); [lia|apply elem_of_list_here|apply elem_of_list_further, elem_of_list_here]. }
        apply elem_of_cons in Hb as [Hb|Hb]; [lia|]. apply elem_of_cons in Hb as [Hb|Hb]; [lia|]. specialize (HF2 _ Hb). lia.
      * intros a b c Hl Ha Hc.
        assert (Hb : b ∈ v :: w :: ws) by (apply (HB a b c); [done|by apply elem_of_list_further..]).
        apply elem_of_cons in Hb as [Hb|Hb]; [|done]. assert (v <= a)%N by (by apply HF). lia.
Qed.
Lemma sorted_continuous R : StronglySorted N.le (l_version R) ->
  fst (is_continuous R) = R ∧
  (snd (is_continuous R) = true <-> NoDup (l_version R) ∧
    forall a b c, (a < b < c)%N -> a ∈ l_version R -> c ∈ l_version R -> b ∈ l_version R).
Proof.
  intros HS.
  assert (Em : merge_sort N.le (l_version R) = l_version R).
  { apply sorted_unique_lt; [apply (StronglySorted_merge_sort N.le)|done|apply merge_sort_Permutation]. }
  unfold is_continuous. destruct (l_version R) as [|v [|w ws]] eqn:E.
  - split; [done|]. split; [|done]. intros _. split; [constructor|]. by intros a b c _ ?%elem_of_nil.
  - split; [done|]. split; [|done]. intros _. split; [apply NoDup_singleton|].
    intros a b c Hl Ha%elem_of_list_singleton Hc%elem_of_list_singleton. lia.
  - rewrite Em. split; [|by apply steps_iff].
    cbn [fst]. destruct R. cbn in *. by rewrite <- E.
Qed.

Section cut2.
Context (tsi tsj : Z) (L R : logument) (HC : cut tsi tsj L R).
Notation K := (kept tsi tsj L).

Lemma cut_sorted : StronglySorted N.le (l_version R).
Proof. rewrite (c_version _ _ _ _ HC). apply replicates_sorted, sorted_keys_sorted. Qed.
Lemma cut_continuous : is_continuous R = (R, snd (is_continuous R)) ∧ (snd (is_continuous R) = true <-> gapless tsi tsj L).
Proof.
  destruct (sorted_continuous R cut_sorted) as [E1 E2]. split; [destruct (is_continuous R); cbn in *; by subst|].
  rewrite E2. unfold gapless.
  assert (HN : NoDup (l_version R) <-> forall v, (length (K v) <= 1)%nat).
  { rewrite (c_version _ _ _ _ HC), (replicates_nodup (fun v => length (K v))) by apply sorted_keys_nodup.
    split; [|auto]. intros H v. destruct (K v) eqn:E; [cbn; lia|]. rewrite <- E. apply H. apply (kept_in tsi tsj). by rewrite E. }
  rewrite HN. split; intros [H1 H2]; (split; [done|]); intros u v w Hl Hu Hw.
  - apply (cut_version_elem tsi tsj L R HC). apply (H2 u v w); [done|by apply (cut_version_elem tsi tsj L R HC)..].
  - apply (cut_version_elem tsi tsj L R HC). apply (H2 u v w); [done|by apply (cut_version_elem tsi tsj L R HC)..].
Qed.
Lemma cut_last v : last_kept tsi tsj L v -> last_version R = Some v.
Proof.
  intros [H1 H2]. apply (cut_version_elem tsi tsj L R HC) in H1. unfold last_version.
  destruct (last (l_version R)) as [w|] eqn:El.
  - pose proof (last_Some_elem_of _ _ El) as Hw. f_equal.
    assert (Hle : (w <= v)%N).
    { destruct (decide (w <= v)%N); [done|]. apply (cut_version_elem tsi tsj L R HC) in Hw. destruct Hw. apply H2. lia. }
    apply last_Some in El as (l & El). pose proof cut_sorted as HS. rewrite El in HS, H1.
    apply elem_of_app in H1 as [H1|H1%elem_of_list_singleton]; [|done].
    apply N.le_antisymm; [done|]. clear -HS H1. induction l as [|a l IH]; [by apply elem_of_nil in H1|].
    inversion HS as [|? ? HS' HF]; subst. apply elem_of_cons in H1 as [->|H1]; [|auto].
    rewrite Forall_forall in HF. apply HF. apply elem_of_app. right. by apply elem_of_list_singleton.
  - apply last_None in El. rewrite El in H1. by apply elem_of_nil in H1.
Qed.
End cut2.
Lemma time_use_stops orc tsi tsj h L st' R : reachable (h, L) -> temporal_slice orc tsi tsj (h, L) = (st', Ok R) ->
  ~ gapless tsi tsj L ->
  forall c h2, checks c -> fst (ask c (h2, R)) = (h2, R) ∧ panicked (snd (ask c (h2, R))).
Proof.
  intros HR Es HG. pose proof (slice_cut _ _ _ _ _ _ _ HR Es) as HC.
  destruct (cut_continuous tsi tsj L R HC) as [E1 E2].
  assert (E3 : is_continuous R = (R, false)).
  { rewrite E1. f_equal. apply not_true_is_false. tauto. }
  intros c h2 Hc. destruct c; try done; cbn [ask].
  - unfold snapshot, find_latest. rewrite E3. cbn. done.
  - unfold slice. rewrite E3. cbn. done.
  - unfold temporal_slice. rewrite E3. cbn. done.
  - unfold track. rewrite E3. cbn. done.
  - unfold compact. rewrite E3. cbn. done.
  - unfold history. rewrite E3. cbn. done.
Qed.

(** ** TemporalTrack *)
Lemma change_filter_cut tsi tsj a b ps : forall latest,
  change_filter (fun p => in_time a b (op_ts p)) false latest (filter (LogSpec.in_range tsi tsj) ps) =
  change_filter (fun p => in_time (Z.max a tsi) (Z.min b tsj) (op_ts p)) false latest ps.
Proof.
  assert (HT : forall p, in_time (Z.max a tsi) (Z.min b tsj) (op_ts p) = in_time a b (op_ts p) && in_time tsi tsj (op_ts p)).
  { intros p. unfold in_time. apply eq_true_iff_eq. rewrite !andb_true_iff, !Z.leb_le. lia. }
  induction ps as [|p ps IH]; intros latest; [done|]. rewrite filter_cons. cbn [change_filter]. rewrite HT.
  case_decide as HP.
  - apply in_time_range in HP. rewrite HP, andb_true_r. cbn [change_filter]. destruct (in_time a b (op_ts p)).
    + destruct (keep_change latest p) as [r| |]; [|done|done]. cbn [rbind]. by rewrite IH.
    + by rewrite IH.
  - assert (E : in_time tsi tsj (op_ts p) = false) by (apply not_true_is_false; by rewrite in_time_range).
    rewrite E, andb_false_r. rewrite IH. by destruct (change_filter _ _ _ _) as [[? ?]| |].
Qed.
Lemma ttrack_cut tsi tsj a b L R vs : cut tsi tsj L R -> forall latest,
  ttrack_versions a b latest R (filter (fun v => kept tsi tsj L v <> []) vs) =
  ttrack_versions (Z.max a tsi) (Z.min b tsj) latest L vs.
Proof.
  intros HC. induction vs as [|v vs IH]; intros latest; [done|]. rewrite filter_cons. cbn [ttrack_versions].
  rewrite <- (change_filter_cut tsi tsj a b (patch_at L v)). fold (kept tsi tsj L v).
  case_decide as HK.
  - cbn [ttrack_versions]. rewrite (cut_patch_at tsi tsj L R HC). destruct (change_filter _ _ _ _) as [r| |]; [|done|done].
    cbn [rbind]. by rewrite IH.
  - rewrite HK. cbn [change_filter rbind fst snd]. rewrite IH. by destruct (ttrack_versions _ _ _ _ _).
Qed.
Lemma ttrack_nothing a b L vs : b < a -> forall latest, ttrack_versions a b latest L vs = Ok ∅.
Proof.
  intros Hlt.
  assert (HF : forall ps latest, change_filter (fun p => in_time a b (op_ts p)) false latest ps = Ok (latest, [])).
  { induction ps as [|p ps IH]; intros latest; [done|]. cbn [change_filter].
    assert (E : in_time a b (op_ts p) = false).
    { unfold in_time. apply andb_false_iff. rewrite !Z.leb_gt. lia. }
    rewrite E, IH. done. }
  induction vs as [|v vs IH]; intros latest; [done|]. cbn [ttrack_versions]. rewrite HF. cbn [rbind fst snd]. by rewrite IH.
Qed.
Lemma time_use_track orc tsi tsj h L st' R a b h2 : reachable (h, L) -> temporal_slice orc tsi tsj (h, L) = (st', Ok R) ->
  fst (temporal_track a b (h2, R)) = (h2, R) ∧
  (b < a -> snd (temporal_track a b (h2, R)) = Panic) ∧
  (a <= b -> Z.min b tsj < Z.max a tsi -> snd (temporal_track a b (h2, R)) = Ok ∅) ∧
  (Z.max a tsi <= Z.min b tsj ->
     snd (temporal_track a b (h2, R)) = snd (temporal_track (Z.max a tsi) (Z.min b tsj) (h, L))).
Proof.
  intros HR Es. pose proof (slice_cut _ _ _ _ _ _ _ HR Es) as HC. unfold temporal_track.
  rewrite (cut_keys tsi tsj L R HC), (ttrack_cut tsi tsj a b L R _ HC).
  destruct (Z.ltb_spec b a) as [Hlt|Hge].
  - split; [done|]. split; [done|]. split; intros; lia.
  - split; [done|]. split; [intros; lia|]. cbn [snd]. split; [intros _ H; by rewrite ttrack_nothing|].
    intros H. destruct (Z.ltb_spec (Z.min b tsj) (Z.max a tsi)); [lia|done].
Qed.

(** ** Compact *)
Lemma ops_between_cut tsi tsj L R lo hi : cut tsi tsj L R ->
  ops_between R lo hi = filter (LogSpec.in_range tsi tsj) (ops_between L lo hi).
Proof.
  intros HC. rewrite !ops_between_range. induction (range lo hi) as [|v vs IH]; [done|]. cbn [map concat].
  by rewrite filter_app, IH, (cut_patch_at tsi tsj L R HC).
Qed.
Lemma concat_cut tsi tsj L R : consistent L -> cut tsi tsj L R ->
  concat (map (patch_at R) (sorted_keys (l_patches R))) = filter (LogSpec.in_range tsi tsj) (all_ops L).
Proof.
  intros HL HC. rewrite (cut_keys tsi tsj L R HC), concat_filter.
  2: { intros v _ Hn. rewrite (cut_patch_at tsi tsj L R HC). destruct (kept tsi tsj L v); [done|]. by destruct Hn. }
  rewrite <- (all_ops_versions L _ HL eq_refl). induction (sorted_keys (l_patches L)) as [|v vs IH]; [done|].
  cbn [map concat]. by rewrite filter_app, IH, (cut_patch_at tsi tsj L R HC).
Qed.
Lemma time_use_compact orc tsi tsj h L st' R t h2 : reachable (h, L) -> temporal_slice orc tsi tsj (h, L) = (st', Ok R) ->
  gapless tsi tsj L ->
  match compact t (h2, R) with
  | ((h', R'), Ok _) => h' = h2 ∧ ~ clash (filter (under t) (filter (LogSpec.in_range tsi tsj) (all_ops L))) ∧
      forall v, l_patches R' !! v = match kept tsi tsj L v with
        | [] => None
        | ps => Some (changes_among (under t) (filter (under t) (filter (LogSpec.in_range tsi tsj) (ops_between L 0 v))) ps)
        end
  | (_, Err) => False
  | (_, Panic) => clash (filter (under t) (filter (LogSpec.in_range tsi tsj) (all_ops L)))
  end.
Proof.
  intros HR Es HG. pose proof (slice_cut _ _ _ _ _ _ _ HR Es) as HC. apply reachable_consistent in HR. cbn in HR.
  destruct (cut_continuous tsi tsj L R HC) as [E1 E2]. apply E2 in HG. rewrite HG in E1.
  unfold compact. rewrite E1. cbn [negb].
  pose proof (compact_versions_spec (on_target t) (under t) (on_target_under t)
    (sorted_keys (l_patches R)) [] R [] repr_nil (sorted_keys_nodup _)) as H.
  rewrite (concat_cut tsi tsj L R HR HC) in H.
  destruct (compact_versions _ _ _ _) as [R' [u| |]]; cbn [fst snd] in *; [|done|by apply clash_iff].
  destruct H as (H1 & H2 & H3). split; [done|]. split; [rewrite clash_iff; tauto|]. intros v.
  destruct (decide (v ∈ sorted_keys (l_patches R))) as [Hv|Hv].
  - destruct (in_split_N _ _ Hv) as (a & b & E). rewrite (H2 a v b E). cbn [app].
    rewrite (concat_before R _ a v b 0 E (sorted_keys_sorted _) (sorted_keys_nodup _)).
    + rewrite (ops_between_cut tsi tsj L R _ _ HC), (cut_patch_at tsi tsj L R HC).
      apply (cut_keys_elem tsi tsj L R HC) in Hv. by destruct (kept tsi tsj L v).
    + intros w _. lia.
    + intros w _ Hw. apply no_patch_empty. by rewrite <- sorted_keys_elem.
  - rewrite (H1 v Hv), (c_patches _ _ _ _ HC). rewrite (cut_keys_elem tsi tsj L R HC) in Hv.
    destruct (kept tsi tsj L v); [done|]. by destruct Hv.
Qed.

(** ** TemporalSlice again *)
Lemma time_use_again orc tsi tsj h L st' R o a b h2 st2 R2 o' st3 R3 : reachable (h, L) ->
  temporal_slice orc tsi tsj (h, L) = (st', Ok R) ->
  temporal_slice o a b (h2, R) = (st2, Ok R2) ->
  temporal_slice o' (Z.max a tsi) (Z.min b tsj) (h, L) = (st3, Ok R3) ->
  l_version R2 = l_version R3 ∧ l_patches R2 = l_patches R3.
Proof.
  intros HR Es Es2 Es3. pose proof (slice_cut _ _ _ _ _ _ _ HR Es) as HC. pose proof (slice_cut _ _ _ _ _ _ _ HR Es3) as HC3.
  destruct (cut_continuous tsi tsj L R HC) as [E1 E2]. unfold temporal_slice in Es2. rewrite E1 in Es2.
  destruct (snd (is_continuous R)); [|done]. cbn [negb] in Es2. destruct (b <? a); [done|].
  destruct (tslice_snapshots _ _ _ _ _) as [snaps| |]; [|done|done].
  destruct (tslice_patches_spec R a b (sorted_keys (l_patches R)) (sorted_keys_nodup _)) as [T1 T2].
  assert (ER : l_version R2 = fst (tslice_patches R a b (sorted_keys (l_patches R)))
             ∧ l_patches R2 = snd (tslice_patches R a b (sorted_keys (l_patches R)))).
  { destruct (tslice_patches R a b (sorted_keys (l_patches R))) as [vers ps]. cbn [fst snd].
    case_decide; [|by injection Es2 as _ <-]. destruct vers; [done|].
    destruct (temporal_snapshot _ _ _) as [? [?| |]]; [|done|done]. by injection Es2 as _ <-. }
  clear Es2. destruct ER as [-> ->].
  assert (HK : forall v, filter (LogSpec.in_range a b) (patch_at R v) = kept (Z.max a tsi) (Z.min b tsj) L v).
  { intros v. rewrite (cut_patch_at tsi tsj L R HC). unfold kept. rewrite list_filter_filter. apply list_filter_iff.
    intros p. unfold LogSpec.in_range. lia. }
  split.
  - rewrite T2, (c_version _ _ _ _ HC3), (cut_keys tsi tsj L R HC).
    rewrite concat_filter.
    + f_equal. apply map_ext. intros v. by rewrite HK.
    + intros v _ Hn. rewrite (cut_patch_at tsi tsj L R HC). destruct (kept tsi tsj L v); [done|]. by destruct Hn.
  - apply map_eq. intros v. rewrite T1, (c_patches _ _ _ _ HC3), HK.
    destruct (decide (v ∈ sorted_keys (l_patches R))) as [Hv|Hv]; [done|].
    rewrite (cut_keys_elem tsi tsj L R HC) in Hv.
    assert (E : kept (Z.max a tsi) (Z.min b tsj) L v = []).
    { rewrite <- HK, (cut_patch_at tsi tsj L R HC). destruct (kept tsi tsj L v); [done|]. by destruct Hv. }
    by rewrite E.
Qed.

(** ** Append *)
Lemma some_last tsi tsj L : (exists v, kept tsi tsj L v <> []) -> exists v, last_kept tsi tsj L v.
Proof.
  intros (v & Hv).
  assert (HE : forall w, kept tsi tsj L w <> [] <-> w ∈ filter (fun w => kept tsi tsj L w <> []) (sorted_keys (l_patches L))).
  { intros w. rewrite elem_of_list_filter. split; [|by intros [? _]]. intros H. split; [done|]. by apply (kept_in tsi tsj). }
  pose proof (filter_sorted (fun w => kept tsi tsj L w <> []) _ (sorted_keys_sorted (l_patches L))) as HS.
  revert HE HS. generalize (filter (fun w => kept tsi tsj L w <> []) (sorted_keys (l_patches L))). intros l HE HS.
  destruct (last l) as [u|] eqn:El.
  - exists u. split; [apply HE; by apply last_Some_elem_of|]. intros w Hlt.
    destruct (decide (kept tsi tsj L w = [])) as [?|Hn]; [done|exfalso]. apply HE in Hn.
    apply last_Some in El as (l0 & ->). apply elem_of_app in Hn as [Hn|Hn%elem_of_list_singleton]; [|lia].
    assert (w <= u)%N; [|lia]. clear -HS Hn. induction l0 as [|a l0 IH]; [by apply elem_of_nil in Hn|].
    inversion HS as [|? ? HS' HF]; subst. apply elem_of_cons in Hn as [->|Hn]; [|auto].
    rewrite Forall_forall in HF. apply HF. apply elem_of_app. right. by apply elem_of_list_singleton.
  - apply last_None in El. subst l. apply HE in Hv. by apply elem_of_nil in Hv.
Qed.
Lemma last_kept_unique tsi tsj L u v : last_kept tsi tsj L u -> last_kept tsi tsj L v -> u = v.
Proof.
  intros [A1 A2] [B1 B2]. destruct (N.lt_trichotomy u v) as [H|[H|H]]; [|done|].
  - by rewrite A2 in B1.
  - by rewrite B2 in A1.
Qed.
(** The versions of a slice up to its last one. *)
Lemma replicates_last (f : N -> nat) l v : NoDup l -> StronglySorted N.le l -> v ∈ l -> (forall w, w ∈ l -> (v < w)%N -> f w = 0%nat) ->
  exists a, concat (map (fun v => replicate (f v) v) l) = concat (map (fun v => replicate (f v) v) a) ++ replicate (f v) v
    ∧ forall u, u ∈ a <-> u ∈ l ∧ (u < v)%N.
Proof.
  intros HN HS Hv H0. destruct (in_split_N _ _ Hv) as (a & b & ->). exists a. split.
  - rewrite map_app, concat_app. cbn [map concat]. f_equal.
    assert (E : concat (map (fun v => replicate (f v) v) b) = []).
    { assert (HB : forall w, w ∈ b -> f w = 0%nat).
      { intros w Hw. apply H0; [apply elem_of_app; right; by apply elem_of_list_further|].
        assert (Hn : w ∉ a). { apply NoDup_app in HN as (_ & HN & _). intros Ha. apply (HN w Ha). by apply elem_of_list_further. }
        pose proof (sorted_split a v b w HS HN) as HX.
        destruct (N.lt_trichotomy v w) as [?|[->|?]]; [done| |].
        - apply NoDup_app in HN as (_ & _ & HN). apply NoDup_cons in HN as [HN _]. done.
        - destruct Hn. apply HX; [|done]. apply elem_of_app. right. by apply elem_of_list_further. }
      clear -HB. induction b as [|w b IH]; [done|]. cbn [map concat]. rewrite (HB w (elem_of_list_here _ _)). cbn.
      apply IH. intros u Hu. apply HB. by apply elem_of_list_further. }
    by rewrite E, app_nil_r.
  - intros u. split.
    + intros Hu. assert (Hin : u ∈ a ++ v :: b) by (apply elem_of_app; by left). split; [done|].
      exact (proj1 (sorted_split a v b u HS HN Hin) Hu).
    + intros [Hu Hl]. exact (proj2 (sorted_split a v b u HS HN Hu) Hl).
Qed.
Lemma grown_snoc l v (R : logument) : l_version R = l ++ [v] ->
  is_grown R = match last l with Some u => (v =? u + 1)%N | None => true end.
Proof.
  intros E. unfold is_grown. rewrite E, reverse_snoc. destruct (last l) as [u|] eqn:El.
  - apply last_Some in El as (l0 & ->). by rewrite reverse_snoc.
  - apply last_None in El. by subst l.
Qed.
Lemma cut_grown tsi tsj L R v : cut tsi tsj L R -> last_kept tsi tsj L v -> is_grown R = true <-> can_grow tsi tsj L.
Proof.
  intros HC HL. pose proof HL as [H1 H2].
  pose proof (kept_in _ _ _ _ H1) as Hv.
  destruct (replicates_last (fun v => length (kept tsi tsj L v)) _ v (sorted_keys_nodup (l_patches L)) (sorted_keys_sorted _) Hv) as (a & Ea & Ha).
  { intros w _ Hlt. by rewrite H2. }
  pose proof (c_version _ _ _ _ HC) as EV. rewrite Ea in EV.
  set (pre := concat (map (fun v => replicate (length (kept tsi tsj L v)) v) a)) in *.
  assert (Hpre : forall u, u ∈ pre <-> kept tsi tsj L u <> [] ∧ (u < v)%N).
  { intros u. unfold pre. rewrite elem_of_list_In, in_concat. split.
    - intros (l & Hl & Hu). apply in_map_iff in Hl as (w & <- & Hw). apply elem_of_list_In, elem_of_replicate in Hu as [-> Hu].
      apply elem_of_list_In, Ha in Hw as [_ Hw]. split; [|done]. destruct (kept tsi tsj L w); [cbn in Hu; lia|done].
    - intros [Hk Hl]. exists (replicate (length (kept tsi tsj L u)) u). split.
      + apply in_map_iff. exists u. split; [done|]. apply elem_of_list_In, Ha. split; [by apply (kept_in tsi tsj)|done].
      + apply elem_of_list_In, elem_of_replicate. split; [done|]. destruct (kept tsi tsj L u); [done|cbn; lia]. }
  assert (HSp : StronglySorted N.le pre).
  { pose proof (cut_sorted tsi tsj L R HC) as HS. rewrite EV in HS. by apply sorted_app_l in HS. }
  destruct (length (kept tsi tsj L v)) as [|[|n]] eqn:En.
  - destruct (kept tsi tsj L v); [done|discriminate En].
  - rewrite (grown_snoc pre v R EV). destruct (last pre) as [u|] eqn:El.
    + pose proof (last_Some_elem_of _ _ El) as Hu. rewrite N.eqb_eq. split.
      * intros ->. exists (u + 1)%N. split; [done|]. split; [done|]. left. exists u. split; [done|]. by apply Hpre in Hu as [? _].
      * intros (w & Hw & _ & HX). apply (last_kept_unique _ _ _ _ _ HL) in Hw. subst w. apply Hpre in Hu as [Hu1 Hu2].
        destruct HX as [(u' & -> & Hu')|HX]; [|by rewrite HX in Hu1].
        assert (Hin : u' ∈ pre) by (apply Hpre; split; [done|lia]).
        apply last_Some in El as (l0 & El). rewrite El in Hin, HSp.
        apply elem_of_app in Hin as [Hin|Hin%elem_of_list_singleton]; [|by subst].
        assert (u' <= u)%N; [|lia]. clear -HSp Hin. induction l0 as [|x l0 IH]; [by apply elem_of_nil in Hin|].
        inversion HSp as [|? ? HS' HF]; subst. apply elem_of_cons in Hin as [->|Hin]; [|auto].
        rewrite Forall_forall in HF. apply HF. apply elem_of_app. right. by apply elem_of_list_singleton.
    + split; [|done]. intros _. exists v. split; [done|]. split; [done|]. right. intros u Hlt.
      destruct (decide (kept tsi tsj L u = [])) as [?|Hn]; [done|exfalso]. apply last_None in El.
      assert (Hin : u ∈ pre) by (by apply Hpre). rewrite El in Hin. by apply elem_of_nil in Hin.
  - assert (E2 : replicate (S (S n)) v = replicate (S n) v ++ [v]) by (by rewrite <- replicate_cons_app).
    rewrite E2, app_assoc in EV. rewrite (grown_snoc _ v R EV).
    assert (El : last (pre ++ replicate (S n) v) = Some v).
    { replace (replicate (S n) v) with (replicate n v ++ [v]) by (by rewrite <- replicate_cons_app). rewrite app_assoc. apply last_snoc. }
    rewrite El. rewrite N.eqb_eq. split; [lia|]. intros (w & Hw & Hl & _). apply (last_kept_unique _ _ _ _ _ HL) in Hw. subst w. lia.
Qed.
Lemma time_use_append orc tsi tsj h L st' R ps h2 : reachable (h, L) -> temporal_slice orc tsi tsj (h, L) = (st', Ok R) ->
  ((forall v, kept tsi tsj L v = []) ->
     asks [CStore (PI_patch (Some ps)); CAppend] (h2, R) = ((h2, with_pool R (Some ps)), [AnsDone (Ok tt); AnsDone Panic])) ∧
  ((exists v, kept tsi tsj L v <> []) -> ~ can_grow tsi tsj L ->
     asks [CStore (PI_patch (Some ps)); CAppend] (h2, R) = ((h2, with_pool R (Some ps)), [AnsDone (Ok tt); AnsDone Err])) ∧
  (forall v, can_grow tsi tsj L -> last_kept tsi tsj L v ->
     exists R', asks [CStore (PI_patch (Some ps)); CAppend] (h2, R) = ((h2, R'), [AnsDone (Ok tt); AnsDone (Ok tt)]) ∧
       l_version R' = l_version R ++ [(v + 1)%N] ∧ l_snapshots R' = l_snapshots R ∧ l_pool R' = None ∧
       forall w, l_patches R' !! w = if decide (w = v + 1)%N then Some ps else l_patches R !! w).
Proof.
  intros HR Es. pose proof (slice_cut _ _ _ _ _ _ _ HR Es) as HC.
  cbn [asks ask]. unfold store. cbn [store_arg]. rewrite (c_pool _ _ _ _ HC). unfold append.
  change (is_grown (with_pool R (Some ps))) with (is_grown R).
  change (last_version (with_pool R (Some ps))) with (last_version R).
  change (l_patches (with_pool R (Some ps))) with (l_patches R).
  change (l_pool (with_pool R (Some ps))) with (Some ps).
  split; [|split].
  - intros H0. assert (EV : l_version R = []).
    { apply elem_of_nil_inv. intros v Hv. apply (cut_version_elem tsi tsj L R HC) in Hv. by rewrite H0 in Hv. }
    unfold is_grown, last_version. by rewrite EV.
  - intros HE HG. destruct (some_last _ _ _ HE) as (v & Hv).
    assert (E : is_grown R = false).
    { apply not_true_is_false. by rewrite (cut_grown _ _ _ _ _ HC Hv). }
    by rewrite E.
  - intros v HG Hv. rewrite (proj2 (cut_grown _ _ _ _ _ HC Hv) HG), (cut_last _ _ _ _ HC v Hv). cbn [negb].
    assert (E : l_patches R !! (v + 1)%N = None).
    { rewrite (c_patches _ _ _ _ HC). destruct Hv as [_ Hv]. rewrite Hv by lia. done. }
    rewrite E. eexists. split; [done|]. cbn [l_version l_snapshots l_pool l_patches]. split; [done|]. split; [done|]. split; [done|].
    intros w. case_decide as Ew; [subst w; by rewrite lookup_insert|by rewrite lookup_insert_ne].
Qed.

(** ** The first version *)
Lemma time_use_first orc tsi tsj h L st' R h2 : reachable (h, L) -> temporal_slice orc tsi tsj (h, L) = (st', Ok R) ->
  gapless tsi tsj L ->
  (forall v s lts, l_snapshots L !! v = Some s -> latest_ts_of h s = Ok lts -> ~ (tsi <= lts <= tsj)) ->
  exists v s, temporal_snapshot orc tsi (h, L) = (st', Ok s) ∧
    kept tsi tsj L v <> [] ∧ (forall u, (u < v)%N -> kept tsi tsj L u = []) ∧
    snapshot v (h2, R) = ((h2, R), Ok s) ∧
    forall k ps, let R' := with_patches R (<[v := ps]> (l_patches R)) in
      snd (snapshot k (h2, R')) = snd (snapshot k (h2, R)) ∧ fst (fst (snapshot k (h2, R'))) = fst (fst (snapshot k (h2, R))).
Proof.
  intros HR Es HG Hno. pose proof (slice_cut _ _ _ _ _ _ _ HR Es) as HC. apply reachable_consistent in HR. cbn in HR.
  destruct (cut_continuous tsi tsj L R HC) as [E1 E2]. apply E2 in HG. rewrite HG in E1.
  pose proof (temporal_slice_spec orc tsi tsj h L HR) as H. rewrite Es in H.
  destruct H as (_ & _ & _ & _ & _ & H).
  assert (HX : exists s v0, temporal_snapshot orc tsi (h, L) = (st', Ok s) ∧ l_snapshots R = {[ v0 := s ]}
             ∧ head (l_version R) = Some v0).
  { destruct H as [[E HS]|[_ H]]; [|done]. exfalso.
    assert (EE : l_snapshots R = ∅).
    { apply map_empty. intros v. destruct (l_snapshots R !! v) as [s|] eqn:Ev; [|done]. apply HS in Ev as (Ev & lts & El & Hr).
      by destruct (Hno v s lts Ev El). }
    clear HS. revert Es. unfold temporal_slice. rewrite (consistent_continuous _ HR). cbn [negb]. destruct (tsj <? tsi); [done|].
    destruct (tslice_snapshots _ _ _ _ _); [|done|done]. destruct (tslice_patches _ _ _ _) as [vers m].
    case_decide as Hd.
    - destruct vers; [done|]. destruct (temporal_snapshot _ _ _) as [? [s| |]]; [|done|done]. intros Es. injection Es as _ <-.
      apply (f_equal (lookup n)) in EE. cbn [l_snapshots] in EE. by rewrite lookup_singleton in EE.
    - intros Es. injection Es as _ <-. done. }
  destruct HX as (s & v & Et & Esn & Eh). exists v, s. split; [done|].
  assert (Hin : v ∈ l_version R) by (by apply head_Some_elem_of).
  split; [by apply (cut_version_elem tsi tsj L R HC)|].
  assert (Hle : forall u, u ∈ l_version R -> (v <= u)%N).
  { intros u Hu. pose proof (cut_sorted tsi tsj L R HC) as HS. destruct (l_version R) as [|x l]; [done|]. injection Eh as ->.
    apply elem_of_cons in Hu as [->|Hu]; [lia|]. inversion HS as [|? ? _ HF]; subst. rewrite Forall_forall in HF. by apply HF. }
  split.
  { intros u Hlt. destruct (decide (kept tsi tsj L u = [])) as [?|Hn]; [done|]. apply (cut_version_elem tsi tsj L R HC), Hle in Hn. lia. }
  assert (HK : sorted_keys (l_snapshots R) = [v]).
  { rewrite Esn. unfold sorted_keys. rewrite map_to_list_singleton. done. }
  destruct (last_version R) as [w|] eqn:El.
  2: { unfold last_version in El. apply last_None in El. rewrite El in Hin. by apply elem_of_nil in Hin. }
  assert (Hw : (v <= w)%N) by (apply Hle; by apply last_Some_elem_of).
  split.
  - unfold snapshot, find_latest. rewrite E1. cbn [negb]. rewrite El. destruct (N.ltb_spec w v); [lia|].
    rewrite HK, filter_cons, decide_True by lia. change (filter _ []) with (@nil N). cbn [last].
    rewrite Esn, lookup_singleton. by rewrite N.eqb_refl.
  - intros k ps R'.
    assert (E1' : is_continuous R' = (R', true)).
    { clear -E1. unfold is_continuous in *. unfold R'. destruct R as [vs c sn pa po]. cbn in *.
      destruct vs as [|x [|y l]]; [done|done|]. injection E1 as E1 E2. rewrite E1 in E2 |- *. by rewrite E2. }
    unfold snapshot, find_latest. rewrite E1, E1'. cbn [negb].
    change (last_version R') with (last_version R). change (l_snapshots R') with (l_snapshots R).
    rewrite El. destruct (w <? k)%N; [done|]. rewrite HK, filter_cons. change (filter _ []) with (@nil N).
    destruct (decide (v <= k)%N) as [Hk|Hk]; [|done]. cbn [last]. rewrite Esn, lookup_singleton. change (default VNil (Some s)) with s.
    rewrite <- Esn. change (l_snapshots R') with (l_snapshots R).
    destruct (v =? k)%N; [by destruct (l_snapshots R !! k)|].
    assert (Em : map (patch_at R') (seqN (v + 1) (N.to_nat (k - v))) = map (patch_at R) (seqN (v + 1) (N.to_nat (k - v)))).
    { assert (HL : (v < v + 1)%N) by lia. revert HL. generalize (v + 1)%N (N.to_nat (k - v)). intros x n. revert x.
      induction n as [|n IH]; intros x Hlt; [done|]. cbn [seqN map]. rewrite IH by lia. f_equal.
      unfold patch_at, R'. cbn. by rewrite lookup_insert_ne by lia. }
    rewrite Em. destruct (replay_versions _ _ _ _) as [h1 [t| |]]; [|done|done]. by destruct (l_snapshots R !! k).
Qed.
