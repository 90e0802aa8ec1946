(** Lemmas about the log. *)
From Verif Require Import Base BaseSpec BaseSpecLemmas F64 Tson Serial Heap Patch Logument LogSpec F64Lemmas.
From Coq Require Import Lia.

(** ** Sorted version lists *)
Definition nats (n : nat) : list N := map N.of_nat (seq 0 n).

Lemma sorted_unique_lt (l l' : list N) :
  StronglySorted N.le l -> StronglySorted N.le l' -> l ≡ₚ l' -> l = l'.
Proof.
  intros H1 H2 HP. apply (StronglySorted_unique N.le); try done.
Qed.
Lemma merge_sort_sorted (l : list N) : StronglySorted N.le l -> merge_sort N.le l = l.
Proof.
  intros H. apply sorted_unique_lt; [|done|apply merge_sort_Permutation].
  apply (StronglySorted_merge_sort N.le).
Qed.
Lemma seq_sorted a n : StronglySorted N.le (map N.of_nat (seq a n)).
Proof.
  revert a. induction n as [|n IH]; intros a; cbn; constructor; [apply IH|].
  rewrite Forall_forall. intros x Hx. apply elem_of_list_fmap in Hx as (y & -> & Hy).
  apply elem_of_seq in Hy. lia.
Qed.
Lemma steps_seq a n : steps_by_one (N.of_nat a) (map N.of_nat (seq (S a) n)) = true.
Proof.
  revert a. induction n as [|n IH]; intros a; [done|]. cbn [seq map steps_by_one].
  rewrite IH. replace (N.of_nat a + 1)%N with (N.of_nat (S a)) by lia.
  by rewrite N.eqb_refl.
Qed.
Lemma nats_last n : last (nats (S n)) = Some (N.of_nat n).
Proof. unfold nats. rewrite seq_S, map_app. cbn. by rewrite last_snoc. Qed.
Lemma nats_snoc n : nats (S n) ++ [(N.of_nat n + 1)%N] = nats (S (S n)).
Proof.
  unfold nats. rewrite (seq_S (S n)), map_app. cbn [map]. do 2 f_equal. lia.
Qed.

Lemma consistent_continuous L : consistent L -> is_continuous L = (L, true).
Proof.
  intros (n & Hv & _). unfold is_continuous. destruct n as [|n].
  - rewrite Hv. done.
  - assert (E : merge_sort N.le (l_version L) = l_version L).
    { rewrite Hv. apply merge_sort_sorted, seq_sorted. }
    assert (E2 : with_version L (l_version L) = L) by (by destruct L).
    rewrite E, E2, Hv. cbn [seq map]. f_equal. apply (steps_seq 0 (S n)).
Qed.
Lemma consistent_grown L : consistent L -> is_grown L = true.
Proof.
  intros (n & Hv & _). unfold is_grown. rewrite Hv. destruct n as [|n]; [done|].
  rewrite !seq_S, !map_app, !reverse_app. cbn [map reverse app rev_append].
  change (reverse [N.of_nat (0 + S n)]) with [N.of_nat (0 + S n)].
  change (reverse [N.of_nat (0 + n)]) with [N.of_nat (0 + n)]. cbn [app].
  apply N.eqb_eq. lia.
Qed.
Lemma consistent_last L n :
  l_version L = nats (S n) -> last_version L = Some (N.of_nat n).
Proof. intros H. unfold last_version. rewrite H. apply nats_last. Qed.

(** ** Every call keeps the shape *)
Lemma consistent_iff L : consistent L <->
  exists n : nat,
    l_version L = nats (S n) ∧
    (forall v, is_Some (l_patches L !! v) <-> (1 <= v <= N.of_nat n)%N) ∧
    (forall v, is_Some (l_snapshots L !! v) -> (v <= N.of_nat n)%N) ∧
    is_Some (l_snapshots L !! 0%N).
Proof. reflexivity. Qed.

(** The parts of the log the shape depends on. *)
Definition same_shape (L L' : logument) : Prop :=
  l_version L' = l_version L ∧ l_snapshots L' = l_snapshots L ∧
  (forall v, is_Some (l_patches L' !! v) <-> is_Some (l_patches L !! v)).
Lemma same_shape_consistent L L' : same_shape L L' -> consistent L -> consistent L'.
Proof.
  intros (E1 & E2 & E3) (n & H1 & H2 & H3 & H4). exists n. rewrite E1, E2. repeat split; try done.
  - apply H2, E3. done.
  - apply H2, E3. done.
  - intros Hv. by apply E3, H2.
Qed.
Lemma same_shape_refl L : same_shape L L.
Proof. done. Qed.

Lemma store_shape p h L : let '((h', L'), _) := store p (h, L) in
  h' = h ∧ l_version L' = l_version L ∧ l_snapshots L' = l_snapshots L ∧ l_patches L' = l_patches L
  ∧ l_current L' = l_current L.
Proof. unfold store. destruct (store_arg p); done. Qed.

Lemma append_cases h L : consistent L ->
  snd (append (h, L)) = Ok tt ∧
  match l_pool L with
  | None => fst (append (h, L)) = (h, L)
  | Some ps => exists n, l_version L = nats (S n) ∧ l_patches L !! (N.of_nat n + 1)%N = None ∧
      fst (append (h, L)) =
        (h, Lgm (nats (S (S n))) (l_current L) (l_snapshots L)
              (<[(N.of_nat n + 1)%N := ps]> (l_patches L)) None)
  end.
Proof.
  intros HC. unfold append. rewrite (consistent_grown _ HC). simpl negb. cbn [negb].
  destruct (l_pool L) as [ps|] eqn:Ep; [|done].
  destruct HC as (n & Hv & Hp & _). rewrite (consistent_last _ n Hv).
  assert (HN : l_patches L !! (N.of_nat n + 1)%N = None).
  { apply eq_None_not_Some. intros HS. apply Hp in HS. lia. }
  rewrite HN. split; [done|]. exists n. split; [done|]. split; [done|].
  cbn. f_equal. f_equal. change (map N.of_nat (seq 0 (S n))) with (nats (S n)) in Hv. rewrite Hv.
  apply nats_snoc.
Qed.
Lemma append_consistent h L : consistent L -> consistent (snd (fst (append (h, L)))).
Proof.
  intros HC. destruct (append_cases h L HC) as [_ H]. destruct (l_pool L) as [ps|]; [|by rewrite H].
  destruct H as (n & Hv & HN & E). rewrite E. simpl. 
  destruct HC as (n' & Hv' & Hp & Hs & H0).
  assert (n' = n) as ->.
  { unfold nats in Hv. rewrite Hv in Hv'. apply (f_equal length) in Hv'.
    rewrite !map_length, !seq_length in Hv'. lia. }
  exists (S n). split; [done|]. cbn [l_patches l_snapshots]. split; [|split; [|done]].
  - intros v. destruct (decide (v = N.of_nat n + 1)%N) as [->|Hne].
    + rewrite lookup_insert. split; [lia|by eexists].
    + rewrite lookup_insert_ne by done. rewrite Hp. lia.
  - intros v HS. apply Hs in HS. lia.
Qed.

(** [sorted_keys] *)
Lemma sorted_keys_elem {A} (m : gmap N A) v : v ∈ sorted_keys m <-> is_Some (m !! v).
Proof.
  unfold sorted_keys. rewrite merge_sort_Permutation, elem_of_list_fmap. split.
  - intros ([k x] & -> & H). apply elem_of_map_to_list in H. by exists x.
  - intros [x H]. exists (v, x). split; [done|]. by apply elem_of_map_to_list.
Qed.
Lemma sorted_keys_sorted {A} (m : gmap N A) : StronglySorted N.le (sorted_keys m).
Proof. apply (StronglySorted_merge_sort N.le). Qed.
Lemma sorted_keys_nodup {A} (m : gmap N A) : NoDup (sorted_keys m).
Proof. unfold sorted_keys. rewrite merge_sort_Permutation. apply NoDup_fst_map_to_list. Qed.

Lemma find_latest_spec L vk : consistent L ->
  match find_latest L vk with
  | (L1, Ok (w, s)) => L1 = L ∧ (w <= vk)%N ∧ l_snapshots L !! w = Some s
      ∧ (forall u, is_Some (l_snapshots L !! u) -> (u <= vk)%N -> (u <= w)%N)
      ∧ exists n, l_version L = nats (S n) ∧ (vk <= N.of_nat n)%N
  | (L1, Err) => False
  | (L1, Panic) => L1 = L ∧ exists n, l_version L = nats (S n) ∧ (N.of_nat n < vk)%N
  end.
Proof.
  intros HC. unfold find_latest. rewrite (consistent_continuous _ HC). cbn [negb].
  destruct HC as (n & Hv & Hp & Hs & H0). rewrite (consistent_last _ n Hv).
  destruct (N.ltb_spec (N.of_nat n) vk) as [Hlt|Hge]; [by eauto|].
  set (l := filter (fun w => (w <= vk)%N) (sorted_keys (l_snapshots L))).
  assert (HL : StronglySorted N.le l).
  { unfold l. pose proof (sorted_keys_sorted (l_snapshots L)) as HS. revert HS.
    generalize (sorted_keys (l_snapshots L)). intros q. induction q as [|a q IH]; intros HS; [constructor|].
    inversion HS as [|? ? HS' HF]; subst. rewrite filter_cons. case_decide.
    - constructor; [auto|]. rewrite Forall_forall in HF |- *. intros x Hx. apply HF.
      by apply elem_of_list_filter in Hx as [_ ?].
    - auto. }
  assert (HE : forall w, w ∈ l <-> is_Some (l_snapshots L !! w) ∧ (w <= vk)%N).
  { intros w. unfold l. rewrite elem_of_list_filter, sorted_keys_elem. tauto. }
  destruct (last l) as [w|] eqn:El.
  - assert (Hw : w ∈ l) by (by apply last_Some_elem_of).
    destruct (proj1 (HE w) Hw) as [[s Es] Hle]. rewrite Es. cbn.
    split; [done|]. split; [done|]. split; [done|]. split; [|exists n; done].
    intros u Hu Hule. assert (Hul : u ∈ l) by (by apply HE).
    apply last_Some in El as (l0 & El). rewrite El in Hul, HL.
    apply elem_of_app in Hul as [Hul|Hul%elem_of_list_singleton]; [|lia].
    clear -HL Hul. induction l0 as [|a l0 IH]; [by apply elem_of_nil in Hul|].
    inversion HL as [|? ? HS' HF]; subst. apply elem_of_cons in Hul as [->|Hul]; [|auto].
    rewrite Forall_forall in HF. apply HF. apply elem_of_app. right. by apply elem_of_list_singleton.
  - assert (Hz : 0%N ∈ l) by (apply HE; split; [done|lia]).
    apply last_None in El. rewrite El in Hz. by apply elem_of_nil in Hz.
Qed.

(** What [Snapshot] does to the log. *)
Lemma snapshot_log vk h L : consistent L ->
  match snapshot vk (h, L) with
  | ((h', L'), r) => exists n, l_version L = nats (S n) ∧
      (L' = L ∨ exists t, r = Ok t ∧ (vk <= N.of_nat n)%N ∧ l_snapshots L !! vk = None ∧
          L' = with_snapshots L (<[vk := t]> (l_snapshots L)))
  end.
Proof.
  intros HC. pose proof HC as (n & Hv & _). unfold snapshot. pose proof (find_latest_spec L vk HC) as HF.
  destruct (find_latest L vk) as [L1 [[w s]| |]].
  - destruct HF as (-> & Hle & Hs & _ & n' & Hn' & Hb). 
    destruct (if (w =? vk)%N then _ else _) as [h1 r]. destruct r as [t| |].
    + destruct (l_snapshots L !! vk) eqn:E; exists n'; (split; [done|]); [by left|]. right. by exists t.
    + exists n. split; [done|]. by left.
    + exists n. split; [done|]. by left.
  - done.
  - destruct HF as [-> _]. exists n. split; [done|]. by left.
Qed.
Lemma insert_snapshot_consistent L n vk t :
  l_version L = nats (S n) -> (vk <= N.of_nat n)%N ->
  consistent L -> consistent (with_snapshots L (<[vk := t]> (l_snapshots L))).
Proof.
  intros Hn Hle (n' & Hv & Hp & Hs & H0). exists n'. cbn.
  assert (n' = n) as ->.
  { unfold nats in Hn. rewrite Hn in Hv. apply (f_equal length) in Hv.
    rewrite !map_length, !seq_length in Hv. lia. }
  repeat split; try done; try apply Hp; try done.
  - intros v HS. destruct (decide (v = vk)) as [->|Hne]; [done|].
    rewrite lookup_insert_ne in HS by done. auto.
  - destruct (decide (0%N = vk)) as [<-|Hne]; [by rewrite lookup_insert|].
    by rewrite lookup_insert_ne.
Qed.
Lemma snapshot_consistent vk h L : consistent L -> consistent (snd (fst (snapshot vk (h, L)))).
Proof.
  intros HC. pose proof (snapshot_log vk h L HC) as HS.
  destruct (snapshot vk (h, L)) as [[h' L'] r]. destruct HS as (n & Hn & [->|(t & _ & Hle & _ & ->)]); [done|].
  cbn. by apply (insert_snapshot_consistent L n).
Qed.

Lemma pick_in h L tsk vs acc v : pick_snapshot h L tsk vs acc = Ok v -> v = acc ∨ v ∈ vs.
Proof.
  revert acc. induction vs as [|w vs IH]; intros acc H; cbn in H.
  - left. congruence.
  - destruct (latest_ts_of _ _) as [lts| |]; [|done|done]. cbn in H.
    destruct (lts <=? tsk).
    + destruct (IH _ H) as [->|?]; right; [apply elem_of_list_here|by apply elem_of_list_further].
    + left. congruence.
Qed.

(** Patches updated at an existing version. *)
Definition touch_patch (L : logument) (v : N) (ps : list operation) : logument :=
  match l_patches L !! v with
  | Some _ => with_patches L (<[v := ps]> (l_patches L))
  | None => L
  end.
Lemma touch_shape L v ps : same_shape L (touch_patch L v ps).
Proof.
  unfold touch_patch. destruct (l_patches L !! v) eqn:E; [|apply same_shape_refl].
  repeat split; try done; cbn; intros HS.
  - destruct (decide (v0 = v)) as [->|Hne]; [by rewrite E|]. by rewrite lookup_insert_ne in HS.
  - destruct (decide (v0 = v)) as [->|Hne]; [by rewrite lookup_insert|]. by rewrite lookup_insert_ne.
Qed.

(** What [TemporalSnapshot] does to the log. *)
Lemma temporal_snapshot_log orc tsk h L : consistent L ->
  match temporal_snapshot orc tsk (h, L) with
  | ((h', L'), r) =>
      L' = L ∨ exists L1 v,
        (L1 = L ∨ (is_Some (l_pool L) ∧ L1 = snd (fst (append (h, L))))) ∧
        L' = touch_patch L1 v (or_sort orc (patch_at L1 v))
  end.
Proof.
  intros HC. unfold temporal_snapshot. destruct (l_version L) as [|v0 vs]; [by left|].
  destruct (last_version L) as [vlast|]; [|by left].
  destruct (pick_snapshot h L tsk (sorted_keys (l_snapshots L)) v0) as [v| |] eqn:Epk; [|by left|by left].
  destruct (vlast <=? v)%N.
  - destruct (l_pool L) as [pp|] eqn:Epool; [|by left].
    destruct (append (h, L)) as [[h1 L1] r1] eqn:Eapp. 
    destruct (apply_patch _ _ _) as [h2 [t| |]]; right; exists L1, (v + 1)%N; (split; [right; split; [by eexists|done]|reflexivity]).
  - destruct (apply_patch _ _ _) as [h2 [t| |]]; right; exists L, (v + 1)%N; (split; [by left|reflexivity]).
Qed.
Lemma temporal_snapshot_consistent orc tsk h L :
  consistent L -> consistent (snd (fst (temporal_snapshot orc tsk (h, L)))).
Proof.
  intros HC. pose proof (temporal_snapshot_log orc tsk h L HC) as HT.
  destruct (temporal_snapshot orc tsk (h, L)) as [[h' L'] r]. cbn.
  destruct HT as [->|(L1 & v & HL1 & ->)]; [done|].
  eapply same_shape_consistent; [apply touch_shape|].
  destruct HL1 as [->|[_ ->]]; [done|]. by apply append_consistent.
Qed.

Lemma slice_log vi vj h L : consistent L ->
  fst (slice vi vj (h, L)) = (h, L) ∨ fst (slice vi vj (h, L)) = fst (snapshot vi (h, L)).
Proof.
  intros HC. unfold slice. rewrite (consistent_continuous _ HC). cbn [negb].
  destruct (vj <? vi)%N; [by left|]. destruct (last_version L) as [v|]; [|by left].
  destruct (_ || _); [by left|]. case_decide; [|by left]. right.
  by destruct (snapshot vi (h, L)) as [st2 [s| |]].
Qed.
Lemma temporal_slice_log orc tsi tsj h L : consistent L ->
  fst (temporal_slice orc tsi tsj (h, L)) = (h, L) ∨
  fst (temporal_slice orc tsi tsj (h, L)) = fst (temporal_snapshot orc tsi (h, L)).
Proof.
  intros HC. unfold temporal_slice. rewrite (consistent_continuous _ HC). cbn [negb].
  destruct (tsj <? tsi); [by left|].
  destruct (tslice_snapshots _ _ _ _ _) as [snaps| |]; [|by left|by left].
  destruct (tslice_patches _ _ _ _) as [vers patches]. case_decide; [|by left].
  destruct vers as [|v0 vers]; [by left|]. right.
  by destruct (temporal_snapshot orc tsi (h, L)) as [st2 [s| |]].
Qed.

Lemma compact_versions_shape sel latest L vs :
  (forall v, v ∈ vs -> is_Some (l_patches L !! v)) ->
  same_shape L (fst (compact_versions sel latest L vs)) ∧
  l_pool (fst (compact_versions sel latest L vs)) = l_pool L ∧
  l_current (fst (compact_versions sel latest L vs)) = l_current L ∧
  snd (compact_versions sel latest L vs) <> Err.
Proof.
  revert latest L. induction vs as [|v vs IH]; intros latest L HD; [done|].
  cbn [compact_versions]. destruct (change_filter sel true latest (patch_at L v)) as [[latest' ps']| |]; [|done|done].
  assert (HS : same_shape L (with_patches L (<[v := ps']> (l_patches L)))).
  { pose proof (touch_shape L v ps') as H. unfold touch_patch in H.
    destruct (HD v (elem_of_list_here _ _)) as [x Ex]. by rewrite Ex in H. }
  destruct (IH latest' (with_patches L (<[v := ps']> (l_patches L)))) as (H1 & H2 & H3 & H4).
  { intros w Hw. apply HS. apply HD. by apply elem_of_list_further. }
  split; [|done]. destruct HS as (A1 & A2 & A3), H1 as (B1 & B2 & B3). repeat split; try congruence.
  - intros H. by apply A3, B3.
  - intros H. by apply B3, A3.
Qed.

Lemma keys_in_lookup {A} lo hi (m : gmap N A) v :
  keys_in lo hi m !! v = if decide (lo <= v <= hi)%N then m !! v else None.
Proof.
  unfold keys_in. case_decide as H.
  - destruct (m !! v) eqn:E.
    + by apply map_filter_lookup_Some.
    + apply map_filter_lookup_None. by left.
  - apply map_filter_lookup_None. right. intros x _ [H1 H2]. cbn in *. lia.
Qed.

Lemma track_log vi vj h L : consistent L ->
  fst (track vi vj (h, L)) = (h, L) ∨
  fst (track vi vj (h, L)) =
    (h, fst (compact_versions (fun _ => true) [] L (sorted_keys (keys_in vi vj (l_patches L))))).
Proof.
  intros HC. unfold track. rewrite (consistent_continuous _ HC). cbn [negb].
  destruct (last_version L) as [v|]; [|by left]. destruct (_ || _); [by left|].
  destruct (vj <? vi)%N; [by left|]. right. by destruct (compact_versions _ _ _ _).
Qed.
Lemma track_shape vi vj h L : consistent L ->
  same_shape L (snd (fst (track vi vj (h, L)))) ∧ l_pool (snd (fst (track vi vj (h, L)))) = l_pool L
  ∧ l_current (snd (fst (track vi vj (h, L)))) = l_current L ∧ fst (fst (track vi vj (h, L))) = h.
Proof.
  intros HC. destruct (track_log vi vj h L HC) as [->| ->]; [done|]. cbn.
  destruct (compact_versions_shape (fun _ => true) [] L (sorted_keys (keys_in vi vj (l_patches L)))) as (H1 & H2 & H3 & _).
  - intros v Hv. apply sorted_keys_elem in Hv. rewrite keys_in_lookup in Hv. case_decide; [done|]. by destruct Hv.
  - done.
Qed.
Lemma compact_log target h L : consistent L ->
  compact target (h, L) =
  ((h, fst (compact_versions (on_target target) [] L (sorted_keys (l_patches L)))),
   snd (compact_versions (on_target target) [] L (sorted_keys (l_patches L)))).
Proof.
  intros HC. unfold compact. rewrite (consistent_continuous _ HC). cbn [negb].
  by destruct (compact_versions _ _ _ _).
Qed.
Lemma compact_shape target h L : consistent L ->
  same_shape L (snd (fst (compact target (h, L)))) ∧ l_pool (snd (fst (compact target (h, L)))) = l_pool L
  ∧ l_current (snd (fst (compact target (h, L)))) = l_current L ∧ fst (fst (compact target (h, L))) = h.
Proof.
  intros HC. rewrite compact_log by done. cbn.
  destruct (compact_versions_shape (on_target target) [] L (sorted_keys (l_patches L))) as (H1 & H2 & H3 & _); [|done].
  intros v Hv. by apply sorted_keys_elem in Hv.
Qed.
Lemma history_log orc target h L : consistent L ->
  fst (history orc target (h, L)) = fst (compact target (h, L)).
Proof.
  intros HC. unfold history. rewrite (consistent_continuous _ HC). cbn [negb].
  rewrite compact_log by done. cbn [fst snd].
  destruct (snd (compact_versions _ _ _ _)); [|done|done].
  by destruct (read _ _).
Qed.
Lemma set_log op h L :
  let L' := snd (fst (set op (h, L))) in
  same_shape L L' ∧ l_patches L' = l_patches L.
Proof.
  unfold set. destruct (is_set _); [|done]. cbn [negb].
  destruct (apply_operation _ _ _) as [h1 [v| |]]; done.
Qed.
Lemma test_set_cases op st :
  fst (test_set op st) = st ∨ exists op', fst (test_set op st) = fst (set op' st).
Proof.
  unfold test_set. destruct st as [h L]. destruct (op_kind op); try by left.
  - right. by eexists.
  - destruct (last_version L); [|by left]. destruct (read _ _); [|by left].
    destruct (get_value _ _); [|right; by eexists|by left].
    destruct (leaf_compare_value _ _); [by left|]. right. by eexists.
Qed.

Lemma run_call_consistent c h L : consistent L -> consistent (snd (run_call (h, L) c)).
Proof.
  intros HC. destruct c; cbn [run_call].
  - pose proof (store_shape p h L) as H. destruct (store p (h, L)) as [[h' L'] r].
    destruct H as (_ & E1 & E2 & E3 & _). eapply same_shape_consistent; [|exact HC]. split; [done|]. split; [done|]. cbn. by rewrite E3.
  - by apply append_consistent.
  - by apply snapshot_consistent.
  - by apply temporal_snapshot_consistent.
  - destruct (slice_log vi vj h L HC) as [->| ->]; [done|]. by apply snapshot_consistent.
  - destruct (temporal_slice_log orc tsi tsj h L HC) as [->| ->]; [done|]. by apply temporal_snapshot_consistent.
  - eapply same_shape_consistent; [|exact HC]. apply track_shape. done.
  - unfold temporal_track. by destruct (tsj <? tsi).
  - eapply same_shape_consistent; [|exact HC]. apply set_log.
  - destruct (test_set_cases op (h, L)) as [->|(op' & ->)]; [done|].
    eapply same_shape_consistent; [|exact HC]. apply set_log.
  - eapply same_shape_consistent; [|exact HC]. apply compact_shape. done.
  - rewrite history_log by done. eapply same_shape_consistent; [|exact HC]. apply compact_shape. done.
Qed.

Lemma new_consistent T i p h h' L : new_logument T i p h = (h', Ok L) -> consistent L.
Proof.
  assert (HI : forall v : val, consistent (Lgm [0%N] v {[ 0%N := v ]} ∅ None)).
  { intros v. exists 0%nat. cbn [l_version l_patches l_snapshots]. split; [done|]. split; [|split].
    - intros w. rewrite lookup_empty. split; [by intros [? ?]|lia].
    - intros w [x Hx]. apply lookup_singleton_Some in Hx. lia.
    - rewrite lookup_singleton. by eexists. }
  assert (HM : forall h v, (match p with
      | None => (h, Ok (Lgm [0%N] v {[ 0%N := v ]} ∅ None))
      | Some p => match store p (h, (Lgm [0%N] v {[ 0%N := v ]} ∅ None)) with
                  | ((h', L'), Ok _) => (h', Ok L')
                  | ((h', _), _) => (h', Panic)
                  end
      end) = (h', Ok L) -> consistent L).
  { intros h0 v H. destruct p as [p|].
    - pose proof (run_call_consistent (CStore p) h0 _ (HI v)) as HS; cbn [run_call] in HS.
      destruct (store p _) as [[h1 L1] [u| |]]; inversion H; subst; exact HS.
    - inversion H; subst. apply HI. }
  unfold new_logument. destruct i as [s|v|].
  - destruct (unmarshal T s) as [t| |]; [|done|done]. destruct (alloc_tree h t) as [h1 v]. apply HM.
  - destruct v; [done|..]; apply HM.
  - done.
Qed.
Lemma reachable_consistent st : reachable st -> consistent (snd st).
Proof.
  induction 1 as [T i p h h' L H|[h L] c H IH Hc|h h' L H IH].
  - by eapply new_consistent.
  - by apply run_call_consistent.
  - done.
Qed.
