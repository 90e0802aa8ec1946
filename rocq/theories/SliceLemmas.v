(** Slice and TemporalSlice. *)
From Verif Require Import Base BaseSpec BaseSpecLemmas F64 Tson Serial Heap Patch Logument LogSpec BaseLemmas F64Lemmas LogLemmas
  ChangeLemmas CompactLemmas HistoryLemmas.
From Coq Require Import Lia.

Lemma range_snoc lo hi : (lo <= hi)%N -> range lo (hi + 1) = range lo hi ++ [hi].
Proof.
  intros H. unfold range. replace (N.to_nat (hi + 1 - lo)) with (S (N.to_nat (hi - lo))) by lia.
  rewrite seq_S, map_app. cbn [map]. do 2 f_equal. lia.
Qed.
Lemma slice_versions L vi vj n : l_version L = nats (S n) ->
  (forall v, is_Some (l_patches L !! v) <-> (1 <= v <= N.of_nat n)%N) -> (vj <= N.of_nat n)%N ->
  sorted_keys (keys_in vi vj (l_patches L)) = range (N.max 1 vi) (vj + 1).
Proof.
  intros Hv Hp Hle. apply sorted_unique_lt; [apply sorted_keys_sorted|apply range_sorted|].
  apply NoDup_Permutation; [apply sorted_keys_nodup|apply range_nodup|].
  intros v. rewrite sorted_keys_elem, keys_in_lookup, range_elem. case_decide.
  - rewrite Hp. lia.
  - split; [by intros [? ?]|lia].
Qed.

Lemma slice_spec vi vj h L : consistent L ->
  match slice vi vj (h, L) with
  | (st', Ok R) =>
      (vi <= vj)%N ∧ (forall n, last (l_version L) = Some n -> (vj <= n)%N) ∧
      l_version R = range (N.max 1 vi) (vj + 1) ∧
      (forall v, l_patches R !! v = if decide (vi <= v <= vj)%N then l_patches L !! v else None) ∧
      l_pool R = None ∧ l_current R = VNil ∧
      (((exists v, (vi <= v <= vj)%N ∧ is_Some (l_snapshots L !! v)) ∧ st' = (h, L) ∧
        (forall v, l_snapshots R !! v = if decide (vi <= v <= vj)%N then l_snapshots L !! v else None))
       ∨ ((forall v, (vi <= v <= vj)%N -> l_snapshots L !! v = None) ∧
          exists s, snapshot vi (h, L) = (st', Ok s) ∧ l_snapshots R = {[ vi := s ]}))
  | (_, Err) => False
  | (st', Panic) => (vj < vi)%N ∨ (exists n, last (l_version L) = Some n ∧ (n < vj)%N)
      ∨ snapshot vi (h, L) = (st', Panic)
  end.
Proof.
  intros HC. unfold slice. rewrite (consistent_continuous _ HC). cbn [negb].
  destruct (N.ltb_spec vj vi) as [Hlt|Hge]; [by left|].
  pose proof HC as (n & Hv & Hp & _). pose proof (consistent_last _ n Hv) as Hl. rewrite Hl.
  unfold last_version in Hl. rewrite Hl.
  destruct ((N.of_nat n <? vi)%N || (N.of_nat n <? vj)%N) eqn:Eb.
  { right. left. exists (N.of_nat n). split; [done|].
    apply orb_true_iff in Eb. rewrite !N.ltb_lt in Eb. lia. }
  apply orb_false_iff in Eb. rewrite !N.ltb_ge in Eb. destruct Eb as [Eb1 Eb2].
  rewrite (slice_versions L vi vj n Hv Hp Eb2).
  destruct (decide (keys_in vi vj (l_snapshots L) = ∅)) as [He|He].
  - destruct (snapshot vi (h, L)) as [st2 [s| |]] eqn:Es; cbn [l_version l_patches l_pool l_current l_snapshots].
    + split; [done|]. split; [intros m Hm; injection Hm as <-; done|]. split; [done|].
      split; [intros v; apply keys_in_lookup|]. split; [done|]. split; [done|]. right. split; [|by exists s].
      intros v Hr. assert (H : keys_in vi vj (l_snapshots L) !! v = None) by (by rewrite He).
      rewrite keys_in_lookup in H. by rewrite decide_True in H.
    + exfalso. unfold snapshot in Es. destruct (find_latest L vi) as [L1 [[w s]| |]]; [|done|done].
      destruct (if (w =? vi)%N then _ else _) as [h1 [t| |]]; [|done|done].
      by destruct (l_snapshots L1 !! vi).
    + by right; right.
  - cbn [l_version l_patches l_pool l_current l_snapshots].
    split; [done|]. split; [intros m Hm; injection Hm as <-; done|]. split; [done|].
    split; [intros v; apply keys_in_lookup|]. split; [done|]. split; [done|]. left.
    split; [|split; [done|intros v; apply keys_in_lookup]].
    apply map_choose in He as (v & x & Hx). exists v. rewrite keys_in_lookup in Hx.
    destruct (decide (vi <= v <= vj)%N) as [Hr|Hr]; [|done]. split; [done|]. by eexists.
Qed.

(** Which versions a slice can be asked for. *)
Lemma range_steps lo n : steps_by_one lo (map (fun i => (lo + 1 + N.of_nat i)%N) (seq 0 n)) = true.
Proof.
  revert lo. induction n as [|n IH]; intros lo; [done|]. cbn [seq map steps_by_one].
  rewrite <- seq_shift, map_map.
  replace (lo + 1 + N.of_nat 0)%N with (lo + 1)%N by lia. rewrite N.eqb_refl. cbn [andb].
  rewrite <- (IH (lo + 1)%N) at 1. f_equal. apply map_ext. intros i. lia.
Qed.
Lemma range_cons lo hi : (lo < hi)%N -> range lo hi = lo :: range (lo + 1) hi.
Proof.
  intros H. unfold range. replace (N.to_nat (hi - lo)) with (S (N.to_nat (hi - (lo + 1)))) by lia.
  cbn [seq map]. f_equal; [lia|]. rewrite <- seq_shift, map_map. apply map_ext. intros i. lia.
Qed.
Lemma range_continuous R lo hi : l_version R = range lo hi -> is_continuous R = (R, true).
Proof.
  intros Hv. unfold is_continuous. rewrite Hv.
  rewrite (merge_sort_sorted _ (range_sorted lo hi)).
  assert (E2 : with_version R (range lo hi) = R) by (rewrite <- Hv; by destruct R).
  rewrite E2. destruct (decide (lo < hi)%N) as [Hlt|Hge].
  - rewrite (range_cons _ _ Hlt).
    assert (Hst : steps_by_one lo (range (lo + 1) hi) = true) by apply range_steps.
    rewrite Hst. by destruct (range (lo + 1) hi).
  - unfold range. by replace (N.to_nat (hi - lo)) with 0%nat by lia.
Qed.
Lemma range_last lo hi : (lo <= hi)%N -> last (range lo (hi + 1)) = Some hi.
Proof. intros H. rewrite range_snoc by done. by rewrite last_snoc. Qed.

Lemma find_latest_slice R lo hi k : l_version R = range lo (hi + 1) -> (lo <= hi)%N ->
  (k <= hi)%N -> (exists w, (w <= k)%N ∧ is_Some (l_snapshots R !! w)) ->
  exists w s, find_latest R k = (R, Ok (w, s)) ∧ (w <= k)%N ∧ l_snapshots R !! w = Some s.
Proof.
  intros Hv Hle Hk (w & Hw & Hs). unfold find_latest. rewrite (range_continuous _ _ _ Hv). cbn [negb].
  unfold last_version. rewrite Hv, range_last by done.
  destruct (N.ltb_spec hi k) as [?|_]; [lia|].
  set (l := filter (fun w => (w <= k)%N) (sorted_keys (l_snapshots R))).
  assert (Hin : w ∈ l) by (apply elem_of_list_filter; split; [done|by apply sorted_keys_elem]).
  destruct (last l) as [u|] eqn:El.
  - apply last_Some_elem_of in El. apply elem_of_list_filter in El as [Hu1 Hu2].
    apply sorted_keys_elem in Hu2 as [s Hu2]. exists u, s. rewrite Hu2. done.
  - apply last_None in El. rewrite El in Hin. by apply elem_of_nil in Hin.
Qed.
Lemma find_latest_slice_bad R lo hi k : l_version R = range lo (hi + 1) ->
  ((hi < lo)%N ∨ (forall w, (w <= k)%N -> l_snapshots R !! w = None)) ->
  exists e, (e = Err ∨ e = Panic) ∧ find_latest R k = (R, e).
Proof.
  intros Hv H. unfold find_latest. rewrite (range_continuous _ _ _ Hv). cbn [negb].
  destruct (decide (hi < lo)%N) as [Hlt|Hge].
  - unfold last_version. rewrite Hv. unfold range. replace (N.to_nat (hi + 1 - lo)) with 0%nat by lia.
    exists Panic. cbn. auto.
  - destruct H as [?|H]; [done|]. unfold last_version. rewrite Hv, range_last by lia.
    destruct (N.ltb_spec hi k) as [?|_]; [exists Panic; auto|].
    destruct (last _) as [u|] eqn:El; [|exists Err; auto].
    apply last_Some_elem_of in El. apply elem_of_list_filter in El as [Hu1 Hu2].
    apply sorted_keys_elem in Hu2. rewrite H in Hu2 by done. by destruct Hu2.
Qed.
Lemma snapshot_bad R k h e : (e = Err ∨ e = Panic) -> find_latest R k = (R, e) ->
  snd (snapshot k (h, R)) = Panic.
Proof. intros He H. unfold snapshot. rewrite H. by destruct He as [-> | ->]. Qed.

(** ** TemporalSlice *)
Lemma tslice_patches_spec L tsi tsj vs :
  NoDup vs ->
  (forall v, snd (tslice_patches L tsi tsj vs) !! v =
    if decide (v ∈ vs) then
      match filter (in_range tsi tsj) (patch_at L v) with [] => None | ps => Some ps end
    else None) ∧
  fst (tslice_patches L tsi tsj vs) =
    concat (map (fun v => replicate (length (filter (in_range tsi tsj) (patch_at L v))) v) vs).
Proof.
  induction vs as [|w vs IH]; intros HN; cbn [tslice_patches].
  - split; [|done]. intros v. rewrite decide_False; [done|]. by intros ?%elem_of_nil.
  - apply NoDup_cons in HN as [Hw HN]. destruct (IH HN) as [I1 I2].
    destruct (tslice_patches L tsi tsj vs) as [vers m]. cbn [fst snd] in *.
    unfold tslice_ops. rewrite (filter_bool _ (in_range tsi tsj)) by (intros p; apply in_time_range).
    split; [|cbn [map concat]; by rewrite I2].
    intros v. destruct (decide (v = w)) as [->|Hne].
    + rewrite (decide_True (P := w ∈ w :: vs)) by apply elem_of_list_here.
      destruct (filter _ _) as [|p ps]; [|by rewrite lookup_insert].
      rewrite I1. by rewrite decide_False.
    + set (kept := filter (in_range tsi tsj) (patch_at L w)).
      assert (E : (match kept with [] => m | _ :: _ => <[w := kept]> m end) !! v = m !! v).
      { destruct kept; [done|]. by rewrite lookup_insert_ne. }
      rewrite E, I1. destruct (decide (v ∈ vs)) as [Hv|Hv].
      * rewrite decide_True; [done|]. by apply elem_of_list_further.
      * rewrite decide_False; [done|]. intros ?%elem_of_cons. tauto.
Qed.
Lemma tslice_snapshots_spec h L tsi tsj vs m : tslice_snapshots h L tsi tsj vs = Ok m ->
  NoDup vs -> (forall v, v ∈ vs -> is_Some (l_snapshots L !! v)) ->
  forall v s, m !! v = Some s <->
    v ∈ vs ∧ l_snapshots L !! v = Some s ∧ exists lts, latest_ts_of h s = Ok lts ∧ tsi <= lts <= tsj.
Proof.
  revert m. induction vs as [|w vs IH]; intros m H HN HS v s; cbn [tslice_snapshots] in H.
  - injection H as <-. split; [done|]. by intros [?%elem_of_nil _].
  - apply NoDup_cons in HN as [Hw HN].
    destruct (HS w (elem_of_list_here _ _)) as [sw Esw]. rewrite Esw in H.
    change (default VNil (Some sw)) with sw in H.
    destruct (latest_ts_of h sw) as [lts| |] eqn:El; [|done|done]. cbn [rbind] in H.
    destruct (tslice_snapshots h L tsi tsj vs) as [m'| |]; [|done|done]. cbn [rbind] in H. injection H as <-.
    assert (IH' := IH m' eq_refl HN (fun u Hu => HS u (elem_of_list_further _ _ _ Hu)) v s).
    rewrite elem_of_cons. destruct (decide (v = w)) as [->|Hne].
    + assert (Hm : m' !! w = None).
      { destruct (m' !! w) as [x|] eqn:Ex; [|done]. 
        assert (m' !! w = Some x <-> w ∈ vs ∧ _ ∧ _) as HX by (apply (IH m' eq_refl HN (fun u Hu => HS u (elem_of_list_further _ _ _ Hu)) w x)).
        destruct (proj1 HX Ex) as [? _]. done. }
      destruct (in_time tsi tsj lts) eqn:Et.
      * rewrite lookup_insert. split.
        -- intros E. injection E as <-. split; [by left|]. split; [done|]. exists lts. split; [done|].
           unfold in_time in Et. rewrite andb_true_iff, !Z.leb_le in Et. done.
        -- intros (_ & E & _). congruence.
      * rewrite Hm. split; [done|]. intros (_ & E & lts' & El' & Hr). assert (s = sw) as -> by congruence.
        rewrite El in El'. injection El' as <-. unfold in_time in Et.
        rewrite andb_false_iff, !Z.leb_gt in Et. lia.
    + assert (E : (if in_time tsi tsj lts then <[w:=sw]> m' else m') !! v = m' !! v).
      { destruct (in_time _ _ _); [by rewrite lookup_insert_ne|done]. }
      rewrite E, IH'. split; [intros (? & ?); split; [by right|done]|].
      intros ([?|?] & ?); [done|by split].
Qed.

Lemma tslice_snapshots_bad h L tsi tsj vs :
  (forall v, v ∈ vs -> is_Some (l_snapshots L !! v)) ->
  match tslice_snapshots h L tsi tsj vs with
  | Ok _ => True
  | _ => exists v s, l_snapshots L !! v = Some s ∧ forall lts, latest_ts_of h s <> Ok lts
  end.
Proof.
  induction vs as [|w vs IH]; intros HS; cbn [tslice_snapshots]; [done|].
  destruct (HS w (elem_of_list_here _ _)) as [sw Esw]. rewrite Esw.
  change (default VNil (Some sw)) with sw.
  destruct (latest_ts_of h sw) as [lts| |] eqn:El; cbn [rbind]; [|exists w, sw; split; [done|congruence]..].
  specialize (IH (fun u Hu => HS u (elem_of_list_further _ _ _ Hu))).
  by destruct (tslice_snapshots h L tsi tsj vs).
Qed.
Lemma replicate_versions_nil L tsi tsj vs :
  concat (map (fun v => replicate (length (filter (in_range tsi tsj) (patch_at L v))) v) vs) = [] ->
  filter (in_range tsi tsj) (concat (map (patch_at L) vs)) = [].
Proof.
  induction vs as [|w vs IH]; [done|]. cbn [map concat]. rewrite filter_app. intros H.
  apply app_eq_nil in H as [H1 H2]. rewrite IH by done.
  destruct (filter (in_range tsi tsj) (patch_at L w)); [done|]. discriminate H1.
Qed.
Lemma tslice_versions_all L tsi tsj n : l_version L = nats (S n) ->
  (forall v, is_Some (l_patches L !! v) <-> (1 <= v <= N.of_nat n)%N) ->
  forall v, v ∈ sorted_keys (l_patches L) ∨ filter (in_range tsi tsj) (patch_at L v) = [].
Proof.
  intros Hv Hp v. destruct (decide (v ∈ sorted_keys (l_patches L))) as [H|H]; [by left|right].
  rewrite sorted_keys_elem in H. by rewrite no_patch_empty.
Qed.
Lemma temporal_slice_spec orc tsi tsj h L : consistent L ->
  match temporal_slice orc tsi tsj (h, L) with
  | (st', Ok R) =>
      tsi <= tsj ∧ l_pool R = None ∧ l_current R = VNil ∧
      l_version R = concat (map (fun v => replicate (length (filter (in_range tsi tsj) (patch_at L v))) v)
                              (sorted_keys (l_patches L))) ∧
      (forall v, l_patches R !! v =
         match filter (in_range tsi tsj) (patch_at L v) with [] => None | ps => Some ps end) ∧
      ((st' = (h, L) ∧ forall v s, l_snapshots R !! v = Some s <->
          l_snapshots L !! v = Some s ∧ exists lts, latest_ts_of h s = Ok lts ∧ tsi <= lts <= tsj)
       ∨ ((forall v s lts, l_snapshots L !! v = Some s -> latest_ts_of h s = Ok lts -> ~ (tsi <= lts <= tsj)) ∧
          exists s v0, temporal_snapshot orc tsi (h, L) = (st', Ok s) ∧ l_snapshots R = {[ v0 := s ]}
             ∧ head (l_version R) = Some v0))
  | (_, Err) => False
  | (_, Panic) => tsj < tsi
      ∨ (exists v s, l_snapshots L !! v = Some s ∧ forall lts, latest_ts_of h s <> Ok lts)
      ∨ ((forall v s lts, l_snapshots L !! v = Some s -> latest_ts_of h s = Ok lts -> ~ (tsi <= lts <= tsj)) ∧
         (filter (in_range tsi tsj) (all_ops L) = [] ∨ snd (temporal_snapshot orc tsi (h, L)) = Panic))
  end.
Proof.
  intros HC. unfold temporal_slice. rewrite (consistent_continuous _ HC). cbn [negb].
  destruct (Z.ltb_spec tsj tsi) as [Hlt|Hge]; [by left|].
  pose proof (tslice_snapshots_bad h L tsi tsj (sorted_keys (l_snapshots L)) (fun v => proj1 (sorted_keys_elem _ v))) as HB.
  destruct (tslice_snapshots h L tsi tsj (sorted_keys (l_snapshots L))) as [snaps| |] eqn:Es; [|by right; left..].
  clear HB.
  pose proof (tslice_snapshots_spec _ _ _ _ _ _ Es (sorted_keys_nodup _) (fun v => proj1 (sorted_keys_elem _ v))) as HS.
  destruct (tslice_patches_spec L tsi tsj (sorted_keys (l_patches L)) (sorted_keys_nodup _)) as [H1 H2].
  pose proof HC as (n & Hv & Hp & _).
  pose proof (tslice_versions_all L tsi tsj n Hv Hp) as HV.
  destruct (tslice_patches L tsi tsj (sorted_keys (l_patches L))) as [vers m]. cbn [fst snd] in *.
  assert (HM : forall v, m !! v = match filter (in_range tsi tsj) (patch_at L v) with [] => None | ps => Some ps end).
  { intros v. rewrite H1. case_decide as Hd; [done|]. destruct (HV v) as [?|E]; [done|]. by rewrite E. }
  destruct (decide (snaps = ∅)) as [He|He].
  - assert (HO : forall v s lts, l_snapshots L !! v = Some s -> latest_ts_of h s = Ok lts -> ~ (tsi <= lts <= tsj)).
    { intros v s' lts Hs' Hl Hr. assert (snaps !! v = Some s') as Hx.
      { apply HS. split; [apply sorted_keys_elem; by eexists|]. split; [done|]. by exists lts. }
      by rewrite He in Hx. }
    destruct vers as [|v0 vers].
    { right. right. split; [done|]. left. rewrite <- (all_ops_versions L _ HC eq_refl).
      by apply replicate_versions_nil. }
    destruct (temporal_snapshot orc tsi (h, L)) as [st2 [s| |]] eqn:Et.
    + cbn [l_pool l_current l_version l_patches l_snapshots]. split; [done|]. split; [done|]. split; [done|].
      split; [done|]. split; [done|]. right. split; [done|]. by exists s, v0.
    + exfalso. revert Et. unfold temporal_snapshot. destruct (l_version L); [done|].
      destruct (last_version L); [|done]. destruct (pick_snapshot _ _ _ _ _); [|done|done].
      destruct (_ <=? _)%N; [destruct (l_pool L); [destruct (append _) as [[? ?] ?]|done]|];
        by destruct (apply_patch _ _ _) as [? [?| |]].
    + right. right. split; [done|]. by right.
  - cbn [l_pool l_current l_version l_patches l_snapshots]. split; [done|]. split; [done|]. split; [done|].
    split; [done|]. split; [done|]. left. split; [done|]. intros v s. rewrite HS. split; [tauto|].
    intros [Hx Hy]. split; [apply sorted_keys_elem; by eexists|done].
Qed.

(** A version list with a repeated entry is rejected by every call that checks it. *)
Lemma steps_nodup v vs : steps_by_one v vs = true -> forall w, w ∈ vs -> (v < w)%N.
Proof.
  revert v. induction vs as [|u vs IH]; intros v H w Hw; [by apply elem_of_nil in Hw|].
  cbn in H. apply andb_true_iff in H as [H1 H2]. apply N.eqb_eq in H1.
  apply elem_of_cons in Hw as [->|Hw]; [lia|]. specialize (IH _ H2 _ Hw). lia.
Qed.
Lemma steps_nodup2 v vs : steps_by_one v vs = true -> NoDup (v :: vs).
Proof.
  revert v. induction vs as [|u vs IH]; intros v H; [constructor; [by intros ?%elem_of_nil|constructor]|].
  constructor.
  - intros Hv. pose proof (steps_nodup _ _ H _ Hv). lia.
  - apply IH. cbn in H. by apply andb_true_iff in H as [_ ?].
Qed.
Lemma repeated_not_continuous R : ~ NoDup (l_version R) -> exists R', is_continuous R = (R', false).
Proof.
  intros H. unfold is_continuous. destruct (l_version R) as [|v [|w vs]] eqn:E.
  - destruct H. constructor.
  - destruct H. constructor; [by intros ?%elem_of_nil|constructor].
  - eexists. rewrite <- E. f_equal.
    pose proof (merge_sort_Permutation N.le (l_version R)) as HP.
    destruct (merge_sort N.le (l_version R)) as [|u us] eqn:Em.
    { apply Permutation_nil in HP. rewrite E in HP. done. }
    destruct (steps_by_one u us) eqn:Es; [|done]. apply steps_nodup2 in Es.
    rewrite HP, E in Es. done.
Qed.
