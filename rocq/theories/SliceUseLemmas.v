(** Proofs about logs made by Slice that are used further. *)
From Verif Require Import Base BaseSpec BaseSpecLemmas F64 Tson Serial Heap Patch Logument LogSpec BaseLemmas F64Lemmas LogLemmas
  ChangeLemmas CompactLemmas HistoryLemmas SliceLemmas SliceUseSpec.
From Coq Require Import Lia.

(** [R] shows the versions from [lo] to [hi] of [L]. *)
Record window (lo hi n : N) (L R : logument) : Prop := Window {
  w_log : consistent L;
  w_last : last (l_version L) = Some n;
  w_n : (hi <= n)%N;
  w_lo : (lo <= hi)%N;
  w_hi : (1 <= hi)%N;
  w_version : l_version R = range (N.max 1 lo) (hi + 1);
  w_patches : forall v, l_patches R !! v = if decide (lo <= v <= hi)%N then l_patches L !! v else None;
  w_snapshots : forall v, l_snapshots R !! v = if decide (lo <= v <= hi)%N then l_snapshots L !! v else None;
  w_base : is_Some (l_snapshots L !! lo)
}.


Lemma slice_window vi vj h L h1 L1 R : consistent L -> slice vi vj (h, L) = ((h1, L1), Ok R) ->
  (0 < vj)%N -> is_Some (l_snapshots L1 !! vi) ->
  exists n, window vi vj n L1 R ∧ last (l_version L) = Some n ∧ l_pool L1 = l_pool L ∧ l_pool R = None.
Proof.
  intros HC Es H0 HB. pose proof (slice_spec vi vj h L HC) as H. rewrite Es in H.
  destruct H as (Hle & Hn & Hv & Hp & HpR & _ & Hsn).
  destruct HC as (n & HvL & Hrest). assert (HC : consistent L) by (exists n; done).
  pose proof (consistent_last L n HvL) as Hl. unfold last_version in Hl. exists (N.of_nat n).
  destruct Hsn as [(_ & E1 & Hsn)|(Hno & s & E1 & Hsn)].
  - injection E1 as -> ->. split; [|done]. constructor; try done; [by apply Hn|lia].
  - pose proof (snapshot_log vi h L HC) as HS. pose proof (snapshot_consistent vi h L HC) as HC1.
    rewrite E1 in HS, HC1. cbn in HC1. destruct HS as (n' & Hn' & HS).
    assert (EL : L1 = with_snapshots L (<[vi := s]> (l_snapshots L))).
    { destruct HS as [->|(t & Et & _ & _ & ->)]; [|congruence].
      rewrite (Hno vi) in HB by lia. by destruct HB. }
    subst L1. split; [|done]. constructor; try done; [by apply Hn|lia|].
    intros v. rewrite Hsn. cbn [l_snapshots with_snapshots].
    destruct (decide (v = vi)) as [->|Hne].
    + rewrite lookup_singleton, lookup_insert, decide_True by lia. done.
    + rewrite lookup_singleton_ne, lookup_insert_ne by done. case_decide; [by rewrite Hno|done].
Qed.

Lemma last_filter_max {A} (m : gmap N A) k w : is_Some (m !! w) -> (w <= k)%N ->
  (forall u, is_Some (m !! u) -> (u <= k)%N -> (u <= w)%N) ->
  last (filter (fun u => (u <= k)%N) (sorted_keys m)) = Some w.
Proof.
  intros Hw Hk Hm.
  pose proof (filter_sorted (fun u => (u <= k)%N) (sorted_keys m) (sorted_keys_sorted m)) as HS.
  assert (HE : forall u, u ∈ filter (fun u => (u <= k)%N) (sorted_keys m) <-> (u <= k)%N ∧ is_Some (m !! u)).
  { intros u. by rewrite elem_of_list_filter, sorted_keys_elem. }
  revert HS HE. generalize (filter (fun u => (u <= k)%N) (sorted_keys m)). intros l HS HE.
  destruct (last l) as [u|] eqn:El.
  - f_equal. apply N.le_antisymm.
    + apply last_Some_elem_of in El. apply HE in El as [H1 H2]. auto.
    + apply last_Some in El as (l0 & ->). assert (Hwl : w ∈ l0 ++ [u]) by (by apply HE).
      apply elem_of_app in Hwl as [Hwl|Hwl%elem_of_list_singleton]; [|lia].
      clear -HS Hwl. induction l0 as [|a l0 IH]; [by apply elem_of_nil in Hwl|].
      inversion HS as [|? ? HS' HF]; subst. apply elem_of_cons in Hwl as [->|Hwl]; [|auto].
      rewrite Forall_forall in HF. apply HF. apply elem_of_app. right. by apply elem_of_list_singleton.
  - apply last_None in El. subst l. assert (Hwl : w ∈ @nil N) by (by apply HE). by apply elem_of_nil in Hwl.
Qed.

Lemma window_continuous lo hi n L R : window lo hi n L R ->
  is_continuous L = (L, true) ∧ is_continuous R = (R, true) ∧ last_version L = Some n ∧ last_version R = Some hi.
Proof.
  intros W. split; [apply consistent_continuous, W|]. split; [eapply range_continuous, W|].
  split; [apply W|]. unfold last_version. rewrite (w_version _ _ _ _ _ W). apply range_last.
  pose proof (w_lo _ _ _ _ _ W). pose proof (w_hi _ _ _ _ _ W). lia.
Qed.
Lemma window_find lo hi n L R k : window lo hi n L R -> (lo <= k <= hi)%N ->
  exists w s, (lo <= w <= k)%N ∧ find_latest L k = (L, Ok (w, s)) ∧ find_latest R k = (R, Ok (w, s)).
Proof.
  intros W Hk. pose proof (find_latest_spec L k (w_log _ _ _ _ _ W)) as HF.
  destruct (window_continuous _ _ _ _ _ W) as (CL & CR & VL & VR). pose proof (w_n _ _ _ _ _ W) as Hn.
  destruct (find_latest L k) as [L1 [[w s]| |]] eqn:EF.
  - destruct HF as (-> & Hw & Hs & Hm & _). pose proof (Hm lo (w_base _ _ _ _ _ W) ltac:(lia)) as Hlo.
    exists w, s. split; [done|]. split; [done|]. unfold find_latest. rewrite CR. cbn [negb]. rewrite VR.
    destruct (N.ltb_spec hi k) as [?|_]; [lia|].
    assert (Hs2 : l_snapshots R !! w = Some s) by (rewrite (w_snapshots _ _ _ _ _ W), decide_True by lia; done).
    rewrite (last_filter_max (l_snapshots R) k w); [by rewrite Hs2|by eexists|done|].
    intros u Hu Hle. rewrite (w_snapshots _ _ _ _ _ W) in Hu. case_decide; [auto|by destruct Hu].
  - done.
  - destruct HF as (_ & n' & Hn' & Hlt). apply consistent_last in Hn'. rewrite VL in Hn'. injection Hn' as ->. lia.
Qed.

Lemma window_patch_at lo hi n L R v : window lo hi n L R -> (lo <= v <= hi)%N -> patch_at R v = patch_at L v.
Proof. intros W Hv. unfold patch_at. rewrite (w_patches _ _ _ _ _ W), decide_True by done. done. Qed.
Lemma window_keys {A} lo hi (m m' : gmap N A) a b :
  (forall v, m' !! v = if decide (lo <= v <= hi)%N then m !! v else None) ->
  (lo <= a)%N -> (b <= hi)%N -> keys_in a b m' = keys_in a b m.
Proof.
  intros H Ha Hb. apply map_eq. intros v. rewrite !keys_in_lookup. case_decide as E; [|done].
  rewrite H, decide_True by lia. done.
Qed.

(** The two states after a call, with the same documents. *)
Definition paired (lo hi n : N) (s s' : state) : Prop := fst s = fst s' ∧ window lo hi n (snd s) (snd s').

Lemma window_snapshot lo hi n L R k h : window lo hi n L R -> (lo <= k <= hi)%N ->
  snd (snapshot k (h, L)) = snd (snapshot k (h, R)) ∧
  paired lo hi n (fst (snapshot k (h, L))) (fst (snapshot k (h, R))) ∧
  l_pool (snd (fst (snapshot k (h, L)))) = l_pool L ∧ l_pool (snd (fst (snapshot k (h, R)))) = l_pool R.
Proof.
  intros W Hk. destruct (window_find _ _ _ _ _ k W Hk) as (w & s & Hw & EL & ER).
  pose proof (snapshot_consistent k h L (w_log _ _ _ _ _ W)) as HC.
  unfold snapshot in *. rewrite EL in *. rewrite ER.
  assert (Em : map (patch_at R) (seqN (w + 1) (N.to_nat (k - w))) = map (patch_at L) (seqN (w + 1) (N.to_nat (k - w)))).
  { assert (HQ : (w + 1 + N.of_nat (N.to_nat (k - w)) <= hi + 1)%N) by lia.
    assert (HQ2 : (lo <= w + 1)%N) by lia. revert HQ HQ2. generalize (w + 1)%N (N.to_nat (k - w)). intros a m.
    revert a. induction m as [|m IH]; intros a H1 H2; [done|]. cbn [seqN map].
    rewrite (window_patch_at _ _ _ _ _ a W) by lia. f_equal. apply IH; lia. }
  rewrite Em. destruct (if (w =? k)%N then _ else _) as [h1 [t| |]]; try done.
  assert (Ek : l_snapshots R !! k = l_snapshots L !! k) by (rewrite (w_snapshots _ _ _ _ _ W), decide_True by lia; done).
  rewrite Ek. destruct (l_snapshots L !! k) as [s'|]; cbn in *; [done|]. split; [done|]. split; [|done].
  split; [done|]. destruct W as [W1 W2 W3 W4 W5 W6 W7 W8 W9]. constructor; try done.
  - intros v. cbn [l_snapshots with_snapshots snd]. destruct (decide (v = k)) as [->|Hne].
    + rewrite !lookup_insert, decide_True by lia. done.
    + rewrite !lookup_insert_ne by done. apply W8.
  - cbn [l_snapshots with_snapshots snd]. destruct (decide (lo = k)) as [->|Hne].
    + rewrite lookup_insert. by eexists.
    + by rewrite lookup_insert_ne.
Qed.

Lemma window_slice lo hi n L R a b h : window lo hi n L R -> (lo <= a <= hi)%N -> (lo <= b <= hi)%N ->
  snd (slice a b (h, L)) = snd (slice a b (h, R)) ∧
  paired lo hi n (fst (slice a b (h, L))) (fst (slice a b (h, R))) ∧
  l_pool (snd (fst (slice a b (h, L)))) = l_pool L ∧ l_pool (snd (fst (slice a b (h, R)))) = l_pool R.
Proof.
  intros W Ha Hb. destruct (window_continuous _ _ _ _ _ W) as (CL & CR & VL & VR).
  pose proof (w_n _ _ _ _ _ W) as Hn. unfold slice. rewrite CL, CR, VL, VR. cbn [negb].
  destruct (b <? a)%N; [done|].
  destruct (N.ltb_spec n a) as [?|_]; [lia|]. destruct (N.ltb_spec n b) as [?|_]; [lia|].
  destruct (N.ltb_spec hi a) as [?|_]; [lia|]. destruct (N.ltb_spec hi b) as [?|_]; [lia|]. cbn [orb].
  rewrite (window_keys lo hi (l_snapshots L) (l_snapshots R) a b) by (try lia; apply W).
  rewrite (window_keys lo hi (l_patches L) (l_patches R) a b) by (try lia; apply W).
  case_decide; [|done].
  destruct (window_snapshot lo hi n L R a h W Ha) as (S1 & S2 & S3 & S4).
  destruct (snapshot a (h, L)) as [st1 r1], (snapshot a (h, R)) as [st2 r2]. cbn [fst snd] in *. subst r2.
  by destruct r1.
Qed.

Lemma compact_versions_window sel vs lo hi : (forall v, v ∈ vs -> (lo <= v <= hi)%N) ->
  forall latest L R n, (forall v, v ∈ vs -> is_Some (l_patches L !! v)) -> window lo hi n L R ->
  snd (compact_versions sel latest L vs) = snd (compact_versions sel latest R vs) ∧
  window lo hi n (fst (compact_versions sel latest L vs)) (fst (compact_versions sel latest R vs)) ∧
  l_pool (fst (compact_versions sel latest L vs)) = l_pool L ∧
  l_pool (fst (compact_versions sel latest R vs)) = l_pool R.
Proof.
  induction vs as [|v vs IH]; intros Hvs latest L R n HP W; cbn [compact_versions]; [done|].
  pose proof (Hvs v (elem_of_list_here _ _)) as Hv. rewrite (window_patch_at _ _ _ _ _ v W Hv).
  destruct (change_filter sel true latest (patch_at L v)) as [[latest' ps]| |]; [|done|done].
  apply (IH ltac:(intros u Hu; apply Hvs; by apply elem_of_list_further) latest'
    (with_patches L (<[v := ps]> (l_patches L))) (with_patches R (<[v := ps]> (l_patches R)))).
  - intros u Hu. cbn. destruct (decide (u = v)) as [->|Hne]; [rewrite lookup_insert; by eexists|].
    rewrite lookup_insert_ne by done. apply HP. by apply elem_of_list_further.
  - destruct W as [W1 W2 W3 W4 W5 W6 W7 W8 W9]. constructor; try done.
    + apply (same_shape_consistent L); [|done]. split; [done|]. split; [done|]. intros u. cbn.
      destruct (decide (u = v)) as [->|Hne]; [|by rewrite lookup_insert_ne].
      rewrite lookup_insert. split; intros _; [apply HP; apply elem_of_list_here|by eexists].
    + intros u. cbn. destruct (decide (u = v)) as [->|Hne].
      * rewrite !lookup_insert, decide_True by lia. done.
      * rewrite !lookup_insert_ne by done. apply W7.
Qed.
Lemma window_track lo hi n L R a b h : window lo hi n L R -> (lo <= a <= hi)%N -> (lo <= b <= hi)%N ->
  snd (track a b (h, L)) = snd (track a b (h, R)) ∧
  paired lo hi n (fst (track a b (h, L))) (fst (track a b (h, R))) ∧
  l_pool (snd (fst (track a b (h, L)))) = l_pool L ∧ l_pool (snd (fst (track a b (h, R)))) = l_pool R.
Proof.
  intros W Ha Hb. destruct (window_continuous _ _ _ _ _ W) as (CL & CR & VL & VR).
  pose proof (w_n _ _ _ _ _ W) as Hn. unfold track. rewrite CL, CR, VL, VR. cbn [negb].
  destruct (N.ltb_spec n a) as [?|_]; [lia|]. destruct (N.ltb_spec n b) as [?|_]; [lia|].
  destruct (N.ltb_spec hi a) as [?|_]; [lia|]. destruct (N.ltb_spec hi b) as [?|_]; [lia|]. cbn [orb].
  destruct (b <? a)%N; [done|].
  rewrite (window_keys lo hi (l_patches L) (l_patches R) a b) by (try lia; apply W).
  destruct (compact_versions_window (fun _ => true) (sorted_keys (keys_in a b (l_patches L))) lo hi) with (latest := @nil (string * any)) (L := L) (R := R) (n := n)
    as (S1 & S2 & S3 & S4); [| |done|].
  - intros v Hv. apply sorted_keys_elem in Hv. rewrite keys_in_lookup in Hv. case_decide; [lia|by destruct Hv].
  - intros v Hv. apply sorted_keys_elem in Hv. rewrite keys_in_lookup in Hv. case_decide; [done|by destruct Hv].
  - destruct (compact_versions _ _ L _) as [L2 r2], (compact_versions _ _ R _) as [R2 r3]. cbn [fst snd] in *.
    subst r3. done.
Qed.

Lemma about_step lo hi n L R h c : window lo hi n L R -> about lo hi c ->
  snd (ask c (h, L)) = snd (ask c (h, R)) ∧ paired lo hi n (fst (ask c (h, L))) (fst (ask c (h, R))).
Proof.
  intros W Hc. destruct c as [| |k| |a b| |a b| | | | |]; cbn [about] in Hc; try done; cbn [ask].
  - destruct (window_snapshot lo hi n L R k h W Hc) as (S1 & S2 & _).
    destruct (snapshot k (h, L)) as [s1 r1], (snapshot k (h, R)) as [s2 r2]. cbn [fst snd] in *. by subst r2.
  - destruct (window_slice lo hi n L R a b h W) as (S1 & S2 & _); [apply Hc|apply Hc|].
    destruct (slice a b (h, L)) as [s1 r1], (slice a b (h, R)) as [s2 r2]. cbn [fst snd] in *. by subst r2.
  - destruct (window_track lo hi n L R a b h W) as (S1 & S2 & _); [apply Hc|apply Hc|].
    destruct (track a b (h, L)) as [s1 r1], (track a b (h, R)) as [s2 r2]. cbn [fst snd] in *. by subst r2.
Qed.
Lemma about_steps lo hi n cs : Forall (about lo hi) cs -> forall s s', paired lo hi n s s' ->
  snd (asks cs s) = snd (asks cs s') ∧ paired lo hi n (fst (asks cs s)) (fst (asks cs s')).
Proof.
  induction 1 as [|c cs Hc HF IH]; intros [h L] [h' R] [E W]; cbn [fst snd] in E, W; subst h'; [done|]. cbn [asks].
  destruct (about_step lo hi n L R h c W Hc) as [A1 A2].
  destruct (ask c (h, L)) as [s1 a1], (ask c (h, R)) as [s2 a2]. cbn [fst snd] in A1, A2. subst a2.
  destruct (IH s1 s2 A2) as [B1 B2].
  destruct (asks cs s1) as [s3 l3], (asks cs s2) as [s4 l4]. cbn [fst snd] in *. by subst l4.
Qed.
Lemma slice_same_answers vi vj h L h1 L1 R cs : reachable (h, L) -> slice vi vj (h, L) = ((h1, L1), Ok R) ->
  (0 < vj)%N -> is_Some (l_snapshots L1 !! vi) -> Forall (about vi vj) cs ->
  snd (asks cs (h1, R)) = snd (asks cs (h1, L1)) ∧ fst (fst (asks cs (h1, R))) = fst (fst (asks cs (h1, L1))).
Proof.
  intros HR Es H0 HB HF. apply reachable_consistent in HR. cbn in HR.
  destruct (slice_window vi vj h L h1 L1 R HR Es H0 HB) as (n & W & _).
  destruct (about_steps vi vj n cs HF (h1, L1) (h1, R)) as [A1 [A2 _]]; [done|]. by rewrite A1, A2.
Qed.

(** ** A slice up to the latest version goes on like the log *)
Definition tailed (lo : N) (s s' : state) : Prop :=
  exists n, paired lo n n s s' ∧ l_pool (snd s) = l_pool (snd s').

Lemma window_bad lo n L R k h : window lo n n L R -> (n < k)%N ->
  snapshot k (h, L) = ((h, L), Panic) ∧ snapshot k (h, R) = ((h, R), Panic).
Proof.
  intros W Hk. destruct (window_continuous _ _ _ _ _ W) as (CL & CR & VL & VR).
  unfold snapshot, find_latest. rewrite CL, CR. cbn [negb]. rewrite VL, VR.
  destruct (N.ltb_spec n k) as [_|?]; [done|lia].
Qed.
Lemma range_grown R lo hi : l_version R = range lo (hi + 1) -> (lo <= hi)%N -> is_grown R = true.
Proof.
  intros Hv Hle. unfold is_grown. rewrite Hv, range_snoc by done. rewrite reverse_snoc.
  destruct (decide (lo = hi)) as [->|Hne].
  - unfold range. by replace (N.to_nat (hi - hi)) with 0%nat by lia.
  - assert (E : range lo hi = range lo (hi - 1) ++ [(hi - 1)%N]).
    { rewrite <- range_snoc by lia. f_equal. lia. }
    rewrite E, reverse_snoc. apply N.eqb_eq. lia.
Qed.
Lemma tail_append lo s s' : tailed lo s s' -> snd (append s) = snd (append s') ∧ tailed lo (fst (append s)) (fst (append s')).
Proof.
  destruct s as [h L], s' as [h' R]. intros (n & [E W] & EP). cbn [fst snd] in *. subst h'.
  destruct (window_continuous _ _ _ _ _ W) as (CL & CR & VL & VR).
  pose proof (append_consistent h L (w_log _ _ _ _ _ W)) as HC.
  pose proof (w_lo _ _ _ _ _ W) as Hlo. pose proof (w_hi _ _ _ _ _ W) as Hhi.
  unfold append in *. rewrite (consistent_grown L (w_log _ _ _ _ _ W)) in *.
  rewrite (range_grown R _ _ (w_version _ _ _ _ _ W)) by lia. cbn [negb] in *. rewrite <- EP.
  destruct (l_pool L) as [ps|] eqn:Ep; [|split; [done|]; exists n; cbn; split; [done|by rewrite Ep]].
  rewrite VL in *. rewrite VR. rewrite (w_patches _ _ _ _ _ W (n + 1)), decide_False by lia.
  assert (HN : l_patches L !! (n + 1)%N = None).
  { apply eq_None_not_Some. intros HS. destruct (w_log _ _ _ _ _ W) as (m & Hm & Hp & _).
    apply Hp in HS. pose proof (consistent_last L m Hm) as Hl. rewrite VL in Hl. injection Hl as ->. lia. }
  rewrite HN in *. cbn in HC |- *. split; [done|]. exists (n + 1)%N. split; [|done]. split; [done|]. cbn [snd].
  destruct W as [W1 W2 W3 W4 W5 W6 W7 W8 W9]. constructor; cbn; try done; try lia.
  - by rewrite last_snoc.
  - by rewrite (range_snoc _ (n + 1)), W6 by lia.
  - intros v. destruct (decide (v = n + 1)%N) as [->|Hne].
    + rewrite !lookup_insert, decide_True by lia. done.
    + rewrite !lookup_insert_ne by done. rewrite W7. repeat case_decide; try done; lia.
  - intros v. rewrite W8. repeat case_decide; try done; [lia|].
    symmetry. apply eq_None_not_Some. intros HS. destruct W1 as (m & Hm & _ & Hs & _). apply Hs in HS.
    pose proof (consistent_last L m Hm) as Hl. rewrite VL in Hl. injection Hl as ->. lia.
Qed.
Lemma tail_store lo s s' p : tailed lo s s' -> snd (store p s) = snd (store p s') ∧ tailed lo (fst (store p s)) (fst (store p s')).
Proof.
  destruct s as [h L], s' as [h' R]. intros (n & [E W] & EP). cbn [fst snd] in *. subst h'.
  unfold store. rewrite <- EP. destruct (store_arg p) as [ps| |]; (split; [done|]); exists n; (split; [|done]); (split; [done|]); cbn.
  all: destruct W as [W1 W2 W3 W4 W5 W6 W7 W8 W9]; by constructor.
Qed.
Lemma from_step lo s s' c : tailed lo s s' -> from lo c ->
  snd (ask c s) = snd (ask c s') ∧ tailed lo (fst (ask c s)) (fst (ask c s')).
Proof.
  intros HT Hc. destruct c as [p| |k| |a b| |a b| | | | |]; cbn [from] in Hc; try done; cbn [ask].
  - destruct (tail_store lo s s' p HT) as (S1 & S2).
    destruct (store p s) as [s1 r1], (store p s') as [s2 r2]. cbn [fst snd] in *. by subst r2.
  - destruct (tail_append lo s s' HT) as (S1 & S2).
    destruct (append s) as [s1 r1], (append s') as [s2 r2]. cbn [fst snd] in *. by subst r2.
  - destruct s as [h L], s' as [h' R]. destruct HT as (n & [E W] & EP). cbn [fst snd] in *. subst h'.
    destruct (decide (k <= n)%N) as [Hk|Hk].
    + destruct (window_snapshot lo n n L R k h W) as (S1 & S2 & S3 & S4); [lia|].
      destruct (snapshot k (h, L)) as [s1 r1], (snapshot k (h, R)) as [s2 r2]. cbn [fst snd] in *. subst r2.
      split; [done|]. exists n. split; [done|]. congruence.
    + destruct (window_bad lo n L R k h W) as [-> ->]; [lia|]. split; [done|]. by exists n.
  - destruct s as [h L], s' as [h' R]. destruct HT as (n & [E W] & EP). cbn [fst snd] in *. subst h'.
    destruct (decide (a <= n ∧ b <= n)%N) as [Hk|Hk].
    + destruct (window_slice lo n n L R a b h W) as (S1 & S2 & S3 & S4); [lia|lia|].
      destruct (slice a b (h, L)) as [s1 r1], (slice a b (h, R)) as [s2 r2]. cbn [fst snd] in *. subst r2.
      split; [done|]. exists n. split; [done|]. congruence.
    + destruct (window_continuous _ _ _ _ _ W) as (CL & CR & VL & VR). unfold slice. rewrite CL, CR, VL, VR. cbn [negb].
      destruct (b <? a)%N; [split; [done|by exists n]|].
      assert (EB : (n <? a)%N || (n <? b)%N = true) by (apply orb_true_iff; rewrite !N.ltb_lt; lia).
      rewrite EB. split; [done|by exists n].
  - destruct s as [h L], s' as [h' R]. destruct HT as (n & [E W] & EP). cbn [fst snd] in *. subst h'.
    destruct (decide (a <= n ∧ b <= n)%N) as [Hk|Hk].
    + destruct (window_track lo n n L R a b h W) as (S1 & S2 & S3 & S4); [lia|lia|].
      destruct (track a b (h, L)) as [s1 r1], (track a b (h, R)) as [s2 r2]. cbn [fst snd] in *. subst r2.
      split; [done|]. exists n. split; [done|]. congruence.
    + destruct (window_continuous _ _ _ _ _ W) as (CL & CR & VL & VR). unfold track. rewrite CL, CR, VL, VR. cbn [negb].
      assert (EB : (n <? a)%N || (n <? b)%N = true) by (apply orb_true_iff; rewrite !N.ltb_lt; lia).
      rewrite EB. split; [done|by exists n].
Qed.
Lemma from_steps lo cs : Forall (from lo) cs -> forall s s', tailed lo s s' ->
  snd (asks cs s) = snd (asks cs s') ∧ tailed lo (fst (asks cs s)) (fst (asks cs s')).
Proof.
  induction 1 as [|c cs Hc HF IH]; intros s s' HT; [done|]. cbn [asks].
  destruct (from_step lo s s' c HT Hc) as [A1 A2].
  destruct (ask c s) as [s1 a1], (ask c s') as [s2 a2]. cbn [fst snd] in A1, A2. subst a2.
  destruct (IH s1 s2 A2) as [B1 B2].
  destruct (asks cs s1) as [s3 l3], (asks cs s2) as [s4 l4]. cbn [fst snd] in *. by subst l4.
Qed.
Lemma slice_goes_on vi vj h L h1 L1 R cs : reachable (h, L) -> slice vi vj (h, L) = ((h1, L1), Ok R) ->
  (0 < vj)%N -> is_Some (l_snapshots L1 !! vi) -> last (l_version L) = Some vj -> l_pool L = None -> Forall (from vi) cs ->
  snd (asks cs (h1, R)) = snd (asks cs (h1, L1)) ∧ fst (fst (asks cs (h1, R))) = fst (fst (asks cs (h1, L1))).
Proof.
  intros HR Es H0 HB Hl HP HF. apply reachable_consistent in HR. cbn in HR.
  destruct (slice_window vi vj h L h1 L1 R HR Es H0 HB) as (n & W & Hn & P1 & P2).
  rewrite Hl in Hn. injection Hn as <-.
  destruct (from_steps vi cs HF (h1, L1) (h1, R)) as [A1 (m & [A2 _] & _)].
  { exists vj. split; [done|]. cbn. congruence. }
  by rewrite A1, A2.
Qed.

(** ** Queries by time see the slice alone *)
Lemma patch_at_within L R lo hi v :
  (forall v, l_patches R !! v = if decide (lo <= v <= hi)%N then l_patches L !! v else None) ->
  patch_at R v = if decide (lo <= v <= hi)%N then patch_at L v else [].
Proof. intros H. unfold patch_at. rewrite H. by case_decide. Qed.
Lemma ops_between_within L R lo hi b :
  (forall v, l_patches R !! v = if decide (lo <= v <= hi)%N then l_patches L !! v else None) ->
  (b <= hi + 1)%N -> ops_between R lo b = ops_between L lo b.
Proof.
  intros H Hb. rewrite !ops_between_range. f_equal. apply map_ext_in. intros v Hv.
  apply elem_of_list_In, range_elem in Hv. rewrite (patch_at_within L R lo hi) by done. rewrite decide_True by lia. done.
Qed.
Lemma slice_temporal_track vi vj h L st' R tsi tsj h2 : reachable (h, L) -> slice vi vj (h, L) = (st', Ok R) ->
  fst (temporal_track tsi tsj (h2, R)) = (h2, R) ∧
  match snd (temporal_track tsi tsj (h2, R)) with
  | Ok m => (tsi <= tsj ∧ ~ clash (filter (LogSpec.in_range tsi tsj) (ops_between L vi (vj + 1)))) ∧ forall v, m !! v =
      if decide (vi <= v <= vj)%N then
        match changes (filter (LogSpec.in_range tsi tsj) (ops_between L vi v))
                (filter (LogSpec.in_range tsi tsj) (patch_at L v)) with
        | [] => None
        | ps => Some ps
        end
      else None
  | Err => False
  | Panic => tsj < tsi ∨ clash (filter (LogSpec.in_range tsi tsj) (ops_between L vi (vj + 1)))
  end.
Proof.
  intros HR Es. apply reachable_consistent in HR. cbn in HR.
  pose proof (slice_spec vi vj h L HR) as HS. rewrite Es in HS. destruct HS as (Hle & _ & _ & Hp & _).
  unfold temporal_track. destruct (Z.ltb_spec tsj tsi) as [Hlt|Hge]; [split; [done|by left]|].
  split; [done|]. cbn [snd].
  pose proof (ttrack_versions_spec (fun p => in_time tsi tsj (op_ts p)) (LogSpec.in_range tsi tsj) (in_time_range tsi tsj)
    tsi tsj (sorted_keys (l_patches R)) [] R [] ltac:(done) repr_nil (sorted_keys_nodup _)) as H.
  assert (HK : forall w, w ∈ sorted_keys (l_patches R) -> (vi <= w <= vj)%N).
  { intros w Hw. apply sorted_keys_elem in Hw. rewrite Hp in Hw. case_decide; [done|by destruct Hw]. }
  rewrite (concat_versions R (sorted_keys (l_patches R)) vi (vj + 1)) in H.
  2: apply sorted_keys_sorted. 2: apply sorted_keys_nodup. 2: intros v Hv; apply HK in Hv; lia.
  2: intros v _ Hv; apply no_patch_empty; by rewrite <- sorted_keys_elem.
  rewrite (ops_between_within L R vi vj) in H by (done || lia).
  destruct (ttrack_versions _ _ _ _ _) as [m| |]; [|done|right; by apply clash_iff].
  destruct H as (H1 & H2 & H3). split; [split; [done|rewrite clash_iff; tauto]|]. intros v.
  destruct (decide (v ∈ sorted_keys (l_patches R))) as [Hin|Hin].
  - pose proof (HK v Hin) as Hv. rewrite decide_True by done.
    destruct (in_split_N _ _ Hin) as (a & b & E). rewrite (H2 a v b E). cbn [app].
    rewrite (concat_before R _ a v b vi E (sorted_keys_sorted _) (sorted_keys_nodup _)).
    + rewrite (ops_between_within L R vi vj) by (done || lia).
      rewrite (patch_at_within L R vi vj) by done. by rewrite decide_True.
    + intros w Hw. apply HK in Hw. lia.
    + intros w _ Hw. apply no_patch_empty. by rewrite <- sorted_keys_elem.
  - rewrite (H1 v Hin). case_decide as Hv; [|done].
    assert (E : patch_at L v = []).
    { assert (E : patch_at R v = []) by (apply no_patch_empty; by rewrite <- sorted_keys_elem).
      rewrite (patch_at_within L R vi vj) in E by done. by rewrite decide_True in E. }
    by rewrite E.
Qed.

(** ** History of a slice *)
Section kept.
Context (sel : operation -> bool).
Definition known (k : string) (latest : list (string * any)) : Prop := is_Some (alookup k latest).
Lemma known_insert k k' v latest : known k (ainsert k' v latest) <-> k = k' ∨ known k latest.
Proof.
  unfold known. rewrite alookup_ainsert. destruct (decide (k = k')) as [->|Hne].
  - split; [by left|by eexists].
  - split; [by right|by intros [?|?]].
Qed.
Lemma change_filter_known ps : forall latest latest' ps', change_filter sel true latest ps = Ok (latest', ps') ->
  (forall k, known k latest -> known k latest') ∧
  (forall p, p ∈ ps -> sel p = true -> known (op_path p) latest') ∧
  (forall k, known k latest' -> known k latest ∨ exists p, p ∈ ps' ∧ sel p = true ∧ op_path p = k).
Proof.
  induction ps as [|p ps IH]; intros latest latest' ps' E; cbn [change_filter] in E.
  - injection E as <- <-. split; [done|]. split; [by intros p Hp%elem_of_nil|by left].
  - destruct (sel p) eqn:Esel.
    + unfold keep_change in E.
      assert (HX : exists l1 (b : bool) r, change_filter sel true l1 ps = Ok r ∧
                latest' = fst r ∧ ps' = (if b then p :: snd r else snd r) ∧
                ((l1 = latest ∧ b = false ∧ known (op_path p) latest) ∨ (l1 = ainsert (op_path p) (op_value p) latest ∧ b = true))).
      { destruct (alookup (op_path p) latest) as [prev|] eqn:El.
        - destruct (any_eq prev (op_value p)) as [[]|]; cbn [rbind fst snd] in E; [..|done].
          + destruct (change_filter sel true latest ps) as [r| |] eqn:Er; [|done|done]. cbn [rbind] in E.
            injection E as <- <-. exists latest, false, r. split; [done|]. split; [done|]. split; [done|].
            left. split; [done|]. split; [done|]. by exists prev.
          + destruct (change_filter sel true (ainsert _ _ latest) ps) as [r| |] eqn:Er; [|done|done]. cbn [rbind] in E.
            injection E as <- <-. exists (ainsert (op_path p) (op_value p) latest), true, r. split; [done|]. split; [done|]. split; [done|]. by right.
        - cbn [rbind fst snd] in E.
          destruct (change_filter sel true (ainsert _ _ latest) ps) as [r| |] eqn:Er; [|done|done]. cbn [rbind] in E.
          injection E as <- <-. exists (ainsert (op_path p) (op_value p) latest), true, r. split; [done|]. split; [done|]. split; [done|]. by right. }
      clear E. destruct HX as (l1 & b & [l2 ps2] & Er & -> & -> & HX). destruct (IH _ _ _ Er) as (I1 & I2 & I3).
      cbn [fst snd]. destruct HX as [(-> & -> & HK)|(-> & ->)].
      * split; [done|]. split; [|done]. intros q Hq Hs. apply elem_of_cons in Hq as [->|Hq]; [by apply I1|by apply I2].
      * split; [intros k Hk; apply I1, known_insert; by right|]. split.
        -- intros q Hq Hs. apply elem_of_cons in Hq as [->|Hq]; [apply I1, known_insert; by left|by apply I2].
        -- intros k Hk. destruct (I3 k Hk) as [Hk2|(q & Hq & Hs & Eq)].
           ++ apply known_insert in Hk2 as [->|Hk2]; [|by left]. right. exists p. split; [apply elem_of_list_here|done].
           ++ right. exists q. split; [by apply elem_of_list_further|done].
    + destruct (change_filter sel true latest ps) as [r| |] eqn:Er; [|done|done]. cbn [rbind] in E.
      destruct r as [l2 ps2]. cbn [fst snd] in E. injection E as <- <-. destruct (IH _ _ _ Er) as (I1 & I2 & I3).
      split; [done|]. split.
      * intros q Hq Hs. apply elem_of_cons in Hq as [->|Hq]; [congruence|by apply I2].
      * intros k Hk. destruct (I3 k Hk) as [Hk2|(q & Hq & Hs & Eq)]; [by left|].
        right. exists q. split; [by apply elem_of_list_further|done].
Qed.
Lemma compact_versions_known vs : NoDup vs -> forall latest L L', compact_versions sel latest L vs = (L', Ok tt) ->
  (forall u, u ∉ vs -> patch_at L' u = patch_at L u) ∧
  l_snapshots L' = l_snapshots L ∧ (forall u, is_Some (l_patches L !! u) -> is_Some (l_patches L' !! u)) ∧
  forall v p, v ∈ vs -> p ∈ patch_at L v -> sel p = true ->
    known (op_path p) latest ∨ exists u q, u ∈ vs ∧ q ∈ patch_at L' u ∧ sel q = true ∧ op_path q = op_path p.
Proof.
  induction 1 as [|v vs Hnv HN IH]; intros latest L L' E; cbn [compact_versions] in E.
  - injection E as <-. split; [done|]. split; [done|]. split; [done|]. by intros v p Hv%elem_of_nil.
  - destruct (change_filter sel true latest (patch_at L v)) as [[l1 ps]| |] eqn:Er; [|done|done].
    destruct (change_filter_known _ _ _ _ Er) as (C1 & C2 & C3). destruct (IH _ _ _ E) as (I1 & I2 & I3 & I4).
    assert (HP : forall u, u <> v -> patch_at (with_patches L (<[v := ps]> (l_patches L))) u = patch_at L u).
    { intros u Hu. unfold patch_at. cbn. by rewrite lookup_insert_ne. }
    assert (Hv : patch_at L' v = ps).
    { rewrite I1 by done. unfold patch_at. cbn. by rewrite lookup_insert. }
    split; [|split; [done|split]].
    + intros u Hu. apply not_elem_of_cons in Hu as [Hu1 Hu2]. rewrite I1 by done. by apply HP.
    + intros u Hu. apply I3. cbn. destruct (decide (u = v)) as [->|Hne]; [rewrite lookup_insert; by eexists|by rewrite lookup_insert_ne].
    + assert (HK : forall k, known k l1 -> known k latest ∨ exists u q, u ∈ v :: vs ∧ q ∈ patch_at L' u ∧ sel q = true ∧ op_path q = k).
      { intros k Hk. destruct (C3 k Hk) as [?|(q & Hq & Hs & Eq)]; [by left|]. right. exists v, q. rewrite Hv.
        split; [apply elem_of_list_here|done]. }
      intros u p Hu Hp Hs. apply elem_of_cons in Hu as [->|Hu].
      * apply HK. by apply C2.
      * destruct (I4 u p Hu) as [?|(w & q & Hw & Hq & Hs2 & Eq)]; [..|by apply HK|].
        -- rewrite HP; [done|]. intros ->. done.
        -- done.
        -- right. exists w, q. split; [by apply elem_of_list_further|done].
Qed.
End kept.

Lemma compact_versions_none sel vs : forall latest L, (forall v p, p ∈ patch_at L v -> sel p = false) ->
  exists L', compact_versions sel latest L vs = (L', Ok tt) ∧ (forall v, patch_at L' v = patch_at L v)
    ∧ l_snapshots L' = l_snapshots L.
Proof.
  assert (HF : forall ps latest, (forall p, p ∈ ps -> sel p = false) -> change_filter sel true latest ps = Ok (latest, ps)).
  { induction ps as [|p ps IH]; intros latest H; [done|]. cbn [change_filter].
    rewrite (H p (elem_of_list_here _ _)), IH; [done|]. intros q Hq. apply H. by apply elem_of_list_further. }
  induction vs as [|v vs IH]; intros latest L H; cbn [compact_versions]; [by exists L|].
  rewrite HF by apply H.
  assert (HP : forall u, patch_at (with_patches L (<[v := patch_at L v]> (l_patches L))) u = patch_at L u).
  { intros u. unfold patch_at at 1. cbn. destruct (decide (u = v)) as [->|Hne]; [by rewrite lookup_insert|by rewrite lookup_insert_ne]. }
  destruct (IH latest (with_patches L (<[v := patch_at L v]> (l_patches L)))) as (L' & E & E2 & E3).
  - intros u p. rewrite HP. apply H.
  - exists L'. split; [done|]. split; [|done]. intros u. by rewrite E2, HP.
Qed.

Lemma get_value_nil k v : get_value TNil k <> Ok v.
Proof. unfold get_value. by destruct (tail _). Qed.
Lemma read_nil h : read h VNil = Some TNil.
Proof. unfold read. by replace (length h + 2)%nat with (S (length h + 1)) by lia. Qed.

Lemma slice_history vi vj h L st' R orc target h2 : reachable (h, L) -> slice vi vj (h, L) = (st', Ok R) ->
  (1 <= vi)%N -> oracle_ok orc ->
  match snd (history orc target (h2, R)) with
  | Ok m => m = [] ∧ forall p, p ∈ ops_between L vi (vj + 1) -> ~ under target p
  | Err => False
  | Panic => exists p, p ∈ ops_between L vi (vj + 1) ∧ under target p
  end.
Proof.
  intros HR Es H1 (_ & _ & HO). apply reachable_consistent in HR. cbn in HR.
  pose proof (slice_spec vi vj h L HR) as HS. rewrite Es in HS. destruct HS as (Hle & _ & Hv & Hp & _ & _ & Hsn).
  assert (H0 : l_snapshots R !! 0%N = None).
  { destruct Hsn as [(_ & _ & ->)|(_ & s & _ & ->)]; [rewrite decide_False by lia; done|].
    rewrite lookup_singleton_ne by lia. done. }
  assert (HE : forall p, p ∈ ops_between L vi (vj + 1) <-> exists v, p ∈ patch_at R v).
  { intros p. rewrite <- (ops_between_within L R vi vj) by (done || lia). rewrite ops_between_range.
    rewrite elem_of_list_In, in_concat. split.
    - intros (l & Hl & Hpl). apply in_map_iff in Hl as (v & <- & _). exists v. by apply elem_of_list_In.
    - intros (v & Hpv). exists (patch_at R v). split; [|by apply elem_of_list_In]. apply in_map_iff. exists v.
      split; [done|]. apply elem_of_list_In, range_elem. rewrite (patch_at_within L R vi vj) in Hpv by done.
      case_decide; [lia|by apply elem_of_nil in Hpv]. }
  unfold history, compact. rewrite (range_continuous _ _ _ Hv). cbn [negb].
  rewrite (range_continuous _ _ _ Hv). cbn [negb].
  destruct (filter (under target) (ops_between L vi (vj + 1))) as [|p0 ps0] eqn:EF.
  - assert (HN : forall p, p ∈ ops_between L vi (vj + 1) -> ~ under target p).
    { intros p Hpp Hu. assert (Hf : p ∈ filter (under target) (ops_between L vi (vj + 1))) by (by apply elem_of_list_filter).
      rewrite EF in Hf. by apply elem_of_nil in Hf. }
    destruct (compact_versions_none (on_target target) (sorted_keys (l_patches R)) [] R) as (L' & E & E2 & E3).
    { intros v p Hpv. destruct (on_target target p) eqn:Et; [|done]. exfalso. apply (HN p); [apply HE; by exists v|].
      by apply on_target_under. }
    rewrite E, E3, H0. cbn [default]. change (default VNil None) with VNil. rewrite read_nil. cbn [snd].
    assert (EC : forall vs, collect_history target (map (patch_at L') vs) = []).
    { intros vs. unfold collect_history. rewrite (filter_bool _ (under target)) by apply on_target_under.
      assert (EN : filter (under target) (concat (map (patch_at L') vs)) = []).
      { apply elem_of_nil_inv. intros p Hpp. apply elem_of_list_filter in Hpp as [Hu Hpp].
        apply elem_of_list_In, in_concat in Hpp as (l & Hl & Hpl). apply in_map_iff in Hl as (v & <- & _).
        apply (HN p); [|done]. apply HE. exists v. rewrite <- E2. by apply elem_of_list_In. }
      by rewrite EN. }
    rewrite EC. done.
  - assert (HX : p0 ∈ ops_between L vi (vj + 1) ∧ under target p0).
    { assert (Hf : p0 ∈ filter (under target) (ops_between L vi (vj + 1))) by (rewrite EF; apply elem_of_list_here).
      apply elem_of_list_filter in Hf. tauto. }
    destruct (compact_versions (on_target target) [] R (sorted_keys (l_patches R))) as [L2 r] eqn:EC.
    destruct r as [[]| |]; [|by exists p0|by exists p0].
    destruct (compact_versions_known (on_target target) _ (sorted_keys_nodup _) _ _ _ EC) as (_ & K2 & K3 & K4).
    rewrite K2, H0. change (default VNil None) with VNil. rewrite read_nil. cbn [snd].
    destruct HX as [HX1 HX2]. pose proof (proj1 (HE p0) HX1) as (v & Hpv).
    destruct (K4 v p0) as [[? K]|(u & q & Hu & Hq & Hsq & Eq)]; [|done|by apply on_target_under|done|].
    { apply sorted_keys_elem. unfold patch_at in Hpv. destruct (l_patches R !! v); [by eexists|by apply elem_of_nil in Hpv]. }
    set (m := collect_history target _).
    assert (HM : is_Some (alookup (op_path q) m)).
    { unfold m. rewrite collect_history_lookup.
      destruct (filter _ (filter _ _)) as [|x l] eqn:EX; [|by eexists]. exfalso.
      assert (Hin : q ∈ filter (fun p => op_path p = op_path q) (filter (under target)
        (concat (map (patch_at L2) (or_versions orc (sorted_keys (l_patches L2))))))).
      { apply elem_of_list_filter. split; [done|]. apply elem_of_list_filter. split; [by apply on_target_under|].
        apply elem_of_list_In, in_concat. exists (patch_at L2 u). split; [|by apply elem_of_list_In].
        apply in_map_iff. exists u. split; [done|]. apply elem_of_list_In. rewrite HO. apply sorted_keys_elem, K3.
        by apply sorted_keys_elem. }
      rewrite EX in Hin. by apply elem_of_nil in Hin. }
    destruct (add_initial TNil m) as [r| |] eqn:EA.
    + destruct (add_initial_ok _ _ _ EA) as (_ & _ & A3).
      destruct (A3 (op_path q)) as (t & Ht); [by apply alookup_akeys|]. by apply get_value_nil in Ht.
    + pose proof (add_initial_bad TNil m) as HB. by rewrite EA in HB.
    + by exists p0.
Qed.

Lemma slice_fork vi vj h L st' R ps h2 : reachable (h, L) -> slice vi vj (h, L) = (st', Ok R) -> (0 < vj)%N ->
  exists R', asks [CStore (PI_patch (Some ps)); CAppend] (h2, R) = ((h2, R'), [AnsDone (Ok tt); AnsDone (Ok tt)]) ∧
    l_version R' = range (N.max 1 vi) (vj + 2) ∧ l_snapshots R' = l_snapshots R ∧ l_pool R' = None ∧
    forall v, l_patches R' !! v = if decide (v = vj + 1)%N then Some ps else l_patches R !! v.
Proof.
  intros HR Es H0. apply reachable_consistent in HR. cbn in HR.
  pose proof (slice_spec vi vj h L HR) as HS. rewrite Es in HS. destruct HS as (Hle & _ & Hv & Hp & HP & _ & _).
  cbn [asks ask]. unfold store. cbn [store_arg]. rewrite HP. unfold append.
  assert (HG : is_grown (with_pool R (Some ps)) = true) by (apply (range_grown _ (N.max 1 vi) vj); [done|lia]).
  assert (HL : last_version (with_pool R (Some ps)) = Some vj) by (unfold last_version; cbn; rewrite Hv; apply range_last; lia).
  assert (HN : l_patches (with_pool R (Some ps)) !! (vj + 1)%N = None) by (cbn; rewrite Hp, decide_False by lia; done).
  rewrite HG, HL, HN. cbn [negb with_pool l_pool l_version l_patches l_snapshots l_current].
  eexists. split; [done|]. cbn [l_version l_snapshots l_pool l_patches]. split; [|split; [done|split; [done|]]].
  - replace (vj + 2)%N with (vj + 1 + 1)%N by lia. by rewrite (range_snoc _ (vj + 1)), Hv by lia.
  - intros v. case_decide as E; [subst v; by rewrite lookup_insert|by rewrite lookup_insert_ne].
Qed.
