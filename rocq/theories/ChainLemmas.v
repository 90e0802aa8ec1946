(** Logs that are fed with generated patches. *)
From Verif Require Import Base BaseSpec BaseSpecLemmas F64 F64Lemmas Tson TsonInd TsonSpec BaseLemmas Heap HeapSpec Patch Own PatchSpec TreePatch PatchLemmas
  Diff DiffSpec DiffLemmas DiffPaths DiffApply Logument LogSpec LogLemmas ChangeLemmas CompactLemmas ReplaySpec ReplayLemmas PatchCongr ChainSpec.
From Coq Require Import Lia.

(** ** Patches without the leading slashes *)
Definition rel (wt : bool) : Z -> Z -> Prop := if wt then eq else fun _ _ => True.
Lemma rel_refl wt z : rel wt z z.
Proof. by destruct wt. Qed.
Lemma equal_rel wt a b : equal_for wt a b <-> agree (rel wt) a b.
Proof. by destruct wt. Qed.
Lemma diff_handle wt a b : diff wt a b = handle_values wt a b "".
Proof. by destruct wt. Qed.

Lemma nan_free_at t : forall q x ts, nan_free t -> at_path t q = Some (TLeaf x ts) -> TsonSpec.prim_eq x x.
Proof.
  induction t as [|p ts0|m IH|l IH] using tson_ind'; intros q x ts Hn E.
  - by destruct q as [|[k|i] q].
  - destruct q as [|[k|i] q]; [|done|done]. cbn in E. injection E as -> ->.
    inversion Hn; subst; cbn -[f64_eq]; [done|done|]. by apply F64Lemmas.f64_eq_refl.
  - destruct q as [|[k|i] q]; [done| |done]. cbn in E. destruct (alookup k m) as [u|] eqn:Eu; [|done].
    apply alookup_Some_in in Eu. rewrite Forall_forall in IH. inversion Hn as [| | | |? HF|]; subst. rewrite Forall_forall in HF.
    by apply (IH _ Eu q x ts (HF _ Eu)).
  - destruct q as [|[k|i] q]; [done|done|]. cbn in E. destruct (l !! i) as [u|] eqn:Eu; [|done].
    apply elem_of_list_lookup_2 in Eu. rewrite Forall_forall in IH. inversion Hn as [| | | | |? HF]; subst. rewrite Forall_forall in HF.
    by apply (IH _ Eu q x ts (HF _ Eu)).
Qed.
Lemma agree_trans (R : Z -> Z -> Prop) (HR : forall x y z, R x y -> R y z -> R x z) t u v :
  agree R t u -> agree R u v -> agree R t v.
Proof.
  revert u v. induction t as [|p ts|m IH|l IH] using tson_ind'; intros u v H H'.
  - by inversion H; subst.
  - inversion H; subst. inversion H'; subst. constructor; [by eapply DiffLemmas.prim_eq_trans|by eapply HR].
  - inversion H as [| | |? m' m'' HP HF]; subst. inversion H' as [| | |? m2 m3 HP' HF']; subst.
    destruct (Forall2_perm_l _ _ _ _ HF HP') as (k & Hk & HFk).
    apply (ag_obj _ _ k); [by rewrite HP|].
    assert (IH' : Forall (fun kv : string * tson => forall u v, agree R (snd kv) u -> agree R u v -> agree R (snd kv) v) k).
    { by rewrite <- Hk, <- HP. }
    clear -HFk HF' IH'. revert m3 HF'. induction HFk as [|a b k m2 [E Hab] HFk IHF]; intros m3 HF'.
    + inversion HF'. constructor.
    + inversion HF' as [|? c ? m4 [E' Hbc] Hr]; subst. inversion IH'; subst. constructor; [|auto].
      split; [congruence|eauto].
  - inversion H as [| |? l' HF|]; subst. inversion H' as [| |? l3 HF'|]; subst. constructor. clear H H'.
    revert l3 HF'. induction HF as [|a b l l' Hab HF IHF]; intros l3 HF'.
    + inversion HF'. constructor.
    + inversion HF'; subst. inversion IH; subst. constructor; eauto.
Qed.
Lemma rel_trans wt x y z : rel wt x y -> rel wt y z -> rel wt x z.
Proof. destruct wt; cbn; congruence. Qed.

Lemma payload_scalar v x p : payload v x -> scalar_of v = Some p -> p = x.
Proof. by destruct 1; cbn; intros [= <-]. Qed.
Lemma diff_equal_self wt a b ops : wf a -> wf b -> nan_free b -> diff wt a b = Ok ops -> Forall equal_self (map unslash ops).
Proof.
  intros Ha Hb Hn E. rewrite diff_handle in E. change "" with (written []) in E. apply Forall_forall. intros p' Hp.
  apply elem_of_list_fmap in Hp as (p & -> & Hp). unfold equal_self. cbn [unslash op_value].
  destruct (generated_ok _ _ _ _ _ _ Hb Ha E Hp) as (q & _ & [(_ & -> & _)|(x & ts & Hat & _ & Hpl & _)]); [done|].
  intros y Hy. rewrite (payload_scalar _ _ _ Hpl Hy). by eapply nan_free_at.
Qed.
Lemma diff_applies wt d e ops : usable d -> usable e -> bridged wt d e -> diff wt d e = Ok ops ->
  exists t', papply d (map unslash ops) = (t', Ok tt) ∧ agree (rel wt) t' e.
Proof.
  intros ([m ->] & Hw & Hn & Hm) ([m' ->] & Hw' & Hn' & Hm') HB E. rewrite diff_handle in E.
  destruct (bridged_applies wt (TObj m') m [] ops Hw' Hw Hn' HB Hm Hm' ltac:(done) E) as (t' & Et & Hs).
  cbn [length] in Et. rewrite papply_at_root in Et. exists t'. split; [done|]. by destruct wt.
Qed.
Lemma stages_usable wt d ps ds : stages wt d ps ds -> usable d.
Proof. by destruct 1. Qed.
Lemma stages_replay wt d ps ds : stages wt d ps ds -> forall t i e, wf t -> agree (rel wt) t d -> (d :: ds) !! i = Some e ->
  exists t', papply t (concat (map (map unslash) (take i ps))) = (t', Ok tt) ∧ agree (rel wt) t' e.
Proof.
  induction 1 as [d Hd|d d1 ops ps ds Hd HB E Hne HS IH]; intros t i e Ht HA Hi.
  - destruct i as [|i]; [|done]. injection Hi as <-. by exists t.
  - destruct i as [|i]; [injection Hi as <-; by exists t|].
    pose proof (stages_usable _ _ _ _ HS) as Hd1. destruct (diff_applies wt d d1 ops Hd Hd1 HB E) as (t1 & E1 & HA1).
    pose proof Hd as (_ & Hwd & _). pose proof Hd1 as (_ & Hwd1 & Hnd1 & _).
    destruct (papply_agree (rel wt) (rel_refl wt) (map unslash ops) (diff_equal_self _ _ _ _ Hwd Hwd1 Hnd1 E) t d Ht Hwd HA) as [Eo HAo].
    pose proof (papply_wf (map unslash ops) t Ht) as Hw2.
    destruct (papply t (map unslash ops)) as [t2 r] eqn:E2. rewrite E1 in Eo, HAo. cbn [fst snd] in *. subst r.
    destruct (IH t2 i e) as (t' & E' & HA'); [done| |done|].
    { apply (agree_trans _ (rel_trans wt) _ t1); done. }
    exists t'. split; [|done]. cbn [take map concat]. rewrite papply_app, E2. exact E'.
Qed.
Lemma stages_ops wt d ps ds : stages wt d ps ds -> length ds = length ps ∧ forall i ops, ps !! i = Some ops -> ops <> [].
Proof.
  induction 1 as [d Hd|d d1 ops ps ds Hd HB E Hne HS [IH1 IH2]]; [by split|]. split; [cbn; by rewrite IH1|].
  intros [|i] ops' Hi; [by injection Hi as <-|by eapply IH2].
Qed.
Lemma records_between L ps i : records L ps -> (i <= length ps)%nat ->
  ops_between L 1 (N.of_nat i + 1) = concat (map (map unslash) (take i ps)).
Proof.
  intros [_ HR] Hi. unfold ops_between. replace (N.to_nat (N.of_nat i + 1 - 1)) with i by lia. f_equal.
  apply list_eq. intros j. rewrite !list_lookup_fmap. destruct (decide (j < i)%nat) as [Hj|Hj].
  - rewrite lookup_seq_lt by done. rewrite lookup_take by done. cbn.
    destruct (ps !! j) as [ops|] eqn:Ej; [|apply lookup_ge_None in Ej; lia]. cbn. f_equal. unfold patch_at.
    replace (1 + N.of_nat j)%N with (N.of_nat j + 1)%N by lia. by rewrite (HR _ _ Ej).
  - rewrite lookup_seq_ge, lookup_take_ge by lia. done.
Qed.
Lemma log_follows wt T i p h h0 L0 l d ps ds cs v e :
  new_logument T i p h = (h0, Ok L0) -> l_snapshots L0 !! 0%N = Some (VObj l) -> doc_of h0 (VObj l) d ->
  stages wt d ps ds ->
  let st := run (h0, L0) cs in
  ascending 0 cs -> records (snd st) ps -> (forall w, CSnapshot w ∈ cs -> (w <= N.of_nat v)%N) -> (d :: ds) !! v = Some e ->
  exists st' t', snapshot (N.of_nat v) st = (st', Ok (VObj l)) ∧ doc_of (fst st') (VObj l) t' ∧ equal_for wt t' e.
Proof.
  intros HN H0 HD HS st HA HR Hmax Hv. destruct (stages_ops _ _ _ _ HS) as [Hlen Hne].
  pose proof (stages_usable _ _ _ _ HS) as ([m Hm] & Hw & Hn & Hnm).
  assert (Hvn : (v <= length ps)%nat).
  { apply lookup_lt_Some in Hv. cbn in Hv. lia. }
  pose proof (new_consistent _ _ _ _ _ _ HN) as HC. destruct (ascending_grows _ _ h0 L0 HC HA) as [HCf _]. fold st in HCf.
  destruct (versions_of _ HCf) as [n Hnv]. assert (n = length ps) as ->.
  { destruct HR as [HR _]. rewrite Hnv in HR. unfold nats in HR. rewrite map_length, seq_length in HR. lia. }
  assert (Hops : forall w, (w <= N.of_nat v)%N -> has_ops (snd st) w).
  { intros w Hle Hw0. destruct HR as [_ HR]. destruct (ps !! N.to_nat (w - 1)) as [ops|] eqn:Ej.
    - pose proof (HR _ _ Ej) as Hp. replace (N.of_nat (N.to_nat (w - 1)) + 1)%N with w in Hp by lia.
      unfold patch_at. rewrite Hp. cbn. apply Hne in Ej. by destruct ops.
    - apply lookup_ge_None in Ej. lia. }
  assert (Hself : agree (rel wt) d d).
  { apply (agree_weaken eq); [intros x y ->; apply rel_refl|]. by apply same_refl. }
  destruct (stages_replay _ _ _ _ HS d (length ps) (default e (last (d :: ds))) Hw Hself) as (tE & EE & _).
  { assert (Hl : last (d :: ds) = (d :: ds) !! length ps).
    { rewrite last_lookup. cbn [length pred]. by rewrite Hlen. }
    destruct ((d :: ds) !! length ps) as [y|] eqn:Ey; [by rewrite Hl|]. apply lookup_ge_None in Ey. cbn in Ey. lia. }
  destruct (stages_replay _ _ _ _ HS d v e Hw Hself Hv) as (tv & Ev & HAv).
  assert (Hall : applied d (all_ops (snd st)) tE).
  { apply papply_applied; [by rewrite Hm|]. rewrite (all_ops_one _ (length ps)) by done. by rewrite (records_between _ ps). }
  destruct (snapshot_replays T i p h h0 L0 l d cs (N.of_nat v) tE HN H0 HD HA Hmax) as (st' & t' & E1 & HD' & Hap).
  - fold st. rewrite Hnv. unfold nats. apply elem_of_list_fmap. exists v. split; [done|]. apply elem_of_seq. lia.
  - intros w Hin. apply Hops. by apply Hmax.
  - by apply Hops.
  - exact Hall.
  - exists st', t'. split; [done|]. split; [done|]. apply applied_papply in Hap. fold st in Hap.
    rewrite (records_between _ ps), Ev in Hap by done. injection Hap as ->. by apply equal_rel.
Qed.

(** ** Patches as they are generated *)
Definition slashed (p : operation) : Prop := exists rest, op_path p = String slash rest.
Lemma from_diff_slashed p : from_diff p -> slashed p.
Proof.
  intros (wt & m & m' & ops & Hw & Hw' & E & Hin). rewrite diff_handle in E. exact (generated_slash wt m m' ops p Hw Hw' E Hin).
Qed.
Definition kept_doc (l : loc) (m : list (string * tson)) (h : heap) : Prop :=
  exists m', doc_of h (VObj l) (TObj m') ∧ same_named_members m m'.
Lemma patch_kept l m h s ops h' r : kept_doc l m h -> one l s -> Forall slashed ops -> apply_patch h s ops = (h', r) -> kept_doc l m h'.
Proof.
  intros (m1 & HD & HS) [-> | ->] Hs Ea.
  - destruct (papply_slash ops m1) as (m2 & E2 & H2); [rewrite Forall_forall in Hs; intros p Hp; by apply (Hs p)|].
    exists m2. pose proof (apply_patch_doc _ _ _ _ _ _ HD Ea) as HX. destruct (papply (TObj m1) ops) as [t r']. cbn [fst] in E2. subst t.
    split; [|intros k Hk; rewrite H2 by done; by apply HS].
    destruct r as [v| |], r' as [[]| |]; try done. by destruct HX.
  - assert (h' = h) as ->; [|by exists m1].
    unfold apply_patch in Ea. destruct ops as [|op ops]; [by injection Ea as <- _|]. cbn [apply_ops] in Ea.
    unfold apply_operation in Ea. destruct (op_parts (op_path op)) eqn:E; [by apply op_parts_ne in E|]. cbn in Ea. by injection Ea as <- _.
Qed.
Lemma replay_kept l m ps : forall h s t h' r, kept_doc l m h -> one l s -> Forall (Forall slashed) ps ->
  replay_versions h s t ps = (h', r) -> kept_doc l m h'.
Proof.
  induction ps as [|p ps IH]; intros h s t h' r HK Hs HF E; cbn [replay_versions] in E; [by injection E as <- _|].
  inversion HF; subst. destruct (apply_patch h s p) as [h1 r1] eqn:Ea. pose proof (patch_kept _ _ _ _ _ _ _ HK Hs ltac:(done) Ea) as HK1.
  destruct r1 as [v1| |]; [by eapply IH|by injection E as <- _|by injection E as <- _].
Qed.

(** Everything recorded or pending has a leading slash. *)
Definition all_slashed (L : logument) : Prop :=
  (forall v ps, l_patches L !! v = Some ps -> Forall slashed ps) ∧ Forall slashed (pending L).
Lemma slashed_at L v : all_slashed L -> Forall slashed (patch_at L v).
Proof. intros [H _]. unfold patch_at. destruct (l_patches L !! v) eqn:E; [by eapply H|constructor]. Qed.
Record held (l : loc) (m : list (string * tson)) (h : heap) (L : logument) : Prop := {
  hd_ok : consistent L;
  hd_root : shared_root l L;
  hd_doc : kept_doc l m h;
  hd_ops : all_slashed L }.
Lemma append_slashed h L : consistent L -> all_slashed L -> all_slashed (snd (fst (append (h, L)))).
Proof.
  intros HC [H1 H2]. destruct (append_cases h L HC) as [_ H]. destruct (l_pool L) as [ps|] eqn:EP; [|by rewrite H].
  destruct H as (n & Hn & _ & ->). unfold pending in H2. rewrite EP in H2. cbn in H2. split; cbn [snd l_patches]; [|constructor].
  intros v qs. rewrite lookup_insert_Some. intros [[_ <-]|[_ Hv]]; [done|by eapply H1].
Qed.
Lemma snapshot_held l m v h L : held l m h L -> held l m (fst (fst (snapshot v (h, L)))) (snd (fst (snapshot v (h, L)))).
Proof.
  intros [HC HR HD HO].
  assert (HH : kept_doc l m (fst (fst (snapshot v (h, L))))).
  { unfold snapshot. pose proof (find_latest_spec L v HC) as HF. destruct (find_latest L v) as [L1 [[w s]| |]]; [|done|done].
    destruct HF as (-> & _ & Hw & _). destruct HR as [HR _]. apply HR in Hw.
    destruct (if (w =? v)%N then _ else _) as [h1 r] eqn:Er.
    assert (HK : kept_doc l m h1).
    { destruct (w =? v)%N; [by injection Er as <- _|]. eapply replay_kept; [exact HD|exact Hw| |exact Er].
      apply Forall_fmap, Forall_forall. intros x _. by apply slashed_at. }
    destruct r as [t| |]; [|done|done]. by destruct (l_snapshots L !! v). }
  split; [by apply snapshot_consistent|by apply snapshot_root|done|].
  pose proof (snapshot_log v h L HC) as HL. destruct (snapshot v (h, L)) as [[h' L'] r].
  destruct HL as (n & _ & [->|(t & _ & _ & _ & ->)]); done.
Qed.
Lemma keep_latest_in ts p : forall ops mm, p ∈ map snd (fold_left (keep_latest ts) ops mm) -> p ∈ ops ∨ p ∈ map snd mm.
Proof.
  assert (Hins : forall k (o : operation) mm q, q ∈ map snd (ainsert k o mm) -> q = o ∨ q ∈ map snd mm).
  { intros k o mm q. induction mm as [|[k' o'] mm IH]; cbn; [set_solver|]. case_decide; cbn; set_solver. }
  induction ops as [|o ops IH]; intros mm Hin; [by right|]. cbn [fold_left] in Hin. apply IH in Hin as [Hin|Hin]; [left; by constructor|].
  unfold keep_latest in Hin. destruct (op_ts o <=? ts); [|by right].
  destruct (alookup (op_path o) mm) as [e|].
  - destruct (op_ts e <? op_ts o); [|by right]. apply Hins in Hin as [-> |Hin]; [left; constructor|by right].
  - apply Hins in Hin as [-> |Hin]; [left; constructor|by right].
Qed.
Lemma touch_slashed L v ps : all_slashed L -> Forall slashed ps -> all_slashed (touch_patch L v ps).
Proof.
  intros [H1 H2] Hps. split.
  - intros w qs. rewrite touch_lookup. case_decide; [|apply H1]. destruct (l_patches L !! v); [|done]. by intros [= <-].
  - unfold touch_patch. by destruct (l_patches L !! v).
Qed.
Lemma temporal_held l m orc ts h L : oracle_ok orc -> held l m h L ->
  held l m (fst (fst (temporal_snapshot orc ts (h, L)))) (snd (fst (temporal_snapshot orc ts (h, L)))).
Proof.
  intros (HOs & HOo & _) [HC HR HD HO].
  assert (Hsort : forall L1 v, all_slashed L1 -> Forall slashed (or_sort orc (patch_at L1 v))).
  { intros L1 v H1. rewrite (proj1 (HOs (patch_at L1 v))). by apply slashed_at. }
  split; [by apply temporal_snapshot_consistent| | |].
  - destruct (temporal_snapshot_snaps orc ts h L HC) as [E1 E2]. destruct HR as [HR1 HR2]. split; [by rewrite E1|by rewrite E2].
  - unfold temporal_snapshot. destruct (l_version L) as [|v0 vs]; [done|]. destruct (last_version L) as [vl|]; [|done].
    destruct (pick_snapshot _ _ _ _ _) as [v| |]; [|done|done].
    assert (Hs : one l (default VNil (l_snapshots L !! v))).
    { destruct HR as [HR _]. destruct (l_snapshots L !! v) eqn:Ev; [by eapply HR|by right]. }
    assert (HG : forall L1, all_slashed L1 -> kept_doc l m (fst (fst (
        let ps := or_sort orc (patch_at L1 (v + 1)) in
        let L2 := match l_patches L1 !! (v + 1)%N with
                  | Some _ => with_patches L1 (<[(v + 1)%N := ps]> (l_patches L1))
                  | None => L1
                  end in
        let mm := fold_left (keep_latest ts) (patch_at L2 (v + 1)) [] in
        match apply_patch h (default VNil (l_snapshots L !! v)) (map snd (or_ops orc mm)) with
        | (h1, Ok t) => (((h1, L2) : state), Ok t)
        | (h1, _) => ((h1, L2), Panic)
        end)))).
    { intros L1 H1. cbv zeta.
      change (match l_patches L1 !! (v + 1)%N with
              | Some _ => with_patches L1 (<[(v + 1)%N := or_sort orc (patch_at L1 (v + 1))]> (l_patches L1))
              | None => L1
              end) with (touch_patch L1 (v + 1) (or_sort orc (patch_at L1 (v + 1)))).
      pose proof (touch_slashed L1 (v + 1) _ H1 (Hsort L1 (v + 1)%N H1)) as HT.
      set (L2 := touch_patch _ _ _) in *. set (mm := fold_left _ _ _).
      assert (Hmm : Forall slashed (map snd (or_ops orc mm))).
      { rewrite (HOo mm). apply Forall_forall. intros q Hq. apply keep_latest_in in Hq as [Hq|Hq]; [|by apply elem_of_nil in Hq].
        pose proof (slashed_at L2 (v + 1) HT) as HH. rewrite Forall_forall in HH. by apply HH. }
      destruct (apply_patch h _ _) as [h1 r] eqn:Ea. pose proof (patch_kept _ _ _ _ _ _ _ HD Hs Hmm Ea) as HK. by destruct r. }
    destruct (vl <=? v)%N; [|by apply (HG L)].
    destruct (l_pool L); [|done]. pose proof (append_slashed h L HC HO) as HA. destruct (append (h, L)) as [[ha La] ra]. by apply (HG La).
  - pose proof (temporal_snapshot_log orc ts h L HC) as HT. destruct (temporal_snapshot orc ts (h, L)) as [[h' L'] r]. cbn.
    destruct HT as [->|(L1 & v & HL1 & ->)]; [done|].
    assert (H1 : all_slashed L1) by (destruct HL1 as [->|[_ ->]]; [done|by apply append_slashed]).
    apply touch_slashed; [done|]. by apply Hsort.
Qed.
Lemma set_held l m op h L : slashed op -> held l m h L -> held l m (fst (fst (set op (h, L)))) (snd (fst (set op (h, L)))).
Proof.
  intros Hop [HC HR HD HO]. split.
  - eapply same_shape_consistent; [|exact HC]. apply set_log.
  - by apply set_root.
  - unfold set. destruct (is_set _); [|done]. cbn [negb]. destruct HR as [_ HU].
    destruct (apply_operation h (l_current L) op) as [h1 r] eqn:Ea. rewrite <- apply_patch_one in Ea.
    pose proof (patch_kept _ _ _ _ [op] _ _ HD HU (List.Forall_cons _ _ _ Hop (List.Forall_nil _)) Ea) as HK. by destruct r.
  - unfold set. destruct (is_set _); [|done]. cbn [negb]. destruct HO as [HO1 HO2].
    destruct (apply_operation h (l_current L) op) as [h1 [v| |]]; [|by split|by split].
    split; [done|]. cbn. apply Forall_app. split; [done|]. by apply List.Forall_cons.
Qed.
Lemma compacted_slashed sel latest L vs : all_slashed L -> (forall v, v ∈ vs -> is_Some (l_patches L !! v)) ->
  pending (fst (compact_versions sel latest L vs)) = pending L ->
  all_slashed (fst (compact_versions sel latest L vs)).
Proof.
  intros [H1 H2] Hvs HP. split; [|by rewrite HP].
  clear HP H2. revert latest L H1 Hvs. induction vs as [|w vs IH]; intros latest L H1 Hvs; cbn [compact_versions]; [done|].
  destruct (change_filter sel true latest (patch_at L w)) as [[latest' ps']| |] eqn:E; [|done|done].
  apply IH.
  - intros v ps. cbn. rewrite lookup_insert_Some. intros [[<- <-]|[_ Hv]]; [|by eapply H1].
    apply change_filter_sublist in E. destruct (Hvs w) as [qs Hq]; [constructor|]. unfold patch_at in E. rewrite Hq in E. cbn in E.
    pose proof (H1 _ _ Hq) as HF. apply Forall_forall. intros x Hx. rewrite Forall_forall in HF. apply HF.
    exact (elem_of_submseteq _ _ _ Hx (sublist_submseteq _ _ E)).
  - intros v Hv. cbn. destruct (decide (v = w)) as [->|Hne]; [rewrite lookup_insert; by eexists|].
    rewrite lookup_insert_ne by done. apply Hvs. by constructor.
Qed.
Lemma run_call_held l m c h L : call_ok c -> Forall slashed (handed c) -> held l m h L ->
  held l m (fst (run_call (h, L) c)) (snd (run_call (h, L) c)).
Proof.
  intros Hc Hs HH. pose proof HH as [HC HR HD HO].
  pose proof (run_call_consistent c h L HC) as HC'. pose proof (run_call_root l c h L HC HR) as HR'.
  destruct c; cbn [run_call handed] in *.
  - split; [done|done| |].
    + pose proof (store_shape p h L) as H. destruct (store p (h, L)) as [[h' L'] r]. by destruct H as (-> & _).
    + pose proof (store_shape p h L) as H. pose proof (store_pending p h L) as HP. destruct (store p (h, L)) as [[h' L'] r].
      destruct H as (_ & _ & _ & E & _). destruct HO as [HO1 HO2]. cbn [fst snd] in *. split; [by rewrite E|]. rewrite HP.
      by apply Forall_app.
  - split; [done|done| |by apply append_slashed]. by rewrite (proj2 (proj2 (append_snaps h L HC))).
  - by apply snapshot_held.
  - by apply temporal_held.
  - destruct (slice_log vi vj h L HC) as [->| ->]; [done|]. by apply snapshot_held.
  - destruct (temporal_slice_log orc tsi tsj h L HC) as [->| ->]; [done|]. by apply temporal_held.
  - destruct (track_shape vi vj h L HC) as (_ & E & _ & Eh). split; [done|done|by rewrite Eh|].
    destruct (track_log vi vj h L HC) as [Et|Et]; rewrite Et in *; [done|]. apply compacted_slashed; [done| |unfold pending; cbn [fst snd] in E; by rewrite E].
    intros v Hv. apply sorted_keys_elem in Hv. rewrite keys_in_lookup in Hv. case_decide; [done|]. by destruct Hv.
  - unfold temporal_track. by destruct (tsj <? tsi).
  - inversion Hs; subst. by apply set_held.
  - inversion Hs as [|? ? Hop _]; subst. unfold test_set. destruct (op_kind op); try done; [by apply set_held|].
    destruct (last_version L); [|done]. destruct (read _ _); [|done].
    destruct (get_value _ _); [|by apply set_held|done].
    destruct (leaf_compare_value _ _); [done|]. by apply set_held.
  - destruct (compact_shape target h L HC) as (_ & E & _ & Eh). split; [done|done|by rewrite Eh|].
    rewrite compact_log in * by done. apply compacted_slashed; [done| |unfold pending; cbn [fst snd] in E; by rewrite E].
    intros v Hv. by apply sorted_keys_elem in Hv.
  - rewrite history_log in * by done. destruct (compact_shape target h L HC) as (_ & E & _ & Eh). split; [done|done|by rewrite Eh|].
    rewrite compact_log in * by done. apply compacted_slashed; [done| |unfold pending; cbn [fst snd] in E; by rewrite E].
    intros v Hv. by apply sorted_keys_elem in Hv.
Qed.
Lemma run_held l m cs : forall h L, Forall call_ok cs -> (forall c p, c ∈ cs -> p ∈ handed c -> slashed p) -> held l m h L ->
  held l m (fst (run (h, L) cs)) (snd (run (h, L) cs)).
Proof.
  induction cs as [|c cs IH]; intros h L Hok Hs HH; [done|]. inversion Hok; subst. cbn [run fold_left].
  assert (HX : held l m (fst (run_call (h, L) c)) (snd (run_call (h, L) c))).
  { apply run_call_held; [done| |done]. apply Forall_forall. intros p Hp. apply (Hs c p); [constructor|done]. }
  destruct (run_call (h, L) c) as [h1 L1]. apply IH; [done| |done]. intros c' p Hc' Hp. apply (Hs c' p); [by constructor|done].
Qed.
Lemma new_held T i p h h0 L0 l m : new_logument T i p h = (h0, Ok L0) -> l_snapshots L0 !! 0%N = Some (VObj l) ->
  doc_of h0 (VObj l) (TObj m) -> Forall slashed (pending L0) -> held l m h0 L0.
Proof.
  intros HN H0 HD Hp. destruct (new_root _ _ _ _ _ _ HN) as (x & E1 & E2 & _ & E4). split; [by eapply new_consistent| | |].
  - rewrite E1, lookup_singleton in H0. injection H0 as ->. split; [|rewrite E2; by left].
    rewrite E1. intros w s Hw. apply lookup_singleton_Some in Hw as [_ <-]. by left.
  - exists m. split; [done|]. by intros k _.
  - split; [|done]. rewrite E4. intros v ps. by rewrite lookup_empty.
Qed.
Lemma log_stays T i p h h0 L0 l m cs :
  new_logument T i p h = (h0, Ok L0) -> l_snapshots L0 !! 0%N = Some (VObj l) -> doc_of h0 (VObj l) (TObj m) ->
  (forall q, q ∈ pending L0 -> from_diff q) -> Forall call_ok cs -> (forall c q, c ∈ cs -> q ∈ handed c -> from_diff q) ->
  let st := run (h0, L0) cs in
  (forall v st' s, snapshot v st = (st', Ok s) ->
     s = VNil ∨ exists m', s = VObj l ∧ doc_of (fst st') s (TObj m') ∧ same_named_members m m') ∧
  (forall orc ts st' s, oracle_ok orc -> temporal_snapshot orc ts st = (st', Ok s) ->
     s = VNil ∨ exists m', s = VObj l ∧ doc_of (fst st') s (TObj m') ∧ same_named_members m m').
Proof.
  intros HN H0 HD Hp Hok Hc st.
  assert (HH : held l m (fst st) (snd st)).
  { apply run_held; [done|intros c q H1 H2; apply from_diff_slashed; by apply (Hc c)|]. eapply new_held; [done..|].
    apply Forall_forall. intros q Hq. apply from_diff_slashed. by apply Hp. }
  destruct st as [h1 L1]. cbn [fst snd] in HH. pose proof HH as [HC [HR _] _ _]. split.
  - intros v st' s E. pose proof (snapshot_held l m v h1 L1 HH) as H'. rewrite E in H'. destruct H' as [_ _ (m' & HD' & HS) _].
    destruct (snapshot_one l v h1 L1 st' s HC HR E) as [-> | ->]; [right|by left]. by exists m'.
  - intros orc ts st' s Ho E. pose proof (temporal_held l m orc ts h1 L1 Ho HH) as H'. rewrite E in H'. destruct H' as [_ _ (m' & HD' & HS) _].
    destruct (temporal_snapshot_one l orc ts h1 L1 st' s HR E) as [-> | ->]; [right|by left]. by exists m'.
Qed.

(** ** Equal documents *)
Lemma no_nan_self p : no_nan p -> equal_self p.
Proof.
  intros H x Hx. apply H. destruct (op_value p); try done; injection Hx as <-; constructor.
Qed.
Lemma congr_docs wt h l a h2 l2 b ops h' r h2' r2 : wf a -> wf b -> equal_for wt a b -> Forall no_nan ops ->
  doc_of h (VObj l) a -> doc_of h2 (VObj l2) b -> apply_patch h (VObj l) ops = (h', r) -> apply_patch h2 (VObj l2) ops = (h2', r2) ->
  same_outcome r r2 ∧ exists a' b', doc_of h' (VObj l) a' ∧ doc_of h2' (VObj l2) b' ∧ wf a' ∧ wf b' ∧ equal_for wt a' b'.
Proof.
  intros Ha Hb HE HN HD HD2 E E2. apply equal_rel in HE.
  destruct (papply_agree (rel wt) (rel_refl wt) ops) with (t := a) (d := b) as [Eo HA]; [|done..|].
  { apply Forall_forall. intros p Hp. rewrite Forall_forall in HN. by apply no_nan_self, HN. }
  pose proof (apply_patch_doc _ _ _ _ _ _ HD E) as H1. pose proof (apply_patch_doc _ _ _ _ _ _ HD2 E2) as H2.
  pose proof (papply_wf ops a Ha) as Hwa. pose proof (papply_wf ops b Hb) as Hwb.
  destruct (papply a ops) as [a' ra], (papply b ops) as [b' rb]. cbn [fst snd] in *. subst rb.
  split; [by destruct r, r2, ra|]. exists a', b'. rewrite equal_rel.
  destruct r, r2, ra; try done; destruct_and?; done.
Qed.
