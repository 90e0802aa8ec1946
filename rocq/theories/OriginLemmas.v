(** Where the values of a document come from. *)
From Verif Require Import Base BaseLemmas F64 Tson TsonInd TsonSpec TsonLemmas Serial Heap HeapSpec Patch PatchSpec TreePatch PatchLemmas Logument LogSpec LogLemmas ReplaySpec ReplayLemmas ChangeLemmas CompactLemmas ChainSpec ChainLemmas OriginSpec.
From Verif Require SnapAny.
From Coq Require Import Lia.

(** ** Documents *)
Lemma shown_ainsert x ts k c m : shown x ts (TObj (ainsert k c m)) -> shown x ts c ∨ shown x ts (TObj m).
Proof.
  intros H. inversion H as [|? k' c' Hin Hs|]; subst. assert (G : (k', c') = (k, c) ∨ (k', c') ∈ m).
  { clear -Hin. induction m as [|[a b] m IH]; cbn [ainsert] in Hin; [left; by apply elem_of_list_singleton|].
    case_decide; subst; apply elem_of_cons in Hin as [E|Hin]; rewrite ?elem_of_cons; [by left|by auto|by auto|]. destruct (IH Hin); auto. }
  destruct G as [[= -> ->]|G]; [by left|right; by eapply sh_member].
Qed.
Lemma shown_adelete x ts k m : shown x ts (TObj (adelete k m)) -> shown x ts (TObj m).
Proof.
  intros H. inversion H as [|? k' c' Hin Hs|]; subst. apply (sh_member _ _ _ k' c'); [|done]. clear -Hin.
  induction m as [|[a b] m IH]; cbn [adelete] in Hin; [done|]. rewrite elem_of_cons. case_decide; [tauto|]. apply elem_of_cons in Hin. tauto.
Qed.
Lemma shown_insert x ts i c xs : shown x ts (TArr (<[i := c]> xs)) -> shown x ts c ∨ shown x ts (TArr xs).
Proof.
  intros H. inversion H as [| |? c' Hin Hs]; subst. apply elem_of_list_lookup in Hin as [j Hj].
  apply list_lookup_insert_Some in Hj as [(_ & -> & _)|[_ Hj]]; [by left|]. right. eapply sh_element; [|done]. by eapply elem_of_list_lookup_2.
Qed.
Lemma shown_pad x ts xs idx : shown x ts (TArr (pad xs idx)) -> shown x ts (TArr xs).
Proof.
  unfold pad. destruct (_ <=? _); [|done]. intros H. inversion H as [| |? c' Hin Hs]; subst. apply elem_of_app in Hin as [Hin|Hin]; [by eapply sh_element|].
  apply elem_of_replicate in Hin as [-> _]. inversion Hs.
Qed.
Lemma shown_delete x ts i xs : shown x ts (TArr (delete i xs)) -> shown x ts (TArr xs).
Proof.
  intros H. inversion H as [| |? c' Hin Hs]; subst. eapply sh_element; [|done].
  exact (elem_of_submseteq _ _ _ Hin (sublist_submseteq _ _ (sublist_delete xs i))).
Qed.
Lemma shown_nth x ts i xs : shown x ts (default TNil (xs !! i)) -> shown x ts (TArr xs).
Proof. destruct (xs !! i) as [c|] eqn:E; intros H; [|inversion H]. eapply sh_element; [|done]. by eapply elem_of_list_lookup_2. Qed.
Lemma shown_lookup x ts k m c : alookup k m = Some c -> shown x ts c -> shown x ts (TObj m).
Proof. intros H%alookup_Some_in Hs. by eapply sh_member. Qed.
Lemma scalar_payload v p : scalar_of v = Some p -> payload v p.
Proof. destruct v; try done; intros [= <-]; constructor. Qed.
Lemma shown_back x ts m k r G : (shown x ts (fst r) -> shown x ts (TObj m) ∨ G) -> shown x ts (fst (put_back m k r)) -> shown x ts (TObj m) ∨ G.
Proof.
  intros H. destruct r as [c [[]| |]]; cbn [put_back fst] in *; intros [Hs|Hs]%shown_ainsert; auto. inversion Hs.
Qed.
Lemma trav_shown op x ts parts : forall t, shown x ts (fst (ptrav op parts t)) -> shown x ts t ∨ gives op x ts.
Proof.
  induction parts as [|part rest IH]; intros t; [by left|]. rewrite ptrav_cons. cbv beta iota.
  assert (HG : forall p, (op_kind op = OAdd ∨ op_kind op = OReplace) -> scalar_of (op_value op) = Some p -> shown x ts (TLeaf p (op_ts op)) -> gives op x ts).
  { intros p Hk Hp Hs. inversion Hs; subst. split; [done|]. split; [by apply scalar_payload|done]. }
  destruct t as [|p ts'|m|xs]; [by left|by left| |].
  - destruct rest as [|next rest].
    + destruct (op_kind op) eqn:Ek; try (by left).
      1,3: destruct (scalar_of (op_value op)) as [p|] eqn:Ep; [|by left]; intros [Hs|Hs]%shown_ainsert; [right; eapply HG; eauto|by left].
      intros Hs%shown_adelete. by left.
    + destruct (alookup part m) as [[|p ts'|m'|xs]|] eqn:El.
      * destruct (is_set _); [|by left]. destruct (parse_int next); apply shown_back; intros [Hs|Hs]%IH; auto; inversion Hs; subst; by match goal with H : _ ∈ [] |- _ => apply elem_of_nil in H end.
      * by left.
      * apply shown_back. intros [Hs|Hs]%IH; [left; by eapply shown_lookup|by right].
      * destruct (parse_int next) as [idx|]; [|by left]. pose proof (fun H => shown_lookup x ts part m (TArr xs) El H) as HL.
        destruct (op_kind op) eqn:Ek; try (by left).
        1,3: destruct (scalar_of (op_value op)) as [p|] eqn:Ep;
          [destruct (idx <? 0); [by left|]; intros [[Hs|Hs%shown_pad]%shown_insert|Hs]%shown_ainsert; [right; eapply HG; eauto|left; auto|by left]|].
        1,2: destruct (op_value op); try (intros [Hs%shown_pad|Hs]%shown_ainsert; left; auto; fail); destruct (idx <? 0); try (by left);
          (pose proof (IH (default TNil (pad xs idx !! Z.to_nat idx))) as IH1; destruct (ptrav op (next :: rest) _) as [c [[]| |]]; cbn [put_back fst] in *;
          [intros [[Hs%shown_nth%shown_pad|Hs]%IH1|Hs]%shown_ainsert; auto|intros [Hs|Hs]%shown_ainsert; [inversion Hs|by left]|
           intros [[[Hs%shown_nth%shown_pad|Hs]%IH1|Hs%shown_pad]%shown_insert|Hs]%shown_ainsert; auto]).
        destruct (_ || _); [by left|]. intros [Hs%shown_delete|Hs]%shown_ainsert; auto.
      * destruct (is_set _); [|by left]. destruct (parse_int next); apply shown_back; intros [Hs|Hs]%IH; auto; inversion Hs; subst; by match goal with H : _ ∈ [] |- _ => apply elem_of_nil in H end.
  - destruct (parse_int part) as [idx|]; [|by left]. destruct (_ && _); [by left|]. destruct rest as [|next rest].
    + destruct (op_kind op) eqn:Ek; try (by left).
      1,3: destruct (scalar_of (op_value op)) as [p|] eqn:Ep; [|by left]; destruct (idx <? 0); [by left|];
        intros [Hs|Hs%shown_pad]%shown_insert; [right; eapply HG; eauto|by left].
      destruct (idx <? 0); [by left|]. intros Hs%shown_delete. by left.
    + destruct (idx <? 0); [by left|]. pose proof (IH (default TNil (pad xs idx !! Z.to_nat idx))) as IH1.
      destruct (ptrav op (next :: rest) _) as [c [[]| |]]; cbn [fst] in *.
      * intros [[Hs%shown_nth%shown_pad|Hs]%IH1|Hs%shown_pad]%shown_insert; auto.
      * intros [Hs|Hs]%shown_insert; [inversion Hs|by left].
      * intros [[Hs%shown_nth%shown_pad|Hs]%IH1|Hs]%shown_insert; auto.
Qed.
Lemma papply_shown x ts ops : forall t, shown x ts (fst (papply t ops)) -> shown x ts t ∨ exists op, op ∈ ops ∧ gives op x ts.
Proof.
  induction ops as [|op ops IH]; intros t; cbn [papply]; [by left|]. pose proof (trav_shown op x ts (op_parts (op_path op)) t) as H1.
  destruct (ptrav op _ t) as [t1 [[]| |]]; cbn [fst] in *.
  - intros [Hs|(o & Ho & Hg)]%IH; [destruct (H1 Hs); [by left|right; exists op; split; [by left|done]]|right; exists o; split; [by right|done]].
  - intros Hs. destruct (H1 Hs); [by left|right; exists op; split; [by left|done]].
  - intros Hs. destruct (H1 Hs); [by left|right; exists op; split; [by left|done]].
Qed.
Lemma apply_shown h l t p h' r t' x ts : doc_of h (VObj l) t -> apply_patch h (VObj l) p = (h', r) -> doc_of h' (VObj l) t' ->
  shown x ts t' -> shown x ts t ∨ exists op, op ∈ p ∧ gives op x ts.
Proof.
  intros HD Ea HD'. pose proof (apply_patch_doc _ _ _ _ _ _ HD Ea) as HX. pose proof (papply_shown x ts p t) as HP.
  destruct (papply t p) as [t1 r1]. cbn [fst] in HP. assert (t' = t1) as ->; [|done].
  eapply doc_unique; [exact HD'|]. destruct r as [v| |], r1 as [[]| |]; try done. by destruct HX.
Qed.

(** ** Logs *)
Section origin.
(** The operations handed to the log, and what its document may hold. *)
Context (Q : operation -> Prop) (K : tson -> Prop).
Hypothesis QK : forall op t, Q op -> K t -> K (fst (ptrav op (op_parts (op_path op)) t)).
Hypothesis QA : forall op, op_kind op = OReplace -> Q op -> Q (Op OAdd (op_path op) (op_value op) (op_ts op)).
Lemma papply_kept ops : forall t, Forall Q ops -> K t -> K (fst (papply t ops)).
Proof.
  induction ops as [|op ops IH]; intros t HF Ht; cbn [papply]; [done|]. inversion HF; subst. pose proof (QK op t ltac:(done) Ht) as HK1.
  destruct (ptrav op _ t) as [t1 [[]| |]]; cbn [fst] in *; [by apply IH|done|done].
Qed.
Definition kept_doc (l : loc) (h : heap) : Prop := exists t, doc_of h (VObj l) t ∧ K t.
Lemma patch_kept l h s ops h' r : kept_doc l h -> one l s -> Forall Q ops -> apply_patch h s ops = (h', r) -> kept_doc l h'.
Proof.
  intros (t & HD & HS) [-> | ->] Hs Ea.
  - pose proof (apply_patch_doc _ _ _ _ _ _ HD Ea) as HX. pose proof (papply_kept ops t Hs HS) as HP.
    destruct (papply t ops) as [t' r']. cbn [fst] in HP. exists t'. split; [|done].
    destruct r as [v| |], r' as [[]| |]; try done. by destruct HX.
  - assert (h' = h) as ->; [|by exists t].
    unfold apply_patch in Ea. destruct ops as [|op ops]; [by injection Ea as <- _|]. cbn [apply_ops] in Ea.
    unfold apply_operation in Ea. destruct (op_parts (op_path op)) eqn:E; [by apply op_parts_ne in E|]. cbn in Ea. by injection Ea as <- _.
Qed.
Lemma replay_kept l ps : forall h s t h' r, kept_doc l h -> one l s -> Forall (Forall Q) ps ->
  replay_versions h s t ps = (h', r) -> kept_doc l h'.
Proof.
  induction ps as [|p ps IH]; intros h s t h' r HK Hs HF E; cbn [replay_versions] in E; [by injection E as <- _|].
  inversion HF; subst. destruct (apply_patch h s p) as [h1 r1] eqn:Ea. pose proof (patch_kept _ _ _ _ _ _ HK Hs ltac:(done) Ea) as HK1.
  destruct r1 as [v1| |]; [by eapply IH|by injection E as <- _|by injection E as <- _].
Qed.

(** Everything recorded or pending is such an operation. *)
Definition all_good (L : logument) : Prop :=
  (forall v ps, l_patches L !! v = Some ps -> Forall Q ps) ∧ Forall Q (pending L).
Lemma good_at L v : all_good L -> Forall Q (patch_at L v).
Proof. intros [H _]. unfold patch_at. destruct (l_patches L !! v) eqn:E; [by eapply H|constructor]. Qed.
Record held (l : loc) (h : heap) (L : logument) : Prop := {
  hd_ok : consistent L;
  hd_root : shared_root l L;
  hd_doc : kept_doc l h;
  hd_ops : all_good L }.
Lemma append_good h L : consistent L -> all_good L -> all_good (snd (fst (append (h, L)))).
Proof.
  intros HC [H1 H2]. destruct (append_cases h L HC) as [_ H]. destruct (l_pool L) as [ps|] eqn:EP; [|by rewrite H].
  destruct H as (n & Hn & _ & ->). unfold pending in H2. rewrite EP in H2. cbn in H2. split; cbn [snd l_patches]; [|constructor].
  intros v qs. rewrite lookup_insert_Some. intros [[_ <-]|[_ Hv]]; [done|by eapply H1].
Qed.
Lemma snapshot_held l v h L : held l h L -> held l (fst (fst (snapshot v (h, L)))) (snd (fst (snapshot v (h, L)))).
Proof.
  intros [HC HR HD HO].
  assert (HH : kept_doc l (fst (fst (snapshot v (h, L))))).
  { unfold snapshot. pose proof (find_latest_spec L v HC) as HF. destruct (find_latest L v) as [L1 [[w s]| |]]; [|done|done].
    destruct HF as (-> & _ & Hw & _). destruct HR as [HR _]. apply HR in Hw.
    destruct (if (w =? v)%N then _ else _) as [h1 r] eqn:Er.
    assert (HK : kept_doc l h1).
    { destruct (w =? v)%N; [by injection Er as <- _|]. eapply replay_kept; [exact HD|exact Hw| |exact Er].
      apply Forall_fmap, Forall_forall. intros x _. by apply good_at. }
    destruct r as [t| |]; [|done|done]. by destruct (l_snapshots L !! v). }
  split; [by apply snapshot_consistent|by apply snapshot_root|done|].
  pose proof (snapshot_log v h L HC) as HL. destruct (snapshot v (h, L)) as [[h' L'] r].
  destruct HL as (n & _ & [->|(t & _ & _ & _ & ->)]); done.
Qed.
Lemma touch_good L v ps : all_good L -> Forall Q ps -> all_good (touch_patch L v ps).
Proof.
  intros [H1 H2] Hps. split.
  - intros w qs. rewrite touch_lookup. case_decide; [|apply H1]. destruct (l_patches L !! v); [|done]. by intros [= <-].
  - unfold touch_patch. by destruct (l_patches L !! v).
Qed.
Lemma temporal_held l orc ts h L : oracle_ok orc -> held l h L ->
  held l (fst (fst (temporal_snapshot orc ts (h, L)))) (snd (fst (temporal_snapshot orc ts (h, L)))).
Proof.
  intros (HOs & HOo & _) [HC HR HD HO].
  assert (Hsort : forall L1 v, all_good L1 -> Forall Q (or_sort orc (patch_at L1 v))).
  { intros L1 v H1. rewrite (proj1 (HOs (patch_at L1 v))). by apply good_at. }
  split; [by apply temporal_snapshot_consistent| | |].
  - destruct (temporal_snapshot_snaps orc ts h L HC) as [E1 E2]. destruct HR as [HR1 HR2]. split; [by rewrite E1|by rewrite E2].
  - unfold temporal_snapshot. destruct (l_version L) as [|v0 vs]; [done|]. destruct (last_version L) as [vl|]; [|done].
    destruct (pick_snapshot _ _ _ _ _) as [v| |]; [|done|done].
    assert (Hs : one l (default VNil (l_snapshots L !! v))).
    { destruct HR as [HR _]. destruct (l_snapshots L !! v) eqn:Ev; [by eapply HR|by right]. }
    assert (HG : forall L1, all_good L1 -> kept_doc l (fst (fst (
        let ps := or_sort orc (patch_at L1 (v + 1)) in
        let L2 := match l_patches L1 !! (v + 1)%N with
                  | Some _ => with_patches L1 (<[(v + 1)%N := ps]> (l_patches L1))
                  | None => L1
                  end in
        let mm := fold_left (keep_latest ts) (patch_at L2 (v + 1)) [] in
        match apply_patch h (default VNil (l_snapshots L !! v)) (map snd (or_ops orc mm)) with
        | (h1, Ok t) => (((h1, L2) : state), Ok t)
        | (h1, _) => ((h1, L2), Panic)
        end)))).
    { intros L1 H1. cbv zeta.
      change (match l_patches L1 !! (v + 1)%N with
              | Some _ => with_patches L1 (<[(v + 1)%N := or_sort orc (patch_at L1 (v + 1))]> (l_patches L1))
              | None => L1
              end) with (touch_patch L1 (v + 1) (or_sort orc (patch_at L1 (v + 1)))).
      pose proof (touch_good L1 (v + 1) _ H1 (Hsort L1 (v + 1)%N H1)) as HT.
      set (L2 := touch_patch _ _ _) in *. set (mm := fold_left _ _ _).
      assert (Hmm : Forall Q (map snd (or_ops orc mm))).
      { rewrite (HOo mm). apply Forall_forall. intros q Hq. apply keep_latest_in in Hq as [Hq|Hq]; [|by apply elem_of_nil in Hq].
        pose proof (good_at L2 (v + 1) HT) as HH. rewrite Forall_forall in HH. by apply HH. }
      destruct (apply_patch h _ _) as [h1 r] eqn:Ea. pose proof (patch_kept _ _ _ _ _ _ HD Hs Hmm Ea) as HK. by destruct r. }
    destruct (vl <=? v)%N; [|by apply (HG L)].
    destruct (l_pool L); [|done]. pose proof (append_good h L HC HO) as HA. destruct (append (h, L)) as [[ha La] ra]. by apply (HG La).
  - pose proof (temporal_snapshot_log orc ts h L HC) as HT. destruct (temporal_snapshot orc ts (h, L)) as [[h' L'] r]. cbn.
    destruct HT as [->|(L1 & v & HL1 & ->)]; [done|].
    assert (H1 : all_good L1) by (destruct HL1 as [->|[_ ->]]; [done|by apply append_good]).
    apply touch_good; [done|]. by apply Hsort.
Qed.
Lemma set_held l op h L : Q op -> held l h L -> held l (fst (fst (set op (h, L)))) (snd (fst (set op (h, L)))).
Proof.
  intros Hop [HC HR HD HO]. split.
  - eapply same_shape_consistent; [|exact HC]. apply set_log.
  - by apply set_root.
  - unfold set. destruct (is_set _); [|done]. cbn [negb]. destruct HR as [_ HU].
    destruct (apply_operation h (l_current L) op) as [h1 r] eqn:Ea. rewrite <- apply_patch_one in Ea.
    pose proof (patch_kept _ _ _ [op] _ _ HD HU (List.Forall_cons _ _ _ Hop (List.Forall_nil _)) Ea) as HK. by destruct r.
  - unfold set. destruct (is_set _); [|done]. cbn [negb]. destruct HO as [HO1 HO2].
    destruct (apply_operation h (l_current L) op) as [h1 [v| |]]; [|by split|by split].
    split; [done|]. cbn. apply Forall_app. split; [done|]. by apply List.Forall_cons.
Qed.
Lemma compacted_good sel latest L vs : all_good L -> (forall v, v ∈ vs -> is_Some (l_patches L !! v)) ->
  pending (fst (compact_versions sel latest L vs)) = pending L ->
  all_good (fst (compact_versions sel latest L vs)).
Proof.
  intros [H1 H2] Hvs HP. split; [|by rewrite HP].
  clear HP H2. revert latest L H1 Hvs. induction vs as [|w vs IH]; intros latest L H1 Hvs; cbn [compact_versions]; [done|].
  destruct (change_filter sel true latest (patch_at L w)) as [[latest' ps']| |] eqn:E; [|done|done].
  apply IH.
  - intros v ps. cbn. rewrite lookup_insert_Some. intros [[<- <-]|[_ Hv]]; [|by eapply H1].
    apply change_filter_sublist in E. destruct (Hvs w) as [qs Hq]; [constructor|]. unfold patch_at in E. rewrite Hq in E. cbn in E.
    pose proof (H1 _ _ Hq) as HF. apply Forall_forall. intros x Hx. rewrite Forall_forall in HF. apply HF.
    exact (elem_of_submseteq _ _ _ Hx (sublist_submseteq _ _ E)).
  - intros v Hv. cbn. destruct (decide (v = w)) as [->|Hne]; [rewrite lookup_insert; by eexists|].
    rewrite lookup_insert_ne by done. apply Hvs. by constructor.
Qed.
Lemma run_call_held l c h L : call_ok c -> Forall Q (handed c) -> held l h L ->
  held l (fst (run_call (h, L) c)) (snd (run_call (h, L) c)).
Proof.
  intros Hc Hs HH. pose proof HH as [HC HR HD HO].
  pose proof (run_call_consistent c h L HC) as HC'. pose proof (run_call_root l c h L HC HR) as HR'.
  destruct c; cbn [run_call handed] in *.
  - split; [done|done| |].
    + pose proof (store_shape p h L) as H. destruct (store p (h, L)) as [[h' L'] r]. by destruct H as (-> & _).
    + pose proof (store_shape p h L) as H. pose proof (store_pending p h L) as HP. destruct (store p (h, L)) as [[h' L'] r].
      destruct H as (_ & _ & _ & E & _). destruct HO as [HO1 HO2]. cbn [fst snd] in *. split; [by rewrite E|]. rewrite HP.
      by apply Forall_app.
  - split; [done|done| |by apply append_good]. by rewrite (proj2 (proj2 (append_snaps h L HC))).
  - by apply snapshot_held.
  - by apply temporal_held.
  - destruct (slice_log vi vj h L HC) as [->| ->]; [done|]. by apply snapshot_held.
  - destruct (temporal_slice_log orc tsi tsj h L HC) as [->| ->]; [done|]. by apply temporal_held.
  - destruct (track_shape vi vj h L HC) as (_ & E & _ & Eh). split; [done|done|by rewrite Eh|].
    destruct (track_log vi vj h L HC) as [Et|Et]; rewrite Et in *; [done|]. apply compacted_good; [done| |unfold pending; cbn [fst snd] in E; by rewrite E].
    intros v Hv. apply sorted_keys_elem in Hv. rewrite keys_in_lookup in Hv. case_decide; [done|]. by destruct Hv.
  - unfold temporal_track. by destruct (tsj <? tsi).
  - inversion Hs; subst. by apply set_held.
  - inversion Hs as [|? ? Hop _]; subst. unfold test_set. destruct (op_kind op) eqn:Ek; try done; [by apply set_held|].
    destruct (last_version L); [|done]. destruct (read _ _); [|done].
    destruct (get_value _ _); [|by apply set_held; [apply QA|]|done].
    destruct (leaf_compare_value _ _); [done|]. by apply set_held.
  - destruct (compact_shape target h L HC) as (_ & E & _ & Eh). split; [done|done|by rewrite Eh|].
    rewrite compact_log in * by done. apply compacted_good; [done| |unfold pending; cbn [fst snd] in E; by rewrite E].
    intros v Hv. by apply sorted_keys_elem in Hv.
  - rewrite history_log in * by done. destruct (compact_shape target h L HC) as (_ & E & _ & Eh). split; [done|done|by rewrite Eh|].
    rewrite compact_log in * by done. apply compacted_good; [done| |unfold pending; cbn [fst snd] in E; by rewrite E].
    intros v Hv. by apply sorted_keys_elem in Hv.
Qed.
Lemma run_held l cs : forall h L, Forall call_ok cs -> (forall c p, c ∈ cs -> p ∈ handed c -> Q p) -> held l h L ->
  held l (fst (run (h, L) cs)) (snd (run (h, L) cs)).
Proof.
  induction cs as [|c cs IH]; intros h L Hok Hs HH; [done|]. inversion Hok; subst. cbn [run fold_left].
  assert (HX : held l (fst (run_call (h, L) c)) (snd (run_call (h, L) c))).
  { apply run_call_held; [done| |done]. apply Forall_forall. intros p Hp. apply (Hs c p); [constructor|done]. }
  destruct (run_call (h, L) c) as [h1 L1]. apply IH; [done| |done]. intros c' p Hc' Hp. apply (Hs c' p); [by constructor|done].
Qed.
Lemma new_held T i p h h0 L0 l t : new_logument T i p h = (h0, Ok L0) -> l_snapshots L0 !! 0%N = Some (VObj l) ->
  doc_of h0 (VObj l) t -> K t -> Forall Q (pending L0) -> held l h0 L0.
Proof.
  intros HN H0 HD HS Hp. destruct (new_root _ _ _ _ _ _ HN) as (x & E1 & E2 & _ & E4). split; [by eapply new_consistent| | |].
  - rewrite E1, lookup_singleton in H0. injection H0 as ->. split; [|rewrite E2; by left].
    rewrite E1. intros w s Hw. apply lookup_singleton_Some in Hw as [_ <-]. by left.
  - by exists t.
  - split; [|done]. rewrite E4. intros v ps. by rewrite lookup_empty.
Qed.
End origin.

(** ** Runs *)
Section run.
Context T i p h h0 L0 l t0 cs (HN : new_logument T i p h = (h0, Ok L0)) (H0 : l_snapshots L0 !! 0%N = Some (VObj l))
  (HD : doc_of h0 (VObj l) t0) (Hok : Forall call_ok cs).
Definition by_handed (o : operation) : Prop :=
  exists r, handed_to L0 cs r ∧ (o = r ∨ op_kind r = OReplace ∧ o = Op OAdd (op_path r) (op_value r) (op_ts r)).
Definition known (t : tson) : Prop := forall x ts, shown x ts t -> shown x ts t0 ∨ exists op, handed_to L0 cs op ∧ gives op x ts.
Lemma known_gives op t : by_handed op -> known t -> known (fst (ptrav op (op_parts (op_path op)) t)).
Proof.
  intros (r & Hr & Ho) Ht x ts [Hs|Hg]%trav_shown; [by apply Ht|]. right. exists r. split; [done|]. destruct Ho as [->|[Hk ->]]; [done|].
  destruct Hg as (_ & Hp & Hz). split; [by right|]. done.
Qed.
Lemma handed_add op : op_kind op = OReplace -> by_handed op -> by_handed (Op OAdd (op_path op) (op_value op) (op_ts op)).
Proof. intros Hk (r & Hr & [->|[Hk' ->]]); [|done]. exists r. split; [done|]. by right. Qed.
Lemma run_known : held by_handed known l (fst (run (h0, L0) cs)) (snd (run (h0, L0) cs)).
Proof.
  apply run_held; [exact known_gives|exact handed_add|done| |].
  - intros c q Hc Hq. exists q. split; [right; by exists c|by left].
  - eapply new_held; [done..|by intros x ts Hx; left|]. apply Forall_forall. intros q Hq. exists q. split; [by left|by left].
Qed.
Lemma origin_run : exists t, doc_of (fst (run (h0, L0) cs)) (VObj l) t ∧ known t.
Proof. by destruct run_known. Qed.
Lemma origin_snapshot v st' s : snapshot v (run (h0, L0) cs) = (st', Ok s) ->
  s = VNil ∨ s = VObj l ∧ exists t, doc_of (fst st') s t ∧ known t.
Proof.
  intros E. pose proof run_known as HH. destruct (run (h0, L0) cs) as [h1 L1]. cbn [fst snd] in HH. pose proof HH as [HC [HR _] _ _].
  pose proof (snapshot_held _ _ known_gives l v h1 L1 HH) as H'. rewrite E in H'. destruct H' as [_ _ HK _].
  destruct (snapshot_one l v h1 L1 st' s HC HR E) as [-> | ->]; [right|by left]. split; [done|]. exact HK.
Qed.
Lemma origin_temporal orc ts st' s : oracle_ok orc -> temporal_snapshot orc ts (run (h0, L0) cs) = (st', Ok s) ->
  s = VNil ∨ s = VObj l ∧ exists t, doc_of (fst st') s t ∧ known t.
Proof.
  intros Ho E. pose proof run_known as HH. destruct (run (h0, L0) cs) as [h1 L1]. cbn [fst snd] in HH. pose proof HH as [HC [HR _] _ _].
  pose proof (temporal_held _ _ known_gives l orc ts h1 L1 Ho HH) as H'. rewrite E in H'. destruct H' as [_ _ HK _].
  destruct (temporal_snapshot_one l orc ts h1 L1 st' s HR E) as [-> | ->]; [right|by left]. split; [done|]. exact HK.
Qed.
End run.
(** Snapshot of a version shows values of the initial document and of the versions up to it. *)
Lemma in_between L lo hi o : o ∈ ops_between L lo hi -> exists u, (lo <= u < hi)%N ∧ o ∈ patch_at L u.
Proof.
  unfold ops_between. rewrite elem_of_list_In, in_concat. intros (ps & H1 & H2). apply in_map_iff in H1 as (j & <- & Hj). apply in_seq in Hj.
  exists (lo + N.of_nat j)%N. split; [lia|]. by apply elem_of_list_In.
Qed.
Lemma origin_version v h L l t h' L' r t' x ts : reachable (h, L) -> l_snapshots L !! 0%N = Some (VObj l) -> doc_of h (VObj l) t ->
  snapshot v (h, L) = ((h', L'), Ok r) -> doc_of h' (VObj l) t' -> shown x ts t' ->
  shown x ts t ∨ exists u op, (1 <= u <= v)%N ∧ op ∈ patch_at L u ∧ gives op x ts.
Proof.
  intros HR HS HD E HD' Hx. pose proof (SnapAny.snapshot_any v h L l t HR HS HD) as HA. rewrite E in HA.
  destruct HA as (_ & w & s & _ & _ & [(-> & _ & -> & _)|(Hw & _ & _ & _ & t1 & HD1 & Ha)]).
  - left. by rewrite (doc_unique _ _ _ _ HD HD').
  - rewrite (doc_unique _ _ _ _ HD' HD1) in Hx. apply applied_papply in Ha.
    destruct (papply_shown x ts (ops_between L (w + 1) (v + 1)) t) as [H|(op & Ho & Hg)]; [by rewrite Ha|by left|].
    right. apply in_between in Ho as (u & Hu & Ho). exists u, op. split; [lia|]. done.
Qed.
(** The latest timestamp of a document is one of a value, or 0. *)
Lemma latest_shown t : forall z, latest_timestamp t = Ok z -> z = 0 ∨ exists x, shown x z t.
Proof.
  induction t as [|p ts|m IH|l IH] using tson_ind'; intros z.
  - done.
  - intros [= <-]. right. exists p. constructor.
  - cbn [latest_timestamp].
    assert (H : forall m' acc, (forall kv, kv ∈ m' -> kv ∈ m) -> Forall (fun kv => forall z, latest_timestamp (snd kv) = Ok z -> z = 0 ∨ exists x, shown x z (snd kv)) m' ->
      (acc = 0 ∨ exists x, shown x acc (TObj m)) ->
      (fix go (acc : Z) (m : list (string * tson)) : res Z := match m with [] => Ok acc | (_, v) :: m' => do ts <- latest_timestamp v; go (if acc <? ts then ts else acc) m' end) acc m' = Ok z ->
      z = 0 ∨ exists x, shown x z (TObj m)).
    { induction m' as [|[k c] m' IHm]; intros acc Hin HF Ha; [by intros [= <-]|]. inversion HF as [|? ? H1 H2]; subst.
      destruct (latest_timestamp c) as [ts| |] eqn:Ec; cbn [rbind]; [|done|done]. apply IHm; [intros kv Hkv; apply Hin; by right|done|].
      destruct (acc <? ts); [|done]. destruct (H1 ts Ec) as [->|[x Hx]]; [by left|]. right. exists x. apply (sh_member _ _ _ k c); [|done]. apply Hin. by left. }
    apply H; [done|done|by left].
  - cbn [latest_timestamp].
    assert (H : forall m' acc, (forall c, c ∈ m' -> c ∈ l) -> Forall (fun c => forall z, latest_timestamp c = Ok z -> z = 0 ∨ exists x, shown x z c) m' ->
      (acc = 0 ∨ exists x, shown x acc (TArr l)) ->
      (fix go (acc : Z) (l : list tson) : res Z := match l with [] => Ok acc | v :: l' => do ts <- latest_timestamp v; go (if acc <? ts then ts else acc) l' end) acc m' = Ok z ->
      z = 0 ∨ exists x, shown x z (TArr l)).
    { induction m' as [|c m' IHm]; intros acc Hin HF Ha; [by intros [= <-]|]. inversion HF as [|? ? H1 H2]; subst.
      destruct (latest_timestamp c) as [ts| |] eqn:Ec; cbn [rbind]; [|done|done]. apply IHm; [intros kv Hkv; apply Hin; by right|done|].
      destruct (acc <? ts); [|done]. destruct (H1 ts eq_refl) as [->|[x Hx]]; [by left|]. right. exists x. apply (sh_element _ _ _ c); [|done]. apply Hin. by left. }
    apply H; [done|done|by left].
Qed.
Lemma origin_latest T i p h h0 L0 l t0 cs t z :
  new_logument T i p h = (h0, Ok L0) -> l_snapshots L0 !! 0%N = Some (VObj l) -> doc_of h0 (VObj l) t0 -> Forall call_ok cs ->
  doc_of (fst (run (h0, L0) cs)) (VObj l) t -> latest_timestamp t = Ok z ->
  z = 0 ∨ (exists x, shown x z t0) ∨ exists op, handed_to L0 cs op ∧ writes op ∧ op_ts op = z.
Proof.
  intros HN H0 HD Hok HE Hz. destruct (latest_shown t z Hz) as [->|[x Hx]]; [by left|right].
  destruct (origin_run _ _ _ _ _ _ _ _ _ HN H0 HD Hok) as (t1 & HD1 & HK). rewrite (doc_unique _ _ _ _ HE HD1) in Hx.
  destruct (HK x z Hx) as [H|(op & Ho & Hw & _ & Ht)]; [left; by exists x|right; by exists op].
Qed.

(** ** Places *)
Lemma place_ainsert part c m ks lf : at_path (TObj (ainsert part c m)) (keys ks) = Some lf ->
  ks = [] ∨ at_path (TObj m) (keys ks) = Some lf ∨ exists ks', ks = part :: ks' ∧ at_path c (keys ks') = Some lf.
Proof.
  destruct ks as [|k ks]; [by left|]. cbn [map]. rewrite !at_key. right. destruct (decide (k = part)) as [->|Hne].
  - right. exists ks. split; [done|]. by rewrite alookup_ainsert_eq in H.
  - left. by rewrite alookup_ainsert_ne in H.
Qed.
Lemma place_arr xs ks x ts : at_path (TArr xs) (keys ks) = Some (TLeaf x ts) -> False.
Proof. by destruct ks. Qed.
Lemma place_nil ks x ts : at_path TNil (keys ks) = Some (TLeaf x ts) -> False.
Proof. by destruct ks. Qed.
Lemma place_empty ks x ts : at_path (TObj []) (keys ks) = Some (TLeaf x ts) -> False.
Proof. by destruct ks. Qed.
Lemma place_back x ts m part rest r ks (G : Prop) : 
  (forall ks', at_path (fst r) (keys ks') = Some (TLeaf x ts) -> at_path (TObj m) (keys (part :: ks')) = Some (TLeaf x ts) ∨ G ∧ ks' = rest) ->
  at_path (fst (put_back m part r)) (keys ks) = Some (TLeaf x ts) -> at_path (TObj m) (keys ks) = Some (TLeaf x ts) ∨ G ∧ ks = part :: rest.
Proof.
  intros H. destruct r as [c [[]| |]]; cbn [put_back fst] in *; intros E; destruct (place_ainsert _ _ _ _ _ E) as [->|[H1|(ks' & -> & H1)]]; try done; try (by left).
  - destruct (H _ H1) as [|[? ->]]; [by left|by right].
  - by apply place_nil in H1.
  - destruct (H _ H1) as [|[? ->]]; [by left|by right].
Qed.
Lemma place_arr_member part xs m ks x ts : at_path (TObj (ainsert part (TArr xs) m)) (keys ks) = Some (TLeaf x ts) -> at_path (TObj m) (keys ks) = Some (TLeaf x ts).
Proof. intros E. destruct (place_ainsert _ _ _ _ _ E) as [->|[H1|(ks' & -> & H1)]]; [done|done|]. by apply place_arr in H1. Qed.
Lemma trav_place op x ts parts : (op_value op = ANil ∨ exists p, payload (op_value op) p) ->
  forall t ks, at_path (fst (ptrav op parts t)) (keys ks) = Some (TLeaf x ts) -> at_path t (keys ks) = Some (TLeaf x ts) ∨ gives op x ts ∧ ks = parts.
Proof.
  intros Hv. assert (Hv' : scalar_of (op_value op) = None -> op_value op = ANil).
  { intros E. destruct Hv as [|[p Hp]]; [done|]. apply PatchLemmas.payload_scalar in Hp. congruence. }
  induction parts as [|part rest IH]; intros t ks; [by left|]. rewrite ptrav_cons. cbv beta iota.
  destruct t as [|p ts'|m|xs]; [by left|by left| |].
  - destruct rest as [|next rest].
    + destruct (op_kind op) eqn:Ek; try (by left).
      1,3: destruct (scalar_of (op_value op)) as [p|] eqn:Ep; [|by left]; intros E; destruct (place_ainsert _ _ _ _ _ E) as [->|[H1|(ks' & -> & H1)]]; [done|by left|];
        destruct ks' as [|k' ks']; [|done]; injection H1 as -> <-; right; split; [|done]; split; [unfold writes; rewrite Ek; auto|]; split; [by apply scalar_payload|done].
      destruct ks as [|k ks]; [done|]. cbn [fst map]. rewrite !at_key. destruct (decide (k = part)) as [->|Hne]; [by rewrite alookup_adelete_eq|].
      rewrite alookup_adelete_ne by done. by left.
    + destruct (alookup part m) as [[|p ts'|m'|xs]|] eqn:El.
      * destruct (is_set _); [|by left]. destruct (parse_int next); apply place_back; intros ks' [Hs|Hs]%IH; auto; by (apply place_arr in Hs || apply place_empty in Hs).
      * by left.
      * apply place_back. intros ks' [Hs|Hs]%IH; [left|by right]. cbn [map]. by rewrite at_key, El.
      * destruct (parse_int next) as [idx|]; [|by left]. 
        destruct (op_kind op) eqn:Ek; try (by left).
        1,3: destruct (scalar_of (op_value op)) as [p|] eqn:Ep; [destruct (idx <? 0); [by left|]|rewrite (Hv' eq_refl)]; intros Hs%place_arr_member; by left.
        destruct (_ || _); [by left|]. intros Hs%place_arr_member. by left.
      * destruct (is_set _); [|by left]. destruct (parse_int next); apply place_back; intros ks' [Hs|Hs]%IH; auto; by (apply place_arr in Hs || apply place_empty in Hs).
  - destruct (parse_int part) as [idx|]; [|by left]. destruct (_ && _); [by left|]. destruct rest as [|next rest].
    + destruct (op_kind op) eqn:Ek; try (by left).
      1,3: destruct (scalar_of (op_value op)) as [p|] eqn:Ep; [|by left]; destruct (idx <? 0); [by left|]; intros []%place_arr.
      destruct (idx <? 0); [by left|]. intros []%place_arr.
    + destruct (idx <? 0); [by left|].
      destruct (ptrav op (next :: rest) _) as [c [[]| |]]; cbn [fst]; intros []%place_arr.
Qed.
Section place.
Context T i p h h0 L0 l t0 cs (HN : new_logument T i p h = (h0, Ok L0)) (H0 : l_snapshots L0 !! 0%N = Some (VObj l))
  (HD : doc_of h0 (VObj l) t0) (Hok : Forall call_ok cs) (Hd : forall op, handed_to L0 cs op -> direct op).
Definition placed (t : tson) : Prop := forall names x ts, at_path t (keys names) = Some (TLeaf x ts) ->
  at_path t0 (keys names) = Some (TLeaf x ts) ∨ exists op, handed_to L0 cs op ∧ spells (op_path op) names ∧ gives op x ts.
Lemma placed_gives op t : by_handed L0 cs op -> placed t -> placed (fst (ptrav op (op_parts (op_path op)) t)).
Proof.
  intros (r & Hr & Ho) Ht names x ts Hs. destruct (Hd r Hr) as [(ns & Hn) Hv].
  apply trav_place in Hs as [Hs|[Hg ->]]; [by apply Ht| |by destruct Ho as [->|[_ ->]]]. right. exists r. split; [done|].
  destruct Ho as [->|[Hk ->]]; cbn [op_path] in *; rewrite (spells_parts _ _ Hn); split; [done..|done|].
  destruct Hg as (_ & Hp & Hz). split; [by right|]. done.
Qed.
Lemma run_placed : held (by_handed L0 cs) placed l (fst (run (h0, L0) cs)) (snd (run (h0, L0) cs)).
Proof.
  apply run_held; [exact placed_gives|exact (handed_add L0 cs)|done| |].
  - intros c q Hc Hq. exists q. split; [right; by exists c|by left].
  - eapply new_held; [done..|by intros names x ts Hx; left|]. apply Forall_forall. intros q Hq. exists q. split; [by left|by left].
Qed.
Lemma place_run : exists t, doc_of (fst (run (h0, L0) cs)) (VObj l) t ∧ placed t.
Proof. by destruct run_placed. Qed.
Lemma place_temporal orc ts st' s : oracle_ok orc -> temporal_snapshot orc ts (run (h0, L0) cs) = (st', Ok s) ->
  s = VNil ∨ s = VObj l ∧ exists t, doc_of (fst st') s t ∧ placed t.
Proof.
  intros Ho E. pose proof run_placed as HH. destruct (run (h0, L0) cs) as [h1 L1]. cbn [fst snd] in HH. pose proof HH as [HC [HR _] _ _].
  pose proof (temporal_held _ _ placed_gives l orc ts h1 L1 Ho HH) as H'. rewrite E in H'. destruct H' as [_ _ HK _].
  destruct (temporal_snapshot_one l orc ts h1 L1 st' s HR E) as [-> | ->]; [right|by left]. split; [done|]. exact HK.
Qed.
Lemma place_snapshot v st' s : snapshot v (run (h0, L0) cs) = (st', Ok s) ->
  s = VNil ∨ s = VObj l ∧ exists t, doc_of (fst st') s t ∧ placed t.
Proof.
  intros E. pose proof run_placed as HH. destruct (run (h0, L0) cs) as [h1 L1]. cbn [fst snd] in HH. pose proof HH as [HC [HR _] _ _].
  pose proof (snapshot_held _ _ placed_gives l v h1 L1 HH) as H'. rewrite E in H'. destruct H' as [_ _ HK _].
  destruct (snapshot_one l v h1 L1 st' s HC HR E) as [-> | ->]; [right|by left]. split; [done|]. exact HK.
Qed.
End place.
