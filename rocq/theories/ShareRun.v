(** Proofs about several logs over shared operation arrays: whole histories, and the log a call is
    made on. *)
From Verif Require Import Base F64 Tson Heap Patch Logument LogSpec LogLemmas Alias AliasSpec AliasLemmas Share ShareSpec ShareLemmas.
From Coq Require Import Lia.

(** ** The other logs *)
Lemma ops_at_some w k L v : snd w !! k = Some L -> ops_at w k v = contents (fst w) <$> al_patches L !! v.
Proof. intros E. unfold ops_at. by rewrite E. Qed.
Lemma pending_some w k L : snd w !! k = Some L -> pending w k = contents (fst w) <$> al_pool L.
Proof. intros E. unfold pending. by rewrite E. Qed.
Lemma sorted_order l l' : in_order l -> l' ≡ₚ l -> StronglySorted (fun p q => op_ts p <= op_ts q) l' -> l' = l.
Proof.
  unfold in_order. intros H. revert l'. induction H as [|p l H IH Hp]; intros l' HP HS.
  { by apply Permutation_nil. }
  destruct l' as [|q l']; [by apply Permutation_nil in HP|].
  inversion HS as [|? ? HS' Hq]; subst. 
  assert (q = p) as ->.
  { assert (Hin : q ∈ p :: l) by (rewrite <- HP; by left). apply elem_of_cons in Hin as [->|Hin]; [done|].
    assert (Hin' : p ∈ q :: l') by (rewrite HP; by left). apply elem_of_cons in Hin' as [->|Hin']; [done|].
    rewrite Forall_forall in Hp, Hq. specialize (Hp q Hin). specialize (Hq p Hin'). lia. }
  f_equal. apply IH; [|done]. by apply Permutation_cons_inv in HP.
Qed.
Lemma others_step w c j : kinv w -> klegal w c -> kcareful w c -> about c <> Some j -> is_Some (snd w !! j) ->
  versions (kstep w c) j = versions w j ∧ pending (kstep w c) j = pending w j ∧
  (forall v, option_Forall2 (fun ps' ps => ps' ≡ₚ ps ∧ (in_order ps -> ps' = ps) ∧ (~ sorts c -> ps' = ps)) (ops_at (kstep w c) j v) (ops_at w j v)).
Proof.
  intros HI HL HC Hj [L E]. destruct (kstep_spec w c HI HL HC) as [_ H]. destruct (H j L E Hj) as [E' [H1 H2]].
  split_and!.
  - unfold versions. by rewrite E, E'.
  - rewrite (pending_some _ _ L E), (pending_some _ _ L E'). destruct (al_pool L) as [p|]; [|done]. cbn. f_equal. by apply H1.
  - intros v. rewrite (ops_at_some _ _ L v E), (ops_at_some _ _ L v E').
    destruct (al_patches L !! v) as [s|] eqn:Es; cbn; constructor.
    destruct (H2 v s Es) as [->|(k & orc & u & -> & Ho & ->)]; [done|].
    destruct (proj1 Ho (contents (fst w) s)) as [HP HS]. split_and!; [done| |].
    + intros Hs. by apply sorted_order.
    + intros Hn. by destruct Hn.
Qed.
Lemma others_kept l : forall w j, kinv w -> kalong w l -> Forall (fun c => about c <> Some j) l -> is_Some (snd w !! j) ->
  versions (krun w l) j = versions w j ∧ pending (krun w l) j = pending w j ∧
  (forall v, option_Forall2 (fun ps' ps => ps' ≡ₚ ps ∧ (in_order ps -> ps' = ps) ∧ (Forall (fun c => ~ sorts c) l -> ps' = ps))
     (ops_at (krun w l) j v) (ops_at w j v)).
Proof.
  induction l as [|c l IH]; intros w j HI HA HF Hj.
  { cbn. split_and!; [done|done|]. intros v. destruct (ops_at w j v); by constructor. }
  destruct HA as (HL & HC & HA). apply Forall_cons in HF as [Hc HF].
  destruct (others_step w c j HI HL HC Hc Hj) as (H1 & H2 & H3).
  destruct (kstep_spec w c HI HL HC) as [HI' Hk]. destruct Hj as [L E]. destruct (Hk j L E Hc) as [E' _].
  destruct (IH (kstep w c) j HI' HA HF) as (G1 & G2 & G3); [by exists L|]. change (krun w (c :: l)) with (krun (kstep w c) l).
  split_and!; [congruence|congruence|]. intros v. specialize (H3 v). specialize (G3 v).
  inversion G3 as [a b (P1 & P2 & P3) Ea Eb|Ea Eb]; rewrite <- Eb in H3; inversion H3 as [x y (Q1 & Q2 & Q3) Ex Ey|Ex Ey]; constructor.
  split_and!.
  - by rewrite P1.
  - intros Ho. pose proof (Q2 Ho) as Exy. rewrite P2, Exy; [done|]. by rewrite Exy.
  - intros Hs. apply Forall_cons in Hs as [Hs1 Hs2]. by rewrite P3, Q3.
Qed.

(** ** The slices of a log *)
Lemma kstep_slices w c k L v s : kinv w -> klegal w c -> kcareful w c -> ~ replaces k c -> snd w !! k = Some L -> al_patches L !! v = Some s ->
  exists L', snd (kstep w c) !! k = Some L' ∧ al_patches L' !! v = Some s.
Proof.
  intros HI HL HC Hr E Es. destruct (decide (about c = Some k)) as [Ha|Ha].
  2: { exists L. split; [|done]. by apply kstep_spec. }
  destruct w as [M Ls]. cbn [snd] in E.
  destruct c as [|xs n|t i o|k' extra t|k' n extra p|k'|k'|k' orc u|k' vi vj|k' target|k' vi vj|k' n tsi tsj]; try done; cbn [about replaces] in *;
    try (by destruct Hr; congruence); injection Ha as ->; cbn [kstep fst snd].
  - rewrite (on_log_some k _ M Ls L E). cbn [snd]. eexists. split; [apply list_lookup_insert; by eapply lookup_lt_Some|].
    destruct (store_step M Ls k L extra t HI E) as (_ & _ & ->); [|done].
    intros t' ->. cbn [klegal kcareful fst snd] in *. split; [done|]. destruct HC as [H|(L0 & E0 & H)]; [by left|right; congruence].
  - rewrite (on_log_some k _ M Ls L E). cbn [snd]. eexists. split; [apply list_lookup_insert; by eapply lookup_lt_Some|].
    by destruct (built_step M Ls k L n extra p HI E) as (_ & _ & ->).
  - rewrite (on_log_some k _ M Ls L E). cbn [snd]. eexists. split; [apply list_lookup_insert; by eapply lookup_lt_Some|].
    destruct (append_step M Ls k L HI E) as (_ & _ & H). by apply H.
  - rewrite (on_log_some k _ M Ls L E). cbn [snd]. eexists. split; [apply list_lookup_insert; by eapply lookup_lt_Some|].
    by destruct (continuous_shape L) as [vs ->].
  - rewrite (on_log_some k _ M Ls L E). cbn [snd]. eexists. split; [apply list_lookup_insert; by eapply lookup_lt_Some|].
    destruct (temporal_step orc u M Ls k L HL HI E) as (_ & H & _). by apply H.
  - rewrite E. unfold aslice. destruct (continuous_shape L) as [vs Hc]. destruct (acontinuous L) as [L1 ok]. cbn [fst] in Hc. subst L1.
    set (L1 := ALog vs _ _). exists L1. split; [|done].
    assert (E1 : <[k := L1]> Ls !! k = Some L1) by (apply list_lookup_insert; by eapply lookup_lt_Some).
    destruct (ok && arange vi vj L1); cbn [fst snd]; by apply lookup_app_l_Some.
  - rewrite E. destruct (continuous_shape L) as [vs Hc]. destruct (acontinuous L) as [L1 ok]. cbn [fst] in Hc. subst L1.
    set (L1 := ALog vs _ _). exists L1. split; [|done].
    assert (E1 : <[k := L1]> Ls !! k = Some L1) by (apply list_lookup_insert; by eapply lookup_lt_Some).
    destruct (ok && negb (tsj <? tsi)); [|done]. destruct (acopy_versions _ _ _ _ _ _) as [M' L2]. by apply lookup_app_l_Some.
Qed.
Lemma krun_slices l : forall w k L v s, kinv w -> kalong w l -> Forall (fun c => ~ replaces k c) l -> snd w !! k = Some L -> al_patches L !! v = Some s ->
  exists L', snd (krun w l) !! k = Some L' ∧ al_patches L' !! v = Some s.
Proof.
  induction l as [|c l IH]; intros w k L v s HI HA HF E Es; [by exists L|].
  destruct HA as (HL & HC & HA). apply Forall_cons in HF as [Hc HF].
  destruct (kstep_slices w c k L v s HI HL HC Hc E Es) as (L' & E' & Es'). apply (IH (kstep w c) k L'); try done. by apply kstep_spec.
Qed.
(** What [Slice] adds. *)
Lemma slice_made w k vi vj L : snd w !! k = Some L -> length (snd (kstep w (KSlice k vi vj))) <> length (snd w) ->
  exists L2, snd (kstep w (KSlice k vi vj)) !! length (snd w) = Some L2 ∧ al_patches L2 = keys_in vi vj (al_patches L) ∧ al_pool L2 = None.
Proof.
  intros E. cbn [kstep]. rewrite E. unfold aslice. destruct (continuous_shape L) as [vs Hc]. destruct (acontinuous L) as [L1 ok]. cbn [fst] in Hc. subst L1.
  set (L1 := ALog vs _ _). destruct (ok && arange vi vj L1); cbn [fst snd].
  - intros _. exists (ALog (sorted_keys (keys_in vi vj (al_patches L))) (keys_in vi vj (al_patches L)) None). split; [|done]. by rewrite lookup_app_r, insert_length, Nat.sub_diag by (rewrite insert_length; lia).
  - rewrite app_nil_r, insert_length. done.
Qed.
Lemma slice_shares w k vi vj l v : kinv w -> let w1 := kstep w (KSlice k vi vj) in let n := length (snd w) in
  length (snd w1) <> n -> kalong w1 l -> Forall (fun c => ~ replaces k c ∧ ~ replaces n c) l ->
  (vi <= v <= vj)%N -> is_Some (ops_at w k v) ->
  is_Some (ops_at (krun w1 l) k v) ∧ ops_at (krun w1 l) n v = ops_at (krun w1 l) k v.
Proof.
  intros HI w1 n Hn HA HF Hv Hs. unfold ops_at in Hs. destruct (snd w !! k) as [L|] eqn:E; [|by destruct Hs].
  cbn in Hs. destruct (al_patches L !! v) as [s|] eqn:Es; [|by destruct Hs].
  destruct (kstep_spec w (KSlice k vi vj) HI I I) as [HI1 _].
  destruct (kstep_slices w (KSlice k vi vj) k L v s HI I I) as (L1 & E1 & Es1); [by intros []|done|done|].
  destruct (slice_made w k vi vj L E Hn) as (L2 & E2 & Es2 & _).
  assert (Es2' : al_patches L2 !! v = Some s) by (rewrite Es2; unfold keys_in; by apply map_filter_lookup_Some).
  apply Forall_and in HF as [F1 F2].
  destruct (krun_slices l w1 k L1 v s HI1 HA F1 E1 Es1) as (L1' & G1 & G2).
  destruct (krun_slices l w1 n L2 v s HI1 HA F2 E2 Es2') as (L2' & G3 & G4).
  rewrite (ops_at_some _ _ L1' v G1), (ops_at_some _ _ L2' v G3), G2, G4. done.
Qed.
(** A sort through the slice shows in the log it was taken from. *)
Lemma slice_sorts w k vi vj l v orc vs vl : kinv w -> let w1 := kstep w (KSlice k vi vj) in let n := length (snd w) in
  length (snd w1) <> n -> kalong w1 l -> Forall (fun c => ~ replaces k c ∧ ~ replaces n c) l ->
  (vi <= v + 1 <= vj)%N -> is_Some (ops_at w k (v + 1)) -> oracle_ok orc ->
  versions (krun w1 l) n = Some vs -> last vs = Some vl -> (v < vl)%N ->
  ops_at (kstep (krun w1 l) (KTemporal n orc v)) k (v + 1) = or_sort orc <$> ops_at (krun w1 l) k (v + 1).
Proof.
  intros HI w1 n Hn HA HF Hv Hs Ho Evs Evl Hlt. unfold ops_at in Hs. destruct (snd w !! k) as [L|] eqn:E; [|by destruct Hs].
  cbn in Hs. destruct (al_patches L !! (v + 1)%N) as [s|] eqn:Es; [|by destruct Hs].
  destruct (kstep_spec w (KSlice k vi vj) HI I I) as [HI1 _].
  destruct (kstep_slices w (KSlice k vi vj) k L (v + 1)%N s HI I I) as (L1 & E1 & Es1); [by intros []|done|done|].
  destruct (slice_made w k vi vj L E Hn) as (L2 & E2 & Es2 & _).
  assert (Es2' : al_patches L2 !! (v + 1)%N = Some s) by (rewrite Es2; unfold keys_in; by apply map_filter_lookup_Some).
  apply Forall_and in HF as [F1 F2].
  destruct (krun_slices l w1 k L1 (v + 1)%N s HI1 HA F1 E1 Es1) as (L1' & G1 & G2).
  destruct (krun_slices l w1 n L2 (v + 1)%N s HI1 HA F2 E2 Es2') as (L2' & G3 & G4).
  pose proof (krun_inv l w1 HI1 HA) as HI2. set (w2 := krun w1 l) in *.
  destruct (kstep_slices w2 (KTemporal n orc v) k L1' (v + 1)%N s HI2 Ho I) as (L1'' & G5 & G6); [by intros []|done|done|].
  rewrite (ops_at_some _ _ L1' _ G1), (ops_at_some _ _ L1'' _ G5), G2, G6. cbn [fmap option_fmap option_map]. f_equal.
  unfold versions in Evs. rewrite G3 in Evs. injection Evs as <-.
  destruct w2 as [M Ls]. cbn [snd kstep fst] in *. rewrite (on_log_some n _ M Ls L2' G3). cbn [fst].
  unfold atemporal. cbn [snd]. rewrite Evl. destruct (N.leb_spec vl v); [lia|].
  destruct (sort_step orc M Ls n L2' (v + 1) Ho HI2 G3) as (_ & _ & Hs2 & _). by apply Hs2.
Qed.

(** ** The log a call is made on *)
Lemma shows_view w k V : shows w k V <-> exists L, snd w !! k = Some L ∧ V = view (fst w) L (l_current V) (l_snapshots V).
Proof.
  destruct V as [vs cur sn ps q]. unfold shows, view. cbn [l_version l_patches l_pool l_current l_snapshots]. split.
  - intros (H1 & H2 & H3). unfold versions in H1. destruct (snd w !! k) as [L|] eqn:E; [|done]. injection H1 as <-.
    exists L. split; [done|]. f_equal.
    + apply map_eq. intros v. rewrite lookup_fmap, <- H2. by apply ops_at_some.
    + rewrite <- H3. by apply pending_some.
  - intros (L & E & [= -> -> ->]). split_and!.
    + unfold versions. by rewrite E.
    + intros v. rewrite lookup_fmap. by apply ops_at_some.
    + by apply pending_some.
Qed.
Lemma view_shows M Ls k L cur sn : Ls !! k = Some L -> shows (M, Ls) k (view M L cur sn).
Proof. intros E. apply shows_view. by exists L. Qed.
(** Only versions, patches and pool matter. *)
Lemma shows_ext w k V V' : shows w k V -> l_version V' = l_version V -> l_patches V' = l_patches V -> l_pool V' = l_pool V -> shows w k V'.
Proof. intros (H1 & H2 & H3) E1 E2 E3. unfold shows. by rewrite E1, E2, E3. Qed.

Lemma continuous_view M L cur sn : is_continuous (view M L cur sn) = (view M (fst (acontinuous L)) cur sn, snd (acontinuous L)).
Proof. unfold is_continuous, acontinuous. cbn [view l_version]. destruct (al_version L) as [|v [|w vs]]; done. Qed.
Lemma view_keys M ps : sorted_keys (contents M <$> (ps : gmap N slice)) = sorted_keys ps.
Proof.
  unfold sorted_keys. apply (StronglySorted_unique N.le).
  - apply Sorted_StronglySorted; [intros x y z; apply N.le_trans|]. apply Sorted_merge_sort. intros x y. lia.
  - apply Sorted_StronglySorted; [intros x y z; apply N.le_trans|]. apply Sorted_merge_sort. intros x y. lia.
  - rewrite !merge_sort_Permutation. rewrite map_to_list_fmap, map_map. done.
Qed.
Lemma view_keys_in M (ps : gmap N slice) vi vj : keys_in vi vj (contents M <$> ps) = contents M <$> keys_in vi vj ps.
Proof. unfold keys_in. rewrite map_filter_fmap. done. Qed.
Lemma view_patch_at M L cur sn v : patch_at (view M L cur sn) v = default [] (contents M <$> al_patches L !! v).
Proof. unfold patch_at. cbn [view l_patches]. by rewrite lookup_fmap. Qed.
Lemma view_extends M M' Ls k L cur sn : kinv (M, Ls) -> Ls !! k = Some L -> extends M M' -> view M' L cur sn = view M L cur sn.
Proof. intros HI E HX. destruct (untouched_extends M M' Ls k L HI E HX) as [H1 H2]. by apply view_ext. Qed.

Lemma compact_view sel vs : forall latest M Ls k L cur sn, kinv (M, Ls) -> Ls !! k = Some L ->
  let r := acompact_versions sel latest vs (M, L) in
  fst (compact_versions sel latest (view M L cur sn) vs) = view (fst r) (snd r) cur sn.
Proof.
  induction vs as [|v vs IH]; intros latest M Ls k L cur sn HI E; cbn [acompact_versions compact_versions]; [done|].
  rewrite view_patch_at. destruct (change_filter sel true latest _) as [[latest' ps']| |]; [|done|done].
  cbn [make]. set (M' := M ++ _). set (s := Sl _ _ _ _). set (L' := ALog _ _ _).
  assert (HI' : kinv (M', <[k := L']> Ls)).
  { apply kinv_patch; [apply (kinv_mem M); [done|apply grows_make]|done|apply valid_made|].
    intros Hu. apply (fresh_unused _ HI). exact Hu. }
  assert (E' : <[k := L']> Ls !! k = Some L') by (apply list_lookup_insert; by eapply lookup_lt_Some).
  rewrite <- (IH latest' M' (<[k := L']> Ls) k L' cur sn HI' E'). f_equal. f_equal.
  rewrite <- (view_extends M M' Ls k L cur sn HI E) by apply extends_make.
  unfold with_patches, view. cbn [al_version al_patches al_pool l_version l_current l_snapshots l_patches l_pool L'].
  rewrite fmap_insert. f_equal. f_equal. symmetry. apply contents_made.
Qed.
Lemma range_checks {A} vi vj (M : mem) (L : alog) cur sn (a b : A) :
  (if arange vi vj L then a else b) =
  match last_version (view M L cur sn) with
  | None => b
  | Some v => if (v <? vi)%N || (v <? vj)%N then b else if (vj <? vi)%N then b else a
  end.
Proof.
  unfold arange, last_version. cbn [view l_version]. destruct (last (al_version L)) as [v|]; [|done].
  destruct ((v <? vi)%N || (v <? vj)%N); [done|]. by destruct (vj <? vi)%N.
Qed.
Lemma temporal_view orc tsk v v0 M Ls k L cur sn h : oracle_ok orc -> kinv (M, Ls) -> Ls !! k = Some L ->
  head (al_version L) = Some v0 -> pick_snapshot h (view M L cur sn) tsk (sorted_keys sn) v0 = Ok v ->
  snd (fst (temporal_snapshot orc tsk (h, view M L cur sn))) = view (fst (atemporal orc v (M, L))) (snd (atemporal orc v (M, L))) cur sn.
Proof.
  intros Ho HI E E0 Ep. unfold temporal_snapshot, atemporal. cbn [snd].
  change (l_version (view M L cur sn)) with (al_version L). change (last_version (view M L cur sn)) with (last (al_version L)).
  destruct (al_version L) as [|v1 vs] eqn:Ev; [done|]. cbn in E0. injection E0 as ->.
  change (l_snapshots (view M L cur sn)) with sn. rewrite Ep.
  assert (Hlast : exists vl, last (v0 :: vs) = Some vl).
  { destruct (last (v0 :: vs)) eqn:El; [by eexists|]. by apply last_None in El. }
  destruct Hlast as [vl ->].
  assert (Hsort : forall L1, kinv (M, <[k := L1]> Ls) ->
    (match l_patches (view M L1 cur sn) !! (v + 1)%N with
     | Some _ => with_patches (view M L1 cur sn) (<[(v + 1)%N := or_sort orc (patch_at (view M L1 cur sn) (v + 1))]> (l_patches (view M L1 cur sn)))
     | None => view M L1 cur sn
     end) = view (fst (asort orc (v + 1) (M, L1))) (snd (asort orc (v + 1) (M, L1))) cur sn).
  { intros L1 HI1. assert (E1 : <[k := L1]> Ls !! k = Some L1) by (apply list_lookup_insert; by eapply lookup_lt_Some).
    destruct (sort_step orc M (<[k := L1]> Ls) k L1 (v + 1) Ho HI1 E1) as (_ & H2 & H3 & H4). rewrite H2.
    rewrite view_patch_at. cbn [view l_patches]. rewrite lookup_fmap. unfold asort in *.
    destruct (al_patches L1 !! (v + 1)%N) as [s|] eqn:Es; cbn [fmap option_fmap option_map fst snd default] in *; [|done].
    unfold with_patches, view. cbn [l_version l_current l_snapshots l_pool]. f_equal.
    - apply map_eq. intros u. rewrite lookup_fmap. destruct (decide (u = v + 1)%N) as [->|Hu].
      + rewrite lookup_insert, Es. cbn. f_equal. symmetry. by apply H3.
      + rewrite lookup_insert_ne by done. rewrite lookup_fmap. destruct (al_patches L1 !! u) as [s'|] eqn:Eu; [|done]. cbn. f_equal.
        symmetry. apply H4; [left; left; by exists k, L1, u|]. intros [= <-]. apply Hu. by apply (k_once _ HI1 k L1 E1 _ _ s).
    - destruct (al_pool L1) as [p|] eqn:Eq; [|done]. cbn. f_equal. symmetry. apply H4; [right; by exists L1|].
      intros [= <-]. apply (k_apart _ HI1 k s s); [by exists L1|by exists k, L1, (v + 1)%N|done]. }
  destruct (vl <=? v)%N.
  - change (l_pool (view M L cur sn)) with (contents M <$> al_pool L). destruct (al_pool L) as [p|] eqn:Epool; cbn [fmap option_fmap option_map]; [|done].
    destruct (append_sim M L cur sn h (kinv_single _ _ _ HI E)) as [_ Ha]. rewrite Ha.
    destruct (append_step M Ls k L HI E) as (H1 & H2 & _). destruct (fst (aappend (M, L))) as [M1 L1]. cbn [fst snd] in *. subst M1.
    rewrite <- (Hsort L1 H1). by destruct (apply_patch _ _ _) as [h1 [t| |]].
  - rewrite <- (Hsort L); [|by rewrite list_insert_id]. by destruct (apply_patch _ _ _) as [h1 [t| |]].
Qed.
(** [Snapshot] changes the version list at most. *)
Lemma find_latest_log L v : fst (find_latest L v) = fst (is_continuous L).
Proof.
  unfold find_latest. destruct (is_continuous L) as [L1 ok]. destruct ok; [|done]. cbn [negb fst].
  destruct (last_version L1) as [u|]; [|done]. destruct (u <? v)%N; [done|]. by destruct (last (filter _ _)).
Qed.
Lemma snapshot_ops v h L : let V := snd (fst (snapshot v (h, L))) in let L1 := fst (is_continuous L) in
  l_version V = l_version L1 ∧ l_patches V = l_patches L1 ∧ l_pool V = l_pool L1.
Proof.
  cbn zeta. unfold snapshot. pose proof (find_latest_log L v) as H. destruct (find_latest L v) as [L1 [[u s]| |]]; cbn [fst] in H; subst L1; [|done|done].
  destruct (if (u =? v)%N then _ else _) as [h1 [t| |]]; [|done|done]. by destruct (l_snapshots _ !! v).
Qed.
Lemma continuous_twice L : fst (is_continuous (fst (is_continuous L))) = fst (is_continuous L).
Proof.
  unfold is_continuous. destruct L as [[|v [|w vs]] cur sn ps q]; [done|done|]. cbn [l_version fst with_version].
  set (l := v :: w :: vs). unfold with_version. cbn [l_version l_current l_snapshots l_patches l_pool].
  assert (Hs : merge_sort N.le (merge_sort N.le l) = merge_sort N.le l) by apply merge_sort_sorted, (StronglySorted_merge_sort N.le).
  destruct (merge_sort N.le l) as [|a [|b m]]; [done|done|]. cbn [fst]. by rewrite Hs.
Qed.
Lemma copy_extends spare tsi tsj src vs : forall M L, extends M (fst (acopy_versions spare tsi tsj src vs (M, L))).
Proof.
  induction vs as [|v vs IH]; intros M L; cbn [acopy_versions]; [apply extends_refl|].
  destruct (tslice_ops tsi tsj _) as [|q qs]; [apply IH|]. cbn [make]. eapply extends_trans; [apply extends_make|apply IH].
Qed.
Lemma own_step w c k V h h' V' : kinv w -> klegal w c -> kcareful w c -> about c = Some k -> shows w k V ->
  kvalue (fst w) c (h, V) (h', V') -> shows (kstep w c) k V'.
Proof.
  intros HI HL HC Ha HS HV. apply shows_view in HS as (L & E & EV). destruct w as [M Ls]. cbn [fst snd] in *.
  set (cur := l_current V) in *. set (sn := l_snapshots V) in *.
  assert (Hk : forall L', <[k := L']> Ls !! k = Some L') by (intros L'; apply list_lookup_insert; by eapply lookup_lt_Some).
  assert (Hc : is_continuous V = (view M (fst (acontinuous L)) cur sn, snd (acontinuous L))).
  { rewrite EV. apply continuous_view. }
  destruct c as [|xs n|t i o|k' extra t|k' n extra p|k'|k'|k' orc u|k' vi vj|k' target|k' vi vj|k' n tsi tsj]; try done;
    cbn [about] in Ha; injection Ha as ->; cbn [kvalue kstep] in *.
  - rewrite (on_log_some k _ M Ls L E). 
    destruct (astore_sim extra t M L cur sn h (kinv_single _ _ _ HI E)) as [_ Hs].
    { intros t' ->. cbn [klegal kcareful fst snd] in *. split; [done|]. right. destruct HC as [H|(L0 & E0 & H)]; [right|left; congruence].
      intros Hu. apply H. by exists k, L. }
    rewrite EV in HV. rewrite Hs in HV. injection HV as -> ->. by apply view_shows.
  - rewrite (on_log_some k _ M Ls L E).
    destruct (astep_sim (M, L) (ABuilt n extra p) cur sn h (kinv_single _ _ _ HI E) I I) as [_ Hs]. cbn [astep vstep fst snd] in Hs.
    rewrite EV in HV. rewrite Hs in HV. injection HV as -> ->. by apply view_shows.
  - rewrite (on_log_some k _ M Ls L E). destruct (append_sim M L cur sn h (kinv_single _ _ _ HI E)) as [_ Hs].
    rewrite EV in HV. rewrite Hs in HV. cbn [fst] in HV. injection HV as -> ->. by apply view_shows.
  - rewrite (on_log_some k _ M Ls L E). cbn [fst snd]. destruct HV as [v HV]. destruct (snapshot_ops v h V) as (H1 & H2 & H3).
    rewrite <- HV in H1, H2, H3. cbn [snd] in H1, H2, H3. rewrite Hc in H1, H2, H3. cbn [fst] in H1, H2, H3.
    apply (shows_ext _ _ (view M (fst (acontinuous L)) cur sn)); [by apply view_shows|done|done|done].
  - rewrite (on_log_some k _ M Ls L E). destruct HV as (tsk & v0 & E0 & Ep & HV). cbn [fst snd] in E0, Ep.
    fold sn in Ep. rewrite EV in E0, Ep, HV. cbn [klegal] in HL.
    pose proof (temporal_view orc tsk u v0 M Ls k L cur sn h HL HI E E0 Ep) as Hs. rewrite <- HV in Hs. cbn [snd] in Hs. rewrite Hs. by apply view_shows.
  - rewrite (on_log_some k _ M Ls L E). unfold atrack, track in *. rewrite Hc in HV.
    destruct (continuous_shape L) as [vs Hvs]. destruct (acontinuous L) as [L1 ok]. cbn [fst snd] in *.
    assert (HI1 : kinv (M, <[k := L1]> Ls)) by (subst L1; by apply kinv_versions).
    assert (Hno : V' = view M L1 cur sn -> shows (fst (M, L1), <[k := snd (M, L1)]> Ls) k V') by (intros ->; by apply view_shows).
    destruct ok; cbn [negb andb] in *; [|injection HV as -> ->; by apply Hno].
    rewrite (range_checks vi vj M L1 cur sn). destruct (last_version (view M L1 cur sn)) as [u|]; [|injection HV as -> ->; by apply Hno].
    destruct ((u <? vi)%N || (u <? vj)%N); [injection HV as -> ->; by apply Hno|].
    destruct (vj <? vi)%N; [injection HV as -> ->; by apply Hno|].
    cbn [view l_patches] in HV. rewrite view_keys_in, view_keys in HV.
    pose proof (compact_view (fun _ => true) (sorted_keys (keys_in vi vj (al_patches L1))) [] M (<[k := L1]> Ls) k L1 cur sn HI1 (Hk L1)) as Hs.
    destruct (compact_versions _ _ _ _) as [L2 r]. cbn [fst] in Hs, HV. injection HV as -> ->. rewrite Hs. by apply view_shows.
  - rewrite (on_log_some k _ M Ls L E). unfold acompact, compact in *. rewrite Hc in HV.
    destruct (continuous_shape L) as [vs Hvs]. destruct (acontinuous L) as [L1 ok]. cbn [fst snd] in *.
    assert (HI1 : kinv (M, <[k := L1]> Ls)) by (subst L1; by apply kinv_versions).
    destruct ok; cbn [negb] in *; [|injection HV as -> ->; by apply view_shows].
    cbn [view l_patches] in HV. rewrite view_keys in HV.
    pose proof (compact_view (on_target target) (sorted_keys (al_patches L1)) [] M (<[k := L1]> Ls) k L1 cur sn HI1 (Hk L1)) as Hs.
    destruct (compact_versions _ _ _ _) as [L2 r]. cbn [fst] in Hs, HV. injection HV as -> ->. rewrite Hs. by apply view_shows.
  - cbn [snd fst]. rewrite E. unfold aslice, Logument.slice in *. rewrite Hc in HV. pose proof (continuous_twice V) as Ht. rewrite Hc in Ht. cbn [fst] in Ht.
    destruct (acontinuous L) as [L1 ok]. cbn [fst snd] in *.
    assert (Hno : forall R, shows (M, <[k := L1]> Ls ++ R) k (view M L1 cur sn)) by (intros R; apply view_shows; by apply lookup_app_l_Some).
    match goal with |- shows ?x k _ => assert (G : exists R, x = (M, <[k := L1]> Ls ++ R)) end.
    { destruct (ok && arange vi vj L1); by eexists. }
    destruct G as [R ->]. 
    destruct ok; cbn [negb] in *; [|injection HV as -> ->; by apply Hno].
    destruct (vj <? vi)%N; [injection HV as -> ->; by apply Hno|].
    destruct (last_version (view M L1 cur sn)) as [u|]; [|injection HV as -> ->; by apply Hno].
    destruct ((u <? vi)%N || (u <? vj)%N); [injection HV as -> ->; by apply Hno|].
    destruct (decide _); [|injection HV as -> ->; by apply Hno].
    destruct (snapshot_ops vi h (view M L1 cur sn)) as (H1 & H2 & H3). rewrite Ht in H1, H2, H3.
    apply (shows_ext _ _ (view M L1 cur sn)); [by apply Hno|..]; destruct (snapshot vi _) as [[h2 V2] [t| |]]; cbn [fst snd] in *; by injection HV as -> ->.
  - cbn [snd fst]. rewrite E. destruct HV as (sn' & E1 & Hne & orc & HV). cbn [fst snd] in E1. unfold temporal_slice in HV. rewrite Hc in HV, E1.
    destruct (acontinuous L) as [L1 ok] eqn:Eac. cbn [fst snd] in *.
    assert (Hno : V' = view M L1 cur sn).
    { destruct ok; cbn [negb] in *; [|by injection HV as -> ->]. destruct (tsj <? tsi); [by injection HV as -> ->|].
      change (l_snapshots (view M L1 cur sn)) with sn in HV. fold sn in E1. rewrite E1 in HV.
      destruct (tslice_patches _ _ _ _) as [vers patches]. destruct (decide (sn' = ∅)); [done|]. by injection HV as -> ->. }
    rewrite Hno. destruct (ok && negb (tsj <? tsi)); [|by apply view_shows].
    assert (Hext : extends M (fst (acopy_versions n tsi tsj L1 (sorted_keys (al_patches L1)) (M, ALog [] ∅ None)))) by apply copy_extends.
    destruct (acopy_versions _ _ _ _ _ _) as [M' L2]. cbn [fst] in Hext.
    assert (HI1 : kinv (M, <[k := L1]> Ls)).
    { destruct (continuous_shape L) as [vs Hvs]. rewrite Eac in Hvs. cbn [fst] in Hvs. subst L1. by apply kinv_versions. }
    rewrite <- (view_extends M M' _ k L1 cur sn HI1 (Hk L1) Hext). apply view_shows. by apply lookup_app_l_Some.
Qed.

(** ** The log a call makes *)
Lemma slice_new w k vi vj V h st R : kinv w -> shows w k V -> Logument.slice vi vj (h, V) = (st, Ok R) ->
  shows (kstep w (KSlice k vi vj)) (length (snd w)) R.
Proof.
  intros HI HS HV. apply shows_view in HS as (L & E & EV). destruct w as [M Ls]. cbn [fst snd] in *.
  set (cur := l_current V) in *. set (sn := l_snapshots V) in *.
  assert (Hc : is_continuous V = (view M (fst (acontinuous L)) cur sn, snd (acontinuous L))).
  { rewrite EV. apply continuous_view. }
  cbn [kstep fst snd]. rewrite E. unfold aslice, Logument.slice in *. rewrite Hc in HV.
  destruct (acontinuous L) as [L1 ok]. cbn [fst snd] in *. destruct ok; cbn [negb andb] in *; [|done].
  rewrite (range_checks vi vj M L1 cur sn). destruct (vj <? vi)%N; [done|].
  destruct (last_version (view M L1 cur sn)) as [u|]; [|done]. destruct ((u <? vi)%N || (u <? vj)%N); [done|].
  cbn [view l_patches l_snapshots] in HV. rewrite view_keys_in, view_keys in HV. set (ps := keys_in vi vj (al_patches L1)) in *.
  assert (EN : (<[k := L1]> Ls ++ [ALog (sorted_keys ps) ps None]) !! length Ls = Some (ALog (sorted_keys ps) ps None)).
  { by rewrite lookup_app_r, insert_length, Nat.sub_diag by (rewrite insert_length; lia). }
  apply (shows_ext _ _ (view M (ALog (sorted_keys ps) ps None) cur sn)); [by apply view_shows|..];
    (destruct (decide _); [destruct (snapshot vi _) as [st2 [t| |]]; [|done|done]|]; by injection HV as <- <-).
Qed.
Lemma tslice_keys L tsi tsj vs : forall v, is_Some (snd (tslice_patches L tsi tsj vs) !! v) -> v ∈ vs.
Proof.
  induction vs as [|u vs IH]; intros v; cbn [tslice_patches]; [cbn; rewrite lookup_empty; by intros []|].
  destruct (tslice_patches L tsi tsj vs) as [vers m]. cbn [snd] in *. destruct (tslice_ops _ _ _) as [|q qs].
  - intros H. right. by apply IH.
  - intros H. destruct (decide (v = u)) as [->|Hne]; [by left|]. rewrite lookup_insert_ne in H by done. right. by apply IH.
Qed.
Lemma copy_view spare tsi tsj src V Ls vs : forall M L k, NoDup vs -> kinv (M, Ls ++ [L]) -> Ls !! k = Some src ->
  (forall v, patch_at V v = default [] (contents M <$> al_patches src !! v)) ->
  let r := acopy_versions spare tsi tsj src vs (M, L) in let t := tslice_patches V tsi tsj vs in
  al_version (snd r) = al_version L ++ fst t ∧
  forall v, contents (fst r) <$> al_patches (snd r) !! v = match snd t !! v with Some ps => Some ps | None => contents M <$> al_patches L !! v end.
Proof.
  induction vs as [|u vs IH]; intros M L k HN HI E HV; cbn [acopy_versions tslice_patches].
  { cbn [fst snd]. split; [by rewrite app_nil_r|]. intros v. by rewrite lookup_empty. }
  apply NoDup_cons in HN as [Hu HN]. rewrite HV.
  pose proof (tslice_keys V tsi tsj vs) as Hk. specialize (IH M) as IHM.
  destruct (tslice_ops tsi tsj _) as [|q qs] eqn:Et.
  - destruct (IHM L k HN HI E HV) as [H1 H2]. destruct (tslice_patches V tsi tsj vs) as [vers m]. cbn [fst snd] in *. cbn [length replicate app]. by split.
  - cbn [make]. set (kept := q :: qs) in *. set (M' := M ++ _). set (s := Sl _ _ _ _). set (L' := ALog _ _ _).
    assert (EL : (Ls ++ [L]) !! length Ls = Some L) by (by apply list_lookup_middle).
    assert (HI' : kinv (M', Ls ++ [L'])).
    { replace (Ls ++ [L']) with (<[length Ls := L']> (Ls ++ [L])).
      - apply kinv_patch; [apply (kinv_mem M); [done|apply grows_make]|done|apply valid_made|].
        intros Hx. apply (fresh_unused _ HI). exact Hx.
      - by rewrite insert_app_r_alt, Nat.sub_diag by lia. }
    assert (Hsame : forall j L0 v, (Ls ++ [L]) !! j = Some L0 -> contents M' <$> al_patches L0 !! v = contents M <$> al_patches L0 !! v).
    { intros j L0 v E0. destruct (al_patches L0 !! v) as [s0|] eqn:Es; [|done]. cbn. f_equal. apply contents_make.
      apply (k_patch _ HI). by exists j, L0, v. }
    destruct (IH M' L' k HN HI' E) as [H1 H2].
    { intros v. rewrite HV. f_equal. symmetry. apply (Hsame k). by apply lookup_app_l_Some. }
    destruct (tslice_patches V tsi tsj vs) as [vers m]. cbn [fst snd] in *. split.
    + rewrite H1. cbn [L' al_version]. by rewrite <- app_assoc.
    + intros v. rewrite H2. cbn [L' al_patches]. destruct (decide (v = u)) as [->|Hne].
      * rewrite !lookup_insert. destruct (m !! u) eqn:Em; [destruct Hu; apply Hk; by rewrite Em|]. cbn [fmap option_fmap option_map]. f_equal. apply contents_made.
      * rewrite !lookup_insert_ne by done. destruct (m !! v); [done|]. by apply (Hsame (length Ls) L v).
Qed.
Lemma tslice_new w k n tsi tsj orc V h st R : kinv w -> shows w k V -> temporal_slice orc tsi tsj (h, V) = (st, Ok R) ->
  shows (kstep w (KTSlice k n tsi tsj)) (length (snd w)) R.
Proof.
  intros HI HS HV. apply shows_view in HS as (L & E & EV). destruct w as [M Ls]. cbn [fst snd] in *.
  set (cur := l_current V) in *. set (sn := l_snapshots V) in *.
  assert (Hc : is_continuous V = (view M (fst (acontinuous L)) cur sn, snd (acontinuous L))).
  { rewrite EV. apply continuous_view. }
  cbn [kstep fst snd]. rewrite E. unfold temporal_slice in HV. rewrite Hc in HV.
  destruct (continuous_shape L) as [vs Hvs]. destruct (acontinuous L) as [L1 ok]. cbn [fst snd] in *. destruct ok; cbn [negb andb] in *; [|done].
  destruct (tsj <? tsi); [done|]. cbn [negb].
  assert (HI1 : kinv (M, <[k := L1]> Ls)) by (subst L1; by apply kinv_versions).
  assert (HI2 : kinv (M, <[k := L1]> Ls ++ [ALog [] ∅ None])).
  { apply kinv_new; [exact HI1| |done|]; [intros v s Es; by apply no_patches in Es|intros u v s Es; by apply no_patches in Es]. }
  assert (E1 : <[k := L1]> Ls !! k = Some L1) by (apply list_lookup_insert; by eapply lookup_lt_Some).
  destruct (copy_view n tsi tsj L1 (view M L1 cur sn) (<[k := L1]> Ls) (sorted_keys (al_patches L1)) M (ALog [] ∅ None) k) as [H1 H2];
    [apply sorted_keys_nodup|done|done|intros v; apply view_patch_at|].
  destruct (copy_step n tsi tsj L1 (sorted_keys (al_patches L1)) M (<[k := L1]> Ls) _ HI2) as (_ & _ & H3).
  destruct (tslice_snapshots _ _ _ _ _) as [sn'| |]; [|done|done].
  change (l_patches (view M L1 cur sn)) with (contents M <$> al_patches L1) in HV. rewrite view_keys in HV.
  destruct (tslice_patches _ _ _ _) as [vers m]. destruct (acopy_versions _ _ _ _ _ _) as [M' L2]. cbn [fst snd al_version al_pool app] in *.
  assert (EN : (<[k := L1]> Ls ++ [L2]) !! length Ls = Some L2).
  { by rewrite lookup_app_r, insert_length, Nat.sub_diag by (rewrite insert_length; lia). }
  assert (G : l_version R = vers ∧ l_patches R = m ∧ l_pool R = None).
  { destruct (decide (sn' = ∅)); [|by injection HV as <- <-]. destruct vers as [|v0 vers]; [done|].
    destruct (temporal_snapshot _ _ _) as [st2 [t| |]]; [|done|done]. by injection HV as <- <-. }
  destruct G as (G1 & G2 & G3). split_and!.
  - unfold versions. cbn [snd]. rewrite EN. cbn. by rewrite H1, G1.
  - intros v. rewrite (ops_at_some (M', <[k := L1]> Ls ++ [L2]) _ L2 v EN). cbn [fst]. rewrite H2, G2. cbn [al_patches]. rewrite lookup_empty. by destruct (m !! v).
  - rewrite (pending_some (M', <[k := L1]> Ls ++ [L2]) _ L2 EN), H3, G3. done.
Qed.

(** ** Interleaved calls *)
Lemma other_shows w c k V : kinv w -> klegal w c -> kcareful w c -> about c <> Some k -> shows w k V ->
  (sorts c -> forall v ps, l_patches V !! v = Some ps -> in_order ps) -> shows (kstep w c) k V.
Proof.
  intros HI HL HC Ha (H1 & H2 & H3) Hs.
  assert (Hj : is_Some (snd w !! k)). { unfold versions in H1. destruct (snd w !! k); [by eexists|done]. }
  destruct (others_step w c k HI HL HC Ha Hj) as (A & B & C). split; [by rewrite A|]. split; [|by rewrite B].
  intros v. rewrite <- H2. specialize (C v). pose proof (H2 v) as Hv.
  destruct C as [ps' ps (_ & C1 & C2)|]; [|done]. f_equal.
  assert (Hd : sorts c ∨ ~ sorts c) by (destruct c; first [by left|right; by intros []]). destruct Hd as [Hd|Hd]; [|by apply C2].
  apply C1. by eapply Hs.
Qed.
Lemma interleaved k w l V V' : kpath k w l V V' -> kinv w -> kalong w l -> shows w k V -> shows (krun w l) k V'.
Proof.
  induction 1 as [w V|w c l h V h1 V1 V2 Ha HV _ IH|w c l V V2 Ha Hs _ IH]; intros HI HA HS; [done| |];
    destruct HA as (HL & HC & HA); cbn [krun fold_left]; apply IH; try done; try by apply kstep_spec.
  - by eapply own_step.
  - by apply other_shows.
Qed.
