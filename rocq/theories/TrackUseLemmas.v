(** Proofs about what Track changes for later calls. *)
From Verif Require Import Base BaseSpec BaseSpecLemmas F64 Tson TsonInd TsonSpec Serial Heap HeapSpec Own PatchSpec TreePatch PatchLemmas Patch Logument LogSpec BaseLemmas F64Lemmas LogLemmas
  ChangeLemmas CompactLemmas HistoryLemmas ReplaySpec ReplayLemmas SetLemmas CompactReplay RecompactLemmas.
From Coq Require Import Lia.

(** ** Dropping repetitions *)
(** The operations of [l], which follow [s], without some that repeat the value of their path. *)
Inductive thin : list operation -> list operation -> list operation -> Prop :=
| thin_nil s : thin s [] []
| thin_keep s p l l' : thin (s ++ [p]) l l' -> thin s (p :: l) (p :: l')
| thin_drop s p l l' : ~ changed s p -> thin (s ++ [p]) l l' -> thin s (p :: l) l'.

(** What is known from [r] is right about [s]. *)
Definition end_of (s r : list operation) : Prop := forall k, last_on k r = None ∨ last_on k r = last_on k s.
Lemma end_of_refl s : end_of s s.
Proof. intros k. by right. Qed.
Lemma end_of_snoc s r p : end_of s r -> end_of (s ++ [p]) (r ++ [p]).
Proof. intros H k. rewrite !last_on_snoc. case_decide; [by right|apply H]. Qed.
Lemma end_of_nil s : end_of s [].
Proof. intros k. by left. Qed.
Lemma end_of_app a r : end_of (a ++ r) r.
Proof.
  induction r as [|p r IH] using rev_ind; [apply end_of_nil|]. rewrite app_assoc. by apply end_of_snoc.
Qed.
Lemma end_of_changed s r p : end_of s r -> changed s p -> changed r p.
Proof. intros H. rewrite !changed_model. by destruct (H (op_path p)) as [-> | ->]. Qed.

Lemma thin_refl l : forall s, thin s l l.
Proof. induction l as [|p l IH]; intros s; constructor; auto. Qed.
Lemma thin_changes l : forall s r, end_of s r -> thin s l (changes r l).
Proof.
  induction l as [|p l IH]; intros s r H; [constructor|]. cbn [changes]. specialize (IH _ _ (end_of_snoc s r p H)).
  destruct (decide (changed r p)) as [C|C]; cbn [app]; constructor; try done.
  intros X. apply C. by apply (end_of_changed s).
Qed.
Lemma thin_app s a a' b b' : thin s a a' -> thin (s ++ a) b b' -> thin s (a ++ b) (a' ++ b').
Proof.
  intros H. revert b b'. induction H as [s|s p l l' H IH|s p l l' C H IH]; intros b b' HB.
  - by rewrite app_nil_r in HB.
  - cbn. constructor. apply IH. by rewrite <- app_assoc.
  - cbn. constructor; [done|]. apply IH. by rewrite <- app_assoc.
Qed.
Lemma thin_filter (P : operation -> Prop) {HPd : forall p, Decision (P p)} s l l' : (forall p q, op_path p = op_path q -> P p -> P q) ->
  thin s l l' -> thin (filter P s) (filter P l) (filter P l').
Proof.
  intros PP H. induction H as [s|s p l l' H IH|s p l l' C H IH]; [constructor|..].
  - rewrite !filter_cons. rewrite filter_app, filter_cons, filter_nil in IH. destruct (decide (P p)) as [X|X].
    + by constructor.
    + by rewrite app_nil_r in IH.
  - rewrite (filter_cons P p l). rewrite filter_app, filter_cons, filter_nil in IH. destruct (decide (P p)) as [X|X].
    + constructor; [|done]. intros Y. apply C. revert Y. apply same_last_changed. rewrite last_on_filter; [apply same_last_eq|].
      intros q E. by apply (PP p).
    + by rewrite app_nil_r in IH.
Qed.
Lemma sim_comparable s s' p : sim s s' ->
  match last_on (op_path p) s with Some q => any_eq (op_value q) (op_value p) <> None | None => True end <->
  match last_on (op_path p) s' with Some q => any_eq (op_value q) (op_value p) <> None | None => True end.
Proof.
  intros HS. specialize (HS (op_path p)).
  destruct (last_on _ s) as [q|], (last_on _ s') as [q'|]; try done. cbn in HS. by rewrite (same_value_eq _ _ _ HS).
Qed.
Lemma thin_sim s l l' : thin s l l' -> forall s', sim s s' ->
  sim (s ++ l) (s' ++ l') ∧ changes s' l' = changes s l ∧ (comparable_after s l <-> comparable_after s' l').
Proof.
  intros H. induction H as [s|s p l l' H IH|s p l l' C H IH]; intros s' HS.
  - by rewrite !app_nil_r.
  - destruct (IH _ (sim_snoc _ _ p HS)) as (I1 & I2 & I3). rewrite <- !app_assoc in I1. cbn in I1. split; [done|].
    cbn [changes comparable_after]. rewrite I2, I3. pose proof (sim_changed _ _ p HS) as E. split.
    + f_equal. destruct (decide (changed s p)), (decide (changed s' p)); try tauto.
    + pose proof (sim_comparable _ _ p HS). tauto.
  - destruct (IH _ (sim_skip _ _ p HS C)) as (I1 & I2 & I3). rewrite <- !app_assoc in I1. cbn in I1. split; [done|].
    cbn [changes comparable_after]. rewrite I2, <- I3. split; [by rewrite decide_False|].
    rewrite changed_model in C. destruct (last_on (op_path p) s) as [q|]; [|tauto].
    destruct (any_eq (op_value q) (op_value p)) as [[]|]; [|by destruct C..]. split; [tauto|]. intros X. split; [done|done].
Qed.
Lemma changes_sim_same s s' l : sim s s' -> changes s' l = changes s l.
Proof. intros H. by destruct (thin_sim s l l (thin_refl l s) s' H) as (_ & ? & _). Qed.

(** ** Logs without some repetitions *)
Record thinned (L L' : logument) : Prop := Thinned {
  th_version : l_version L' = l_version L;
  th_snapshots : l_snapshots L' = l_snapshots L;
  th_pool : l_pool L' = l_pool L;
  th_current : l_current L' = l_current L;
  th_keys : forall v, is_Some (l_patches L' !! v) <-> is_Some (l_patches L !! v);
  th_patches : forall v, thin (ops_between L 0 v) (patch_at L v) (patch_at L' v)
}.
Lemma thinned_ops L L' : thinned L L' -> forall v, thin [] (ops_between L 0 v) (ops_between L' 0 v).
Proof.
  intros T v. induction v as [|v IH] using N.peano_ind; [rewrite !ops_between_empty by lia; constructor|].
  rewrite <- N.add_1_r, !ops_between_snoc by lia. apply thin_app; [done|]. apply (th_patches _ _ T).
Qed.
Lemma thinned_sim L L' v : thinned L L' -> sim (ops_between L 0 v) (ops_between L' 0 v).
Proof. intros T. by destruct (thin_sim [] _ _ (thinned_ops L L' T v) [] (sim_refl [])) as (? & _). Qed.
Lemma thinned_clash (P : operation -> Prop) {HPd : forall p, Decision (P p)} L L' : (forall p q, op_path p = op_path q -> P p -> P q) -> thinned L L' ->
  clash (filter P (all_ops L')) <-> clash (filter P (all_ops L)).
Proof.
  intros PP T. rewrite !clash_iff. unfold all_ops. rewrite (th_version _ _ T).
  pose proof (thin_filter P _ _ _ PP (thinned_ops L L' T (match last (l_version L) with Some v => v + 1 | None => 0 end)%N)) as H.
  destruct (thin_sim _ _ _ H [] (sim_refl [])) as (_ & _ & HX). cbn in HX. tauto.
Qed.
Lemma thinned_consistent L L' : thinned L L' -> consistent L -> consistent L'.
Proof.
  intros T (n & H1 & H2 & H3 & H4). exists n. rewrite (th_version _ _ T), (th_snapshots _ _ T). split; [done|].
  split; [|done]. intros v. by rewrite (th_keys _ _ T).
Qed.
Lemma lookup_patch L v ps : l_patches L !! v = Some ps -> patch_at L v = ps.
Proof. unfold patch_at. by intros ->. Qed.
Lemma thinned_lookup L L' v : thinned L L' ->
  (l_patches L !! v = None ∧ l_patches L' !! v = None) ∨
  (exists ps ps', l_patches L !! v = Some ps ∧ l_patches L' !! v = Some ps' ∧ thin (ops_between L 0 v) ps ps').
Proof.
  intros T. pose proof (th_keys _ _ T v) as K. pose proof (th_patches _ _ T v) as H. unfold patch_at in H.
  destruct (l_patches L !! v) as [ps|], (l_patches L' !! v) as [ps'|]; cbn in H.
  - right. by exists ps, ps'.
  - destruct K as [_ K]. by destruct (K (mk_is_Some _ _ eq_refl)).
  - destruct K as [K _]. by destruct (K (mk_is_Some _ _ eq_refl)).
  - by left.
Qed.
Lemma thinned_compact h L L' : thinned L L' -> consistent L ->
  snd (compact "" (h, L')) = snd (compact "" (h, L)) ∧
  (snd (compact "" (h, L)) = Ok tt -> fst (compact "" (h, L')) = fst (compact "" (h, L))).
Proof.
  intros T HC. pose proof (thinned_consistent _ _ T HC) as HC'.
  pose proof (thinned_clash (under "") L L' (under_same "") T) as HCl.
  pose proof (compact_spec "" h L HC) as S0. pose proof (compact_spec "" h L' HC') as S1.
  destruct (compact "" (h, L)) as [[hA LA] rA] eqn:EA, (compact "" (h, L')) as [[hB LB] rB] eqn:EB.
  destruct rA as [[]| |]; [|done|]; destruct rB as [[]| |]; try done; try tauto. cbn. split; [done|]. intros _.
  destruct (compact_ok "" h L hA LA HC EA) as (-> & _ & CA & _).
  destruct (compact_ok "" h L' hB LB HC' EB) as (-> & _ & CB & _). f_equal.
  destruct CA as [A1 A2 A3 A4 A5], CB as [B1 B2 B3 B4 B5], T as [T1 T2 T3 T4 T5 T6] eqn:ET.
  apply logument_ext; try congruence. apply map_eq. intros v. rewrite A5, B5.
  destruct (thinned_lookup L L' v T) as [[-> ->]|(ps & ps' & -> & -> & HT)]; [done|]. cbn. f_equal. rewrite !changes_all.
  apply (thin_sim _ _ _ HT). by apply thinned_sim.
Qed.
Lemma thinned_history orc t h L L' : thinned L L' -> consistent L ->
  snd (history orc t (h, L')) = snd (history orc t (h, L)).
Proof.
  intros T HC. pose proof (thinned_consistent _ _ T HC) as HC'.
  pose proof (thinned_clash (under t) L L' (under_same t) T) as HCl.
  unfold history. rewrite (consistent_continuous _ HC), (consistent_continuous _ HC'). cbn [negb].
  pose proof (compact_spec t h L HC) as S0. pose proof (compact_spec t h L' HC') as S1.
  destruct (compact t (h, L)) as [[hA LA] rA] eqn:EA, (compact t (h, L')) as [[hB LB] rB] eqn:EB.
  destruct rA as [[]| |]; [|done|]; destruct rB as [[]| |]; try done; try tauto.
  destruct (compact_ok t h L hA LA HC EA) as (-> & _ & CA & _).
  destruct (compact_ok t h L' hB LB HC' EB) as (-> & _ & CB & _).
  rewrite (compacted_keys _ _ _ _ CB), (compacted_keys _ _ _ _ CA), (cp_snapshots _ _ _ _ CB), (cp_snapshots _ _ _ _ CA).
  rewrite (th_snapshots _ _ T), (sorted_keys_same _ _ (th_keys _ _ T)).
  destruct (read h _); [|done]. cbn [snd]. f_equal. apply collect_history_same. intros v.
  unfold patch_at. rewrite (cp_patches _ _ _ _ CB), (cp_patches _ _ _ _ CA).
  destruct (thinned_lookup L L' v T) as [[-> ->]|(ps & ps' & -> & -> & HT)]; [done|]. cbn.
  assert (PP := under_same t).
  rewrite !(filter_changes_among (under t) _ PP) by done. rewrite !list_filter_filter.
  rewrite !(filter_ext_iff (fun p => under t p ∧ under t p) (under t)) by tauto.
  apply (thin_sim _ _ _ (thin_filter _ _ _ _ PP HT)).
  by destruct (thin_sim _ _ _ (thin_filter _ _ _ _ PP (thinned_ops L L' T v)) [] (sim_refl [])) as (? & _).
Qed.
Lemma thin_sublist s l l' : thin s l l' -> forall p, p ∈ l' -> p ∈ l.
Proof. intros H. induction H as [s|s p l l' H IH|s p l l' C H IH]; intros q Hq; [done|..]; set_solver. Qed.
Lemma thinned_temporal_track a b h L L' : thinned L L' -> consistent L -> (forall p, p ∈ all_ops L -> a <= op_ts p <= b) ->
  snd (temporal_track a b (h, L')) = snd (temporal_track a b (h, L)).
Proof.
  intros T HC HA. pose proof (thinned_consistent _ _ T HC) as HC'.
  assert (HA1 : forall v p, p ∈ patch_at L' v -> in_range a b p).
  { intros v p H. apply HA. eapply patch_in_all; [done|]. by eapply thin_sublist; [apply (th_patches _ _ T)|]. }
  assert (HO1 : forall lo hi, filter (in_range a b) (ops_between L' lo hi) = ops_between L' lo hi).
  { intros lo hi. apply filter_every. intros p H. apply elem_ops in H as (v & H). by eapply HA1. }
  assert (HO : forall lo hi, filter (in_range a b) (ops_between L lo hi) = ops_between L lo hi).
  { intros lo hi. apply filter_every. intros p H. apply HA. by eapply ops_in_all. }
  apply temporal_track_same; [done|done|..].
  - unfold all_ops. rewrite HO, HO1. fold (all_ops L) (all_ops L').
    rewrite <- clash_all, <- (clash_all (all_ops L)). apply thinned_clash; [apply under_same|done].
  - intros v. rewrite HO, HO1, !filter_every; [|intros p H; apply HA; by eapply patch_in_all|by apply HA1].
    apply (thin_sim _ _ _ (th_patches _ _ T v)). by apply thinned_sim.
Qed.

(** ** Track *)
Record tracked (vi vj : N) (L L' : logument) : Prop := Tracked {
  tr_version : l_version L' = l_version L;
  tr_snapshots : l_snapshots L' = l_snapshots L;
  tr_pool : l_pool L' = l_pool L;
  tr_current : l_current L' = l_current L;
  tr_patches : forall v, l_patches L' !! v =
    if decide (vi <= v <= vj)%N then changes (ops_between L vi v) <$> (l_patches L !! v) else l_patches L !! v
}.
Lemma tracked_unique vi vj L A B : tracked vi vj L A -> tracked vi vj L B -> A = B.
Proof.
  intros [A1 A2 A3 A4 A5] [B1 B2 B3 B4 B5]. apply logument_ext; try congruence. apply map_eq. intros v. by rewrite A5, B5.
Qed.
Lemma tracked_patch vi vj L L' v : tracked vi vj L L' ->
  patch_at L' v = if decide (vi <= v <= vj)%N then changes (ops_between L vi v) (patch_at L v) else patch_at L v.
Proof.
  intros T. unfold patch_at. rewrite (tr_patches _ _ _ _ T). case_decide; [|done]. by destruct (l_patches L !! v).
Qed.
Lemma tracked_thinned vi vj L L' : tracked vi vj L L' -> thinned L L'.
Proof.
  intros T. constructor; try apply T.
  - intros v. rewrite (tr_patches _ _ _ _ T). case_decide; [|done]. by rewrite fmap_is_Some.
  - intros v. rewrite (tracked_patch _ _ _ _ v T). case_decide as X; [|apply thin_refl]. apply thin_changes.
    rewrite (ops_between_le L 0 vi v) by lia. apply end_of_app.
Qed.
Lemma track_ok vi vj h L h' L' m : consistent L -> track vi vj (h, L) = ((h', L'), Ok m) ->
  h' = h ∧ consistent L' ∧ tracked vi vj L L' ∧ ~ clash (ops_between L vi (vj + 1)) ∧ (vi <= vj)%N ∧
  (forall n, last (l_version L) = Some n -> (vj <= n)%N) ∧
  (forall v, m !! v = if decide (vi <= v <= vj)%N then l_patches L !! v else None).
Proof.
  intros HC E. pose proof (track_spec vi vj h L HC) as H. rewrite E in H. destruct H as ((A1 & A2 & A3) & A4 & (-> & B1 & B2 & B3 & B4) & A5).
  assert (T : tracked vi vj L L') by (by constructor). split; [done|].
  split; [eapply thinned_consistent; [by eapply tracked_thinned|done]|done].
Qed.
Lemma track_does vi vj h L : consistent L -> (vi <= vj)%N -> (forall n, last (l_version L) = Some n -> (vj <= n)%N) ->
  ~ clash (ops_between L vi (vj + 1)) -> exists L' m, track vi vj (h, L) = ((h, L'), Ok m).
Proof.
  intros HC H1 H2 H3. pose proof (track_spec vi vj h L HC) as H.
  destruct (track vi vj (h, L)) as [[h' L'] [m| |]]; [|done|].
  - destruct H as (_ & _ & (-> & _) & _). by exists L', m.
  - exfalso. destruct H as [H|[(n & Hn & H)|H]]; [lia| |done]. specialize (H2 n Hn). lia.
Qed.
Lemma ops_same L L' lo hi : (forall v, (lo <= v < hi)%N -> patch_at L' v = patch_at L v) -> ops_between L' lo hi = ops_between L lo hi.
Proof.
  intros H. unfold ops_between. f_equal. apply map_ext_in. intros i Hi. apply in_seq in Hi. apply H. lia.
Qed.
Lemma tracked_ops vi vj L L' v : tracked vi vj L L' -> (v <= vj + 1)%N -> ops_between L' vi v = changes [] (ops_between L vi v).
Proof.
  intros T. induction v as [|v IH] using N.peano_ind; intros Hv; [by rewrite !ops_between_empty by lia|].
  rewrite <- N.add_1_r. destruct (decide (vi <= v)%N) as [X|X]; [|by rewrite !ops_between_empty by lia].
  rewrite !ops_between_snoc by lia. rewrite changes_app, IH by lia. f_equal. rewrite (tracked_patch _ _ _ _ v T).
  by rewrite decide_True by lia.
Qed.
Lemma clash_app_l a b : clash a -> clash (a ++ b).
Proof. intros (pre & p & q & post & -> & H1 & H2). exists pre, p, q, (post ++ b). by rewrite <- app_assoc. Qed.
Lemma clash_app_r a b : clash b -> clash (a ++ b).
Proof.
  intros (pre & p & q & post & -> & H1 & H2). exists (a ++ pre), p, q, post. split; [by rewrite <- app_assoc|]. split; [|done].
  destruct (end_of_app a pre (op_path q)) as [X|X]; congruence.
Qed.
Lemma clash_part L lo lo' hi' hi : (lo <= lo')%N -> (lo' <= hi' <= hi)%N -> clash (ops_between L lo' hi') -> clash (ops_between L lo hi).
Proof.
  intros H1 H2 H. rewrite (ops_between_le L lo lo' hi), (ops_between_le L lo' hi' hi) by lia. by apply clash_app_r, clash_app_l.
Qed.
Lemma tracked_clash vi vj L L' : tracked vi vj L L' -> clash (ops_between L' vi (vj + 1)) <-> clash (ops_between L vi (vj + 1)).
Proof.
  intros T. rewrite (tracked_ops _ _ _ _ _ T) by lia. rewrite !clash_iff.
  destruct (thin_sim _ _ _ (thin_changes (ops_between L vi (vj + 1)) [] [] (end_of_refl [])) [] (sim_refl [])) as (_ & _ & X). tauto.
Qed.
(** A part of a range afterwards. *)
Lemma track_use_inner vi vj a b h L h1 L1 m : reachable (h, L) -> track vi vj (h, L) = ((h1, L1), Ok m) ->
  (vi <= a)%N -> (a <= b <= vj)%N ->
  exists m1, track a b (h1, L1) = ((h1, L1), Ok m1) ∧
    forall v, m1 !! v = if decide (a <= v <= b)%N then l_patches L1 !! v else None.
Proof.
  intros HR E Ha Hb. apply reachable_consistent in HR. cbn in HR.
  destruct (track_ok vi vj h L h1 L1 m HR E) as (-> & HC1 & T & NC & Hle & Hn & _).
  destruct (track_does a b h L1 HC1) as (L2 & m1 & E2); [lia|..].
  { intros n En. rewrite (tr_version _ _ _ _ T) in En. specialize (Hn n En). lia. }
  { intros H. apply NC. apply (tracked_clash _ _ _ _ T). apply (clash_part L1 vi a (b + 1) (vj + 1)); [lia|lia|done]. }
  exists m1. destruct (track_ok a b h L1 h L2 m1 HC1 E2) as (_ & _ & T2 & _ & _ & _ & Hm). split; [|done].
  rewrite E2. do 3 f_equal. destruct T2 as [B1 B2 B3 B4 B5]. apply logument_ext; try done. apply map_eq. intros v. rewrite B5.
  case_decide as X; [|done]. destruct (l_patches L1 !! v) as [ps|] eqn:Ep; [|done]. cbn. f_equal.
  apply changes_keep. intros pre q post ->.
  assert (EO : changes [] (ops_between L vi (v + 1)) = (ops_between L1 vi v ++ pre) ++ q :: post).
  { rewrite <- (tracked_ops _ _ _ _ (v + 1) T) by lia. rewrite ops_between_snoc by lia. rewrite (lookup_patch _ _ _ Ep).
    by rewrite app_assoc. }
  pose proof (changes_split _ [] [] _ q post (sim_refl []) EO) as HQ. cbn in HQ. revert HQ. apply end_of_changed.
  rewrite (ops_between_le L1 vi a v) by lia. rewrite <- app_assoc. apply end_of_app.
Qed.
(** A part of a range before. *)
Lemma track_use_before vi vj a b h L h1 L1 m : reachable (h, L) -> track vi vj (h, L) = ((h1, L1), Ok m) ->
  (vi <= a)%N -> (a <= b <= vj)%N ->
  exists L2 m2 m3, track a b (h, L) = ((h, L2), Ok m2) ∧ track vi vj (h, L2) = ((h1, L1), Ok m3).
Proof.
  intros HR E Ha Hb. apply reachable_consistent in HR. cbn in HR.
  destruct (track_ok vi vj h L h1 L1 m HR E) as (-> & HC1 & T & NC & Hle & Hn & _).
  destruct (track_does a b h L HR) as (L2 & m2 & E2); [lia|..].
  { intros n En. specialize (Hn n En). lia. }
  { intros H. apply NC. apply (clash_part L vi a (b + 1) (vj + 1)); [lia|lia|done]. }
  destruct (track_ok a b h L h L2 m2 HR E2) as (_ & HC2 & T2 & _ & _ & _ & _).
  assert (HT : forall v, (vi <= v)%N -> thin (ops_between L vi v) (patch_at L v) (patch_at L2 v)).
  { intros v Hv. rewrite (tracked_patch _ _ _ _ v T2). case_decide as X; [|apply thin_refl]. apply thin_changes.
    rewrite (ops_between_le L vi a v) by lia. apply end_of_app. }
  assert (HO : forall v, thin [] (ops_between L vi v) (ops_between L2 vi v)).
  { intros v. induction v as [|v IH] using N.peano_ind; [rewrite !ops_between_empty by lia; constructor|].
    rewrite <- N.add_1_r. destruct (decide (vi <= v)%N) as [X|X]; [|rewrite !ops_between_empty by lia; constructor].
    rewrite !ops_between_snoc by lia. apply thin_app; [done|]. by apply HT. }
  destruct (track_does vi vj h L2 HC2) as (L3 & m3 & E3); [lia|..].
  { intros n En. rewrite (tr_version _ _ _ _ T2) in En. specialize (Hn n En). lia. }
  { intros H. apply NC. revert H. rewrite !clash_iff. destruct (thin_sim _ _ _ (HO (vj + 1)%N) [] (sim_refl [])) as (_ & _ & X). tauto. }
  exists L2, m2, m3. split; [done|]. rewrite E3. do 3 f_equal.
  destruct (track_ok vi vj h L2 h L3 m3 HC2 E3) as (_ & _ & T3 & _ & _ & _ & _).
  destruct T as [A1 A2 A3 A4 A5], T2 as [B1 B2 B3 B4 B5] eqn:ET2, T3 as [D1 D2 D3 D4 D5]. apply logument_ext; try congruence.
  apply map_eq. intros v. rewrite D5, A5. case_decide as X.
  - pose proof (th_keys _ _ (tracked_thinned _ _ _ _ T2) v) as K. specialize (HT v (proj1 X)). unfold patch_at in HT.
    destruct (l_patches L !! v) as [ps|], (l_patches L2 !! v) as [ps'|]; cbn in HT |- *; [|..|done].
    + f_equal. apply (thin_sim _ _ _ HT). by destruct (thin_sim _ _ _ (HO v) [] (sim_refl [])) as (? & _).
    + destruct K as [_ K]. by destruct (K (mk_is_Some _ _ eq_refl)).
    + destruct K as [K _]. by destruct (K (mk_is_Some _ _ eq_refl)).
  - rewrite B5. rewrite decide_False by lia. done.
Qed.
(** Ranges apart from each other. *)
Lemma tracked_outside vi vj L L' lo hi : tracked vi vj L L' -> (vj < lo)%N ∨ (hi <= vi)%N ->
  ops_between L' lo hi = ops_between L lo hi.
Proof. intros T H. apply ops_same. intros v Hv. rewrite (tracked_patch _ _ _ _ v T). by rewrite decide_False by lia. Qed.
Lemma track_use_apart vi vj a b h L h1 L1 m h2 L2 m2 : reachable (h, L) -> (vj < a)%N ∨ (b < vi)%N ->
  track vi vj (h, L) = ((h1, L1), Ok m) -> track a b (h1, L1) = ((h2, L2), Ok m2) ->
  exists L1', track a b (h, L) = ((h, L1'), Ok m2) ∧ track vi vj (h, L1') = ((h2, L2), Ok m).
Proof.
  intros HR HA E1 E2. apply reachable_consistent in HR. cbn in HR.
  destruct (track_ok vi vj h L h1 L1 m HR E1) as (-> & HC1 & T1 & N1 & Hle1 & Hn1 & Hm1).
  destruct (track_ok a b h L1 h2 L2 m2 HC1 E2) as (-> & HC2 & T2 & N2 & Hle2 & Hn2 & Hm2).
  destruct (track_does a b h L HR) as (L1' & m2' & E1'); [done|by rewrite <- (tr_version _ _ _ _ T1)|..].
  { by rewrite <- (tracked_outside vi vj L L1) by (done || lia). }
  destruct (track_ok a b h L h L1' m2' HR E1') as (_ & HC1' & T1' & N1' & _ & _ & Hm2').
  destruct (track_does vi vj h L1' HC1') as (L2' & m' & E2'); [done|by rewrite (tr_version _ _ _ _ T1')|..].
  { by rewrite (tracked_outside a b L L1') by (done || lia). }
  destruct (track_ok vi vj h L1' h L2' m' HC1' E2') as (_ & _ & T2' & _ & _ & _ & Hm').
  assert (m2' = m2) as ->.
  { apply map_eq. intros v. rewrite Hm2, Hm2'. case_decide as X; [|done]. rewrite (tr_patches _ _ _ _ T1). by rewrite decide_False by lia. }
  assert (m' = m) as ->.
  { apply map_eq. intros v. rewrite Hm1, Hm'. case_decide as X; [|done]. rewrite (tr_patches _ _ _ _ T1'). by rewrite decide_False by lia. }
  exists L1'. split; [done|]. rewrite E2'. do 3 f_equal.
  apply logument_ext; [rewrite (tr_version _ _ _ _ T2'), (tr_version _ _ _ _ T1'), (tr_version _ _ _ _ T2), (tr_version _ _ _ _ T1); done|
    rewrite (tr_current _ _ _ _ T2'), (tr_current _ _ _ _ T1'), (tr_current _ _ _ _ T2), (tr_current _ _ _ _ T1); done|
    rewrite (tr_snapshots _ _ _ _ T2'), (tr_snapshots _ _ _ _ T1'), (tr_snapshots _ _ _ _ T2), (tr_snapshots _ _ _ _ T1); done| |
    rewrite (tr_pool _ _ _ _ T2'), (tr_pool _ _ _ _ T1'), (tr_pool _ _ _ _ T2), (tr_pool _ _ _ _ T1); done].
  apply map_eq. intros v. rewrite (tr_patches _ _ _ _ T2'), (tr_patches _ _ _ _ T1'), (tr_patches _ _ _ _ T2), (tr_patches _ _ _ _ T1).
  destruct (decide (vi <= v <= vj)%N) as [X|X].
  - rewrite decide_False by lia. rewrite decide_False by lia. rewrite (tracked_outside a b L L1') by (done || lia). done.
  - destruct (decide (a <= v <= b)%N) as [Y|Y]; [|done]. rewrite (tracked_outside vi vj L L1) by (done || lia). done.
Qed.

(** ** Track and Compact *)
Section among.
Context (P : operation -> Prop) {HPd : forall p, Decision (P p)} (PP : forall p q, op_path p = op_path q -> P p -> P q).

Lemma track_compact_list l : forall s r sA rB, end_of s r ->
  (forall p, P p -> same_last_value (last_on (op_path p) s) (last_on (op_path p) sA)) ->
  (forall p, ~ P p -> last_on (op_path p) rB = last_on (op_path p) r) ->
  (forall p, P p -> last_on (op_path p) rB = None ∨ same_last_value (last_on (op_path p) s) (last_on (op_path p) rB)) ->
  forall sP, (forall p, P p -> last_on (op_path p) sP = last_on (op_path p) s) ->
  changes_among P sA (changes r l) = changes rB (changes_among P sP l).
Proof.
  induction l as [|p l IH]; intros s r sA rB HE HA HB HB' sP HS; [done|]. cbn [changes changes_among].
  assert (HE' := end_of_snoc s r p HE).
  destruct (decide (P p)) as [X|X].
  - assert (ES : changed sP p <-> changed s p).
    { apply same_last_changed. rewrite HS by done. apply same_last_eq. }
    assert (HS' : forall q, P q -> last_on (op_path q) (sP ++ [p]) = last_on (op_path q) (s ++ [p])).
    { intros q Hq. rewrite !last_on_snoc. case_decide; [done|by apply HS]. }
    destruct (decide (changed s p)) as [C|C].
    + rewrite (decide_True (P := changed sP p)) by tauto. rewrite (decide_True (P := changed r p)) by (by apply (end_of_changed s)).
      cbn [app changes_among changes]. rewrite (decide_True (P := P p)) by done.
      rewrite (decide_True (P := changed sA p)). 2: { apply (same_last_changed s); [by apply HA|done]. }
      rewrite (decide_True (P := changed rB p)).
      2: { destruct (HB' p X) as [Y|Y]; [|by apply (same_last_changed s)]. rewrite changed_model. by rewrite Y. }
      cbn [app]. f_equal. apply (IH (s ++ [p]) (r ++ [p])); [done|..|done].
      * intros q Hq. rewrite !last_on_snoc. case_decide; [apply same_last_eq|by apply HA].
      * intros q Hq. rewrite !last_on_snoc. case_decide; [done|by apply HB].
      * intros q Hq. rewrite !last_on_snoc. case_decide; [right; apply same_last_eq|by apply HB'].
    + rewrite (decide_False (P := changed sP p)) by tauto. cbn [app].
      assert (HX : forall sA', (forall q, P q -> op_path p <> op_path q -> last_on (op_path q) sA' = last_on (op_path q) sA) ->
          same_last_value (Some p) (last_on (op_path p) sA') ->
          changes_among P sA' (changes (r ++ [p]) l) = changes rB (changes_among P (sP ++ [p]) l)).
      { intros sA' H1 H2. apply (IH (s ++ [p]) (r ++ [p])); [done|..|done].
        - intros q Hq. rewrite !last_on_snoc. case_decide as E; [by rewrite <- E|]. rewrite H1 by done. by apply HA.
        - intros q Hq. rewrite last_on_snoc. case_decide as E; [|by apply HB]. destruct Hq. by apply (PP p).
        - intros q Hq. rewrite last_on_snoc. case_decide as E; [|by apply HB'].
          destruct (HB' q Hq) as [Y|Y]; [by left|right]. rewrite <- E. apply (same_last_skip s); [by rewrite E|done]. }
      destruct (decide (changed r p)) as [D|D]; cbn [app changes_among].
      * rewrite (decide_True (P := P p)) by done. rewrite (decide_False (P := changed sA p)).
        2: { intros Y. apply C. apply (same_last_changed s sA); [by apply HA|done]. }
        cbn [app]. apply HX.
        -- intros q Hq Hn. rewrite last_on_snoc. by rewrite decide_False.
        -- rewrite last_on_snoc, decide_True by done. apply same_last_eq.
      * apply HX; [done|]. apply (same_last_skip s); [by apply HA|done].
  - assert (EC : changed rB p <-> changed r p).
    { apply same_last_changed. rewrite HB by done. apply same_last_eq. }
    assert (HX : changes_among P sA (changes (r ++ [p]) l) = changes (rB ++ [p]) (changes_among P sP l)).
    { apply (IH (s ++ [p]) (r ++ [p])); [done|..].
      - intros q Hq. rewrite last_on_snoc. case_decide as E; [|by apply HA]. destruct X. by apply (PP q).
      - intros q Hq. rewrite !last_on_snoc. case_decide; [done|by apply HB].
      - intros q Hq. rewrite !last_on_snoc. case_decide as E; [|by apply HB']. destruct X. by apply (PP q).
      - intros q Hq. rewrite last_on_snoc. case_decide as E; [|by apply HS]. destruct X. by apply (PP q). }
    cbn [changes]. destruct (decide (changed r p)) as [D|D]; cbn [app changes_among].
    + rewrite (decide_False (P := P p)) by done. rewrite (decide_True (P := changed rB p)) by tauto. cbn [app]. by f_equal.
    + rewrite (decide_False (P := changed rB p)) by tauto. done.
Qed.
Lemma changes_among_last l : forall s s', (forall p, P p -> same_last_value (last_on (op_path p) s) (last_on (op_path p) s')) ->
  changes_among P s' l = changes_among P s l.
Proof.
  induction l as [|p l IH]; intros s s' H; [done|]. cbn [changes_among]. destruct (decide (P p)) as [X|X].
  - pose proof (same_last_changed s s' p (H p X)) as E. rewrite (IH (s ++ [p]) (s' ++ [p])).
    + destruct (decide (changed s p)), (decide (changed s' p)); tauto || done.
    + intros q Hq. rewrite !last_on_snoc. case_decide; [apply same_last_eq|by apply H].
  - f_equal. by apply IH.
Qed.
End among.
Lemma compacted_other_between P HP L L' : compacted P HP L L' -> forall lo hi,
  filter (fun p => ~ P p) (ops_between L' lo hi) = filter (fun p => ~ P p) (ops_between L lo hi).
Proof.
  intros C lo hi. rewrite !ops_between_range. induction (range lo hi) as [|v vs IH]; [done|]. cbn. rewrite !filter_app, IH. f_equal.
  unfold patch_at. rewrite (cp_patches _ _ _ _ C). destruct (l_patches L !! v); [|done]. cbn. apply changes_among_other.
Qed.
Lemma track_use_compact vi vj t h L h1 L1 m h2 L2 : reachable (h, L) ->
  track vi vj (h, L) = ((h1, L1), Ok m) -> compact t (h1, L1) = ((h2, L2), Ok tt) ->
  exists L1' m', compact t (h, L) = ((h, L1'), Ok tt) ∧ track vi vj (h, L1') = ((h2, L2), Ok m').
Proof.
  intros HR E1 E2. apply reachable_consistent in HR. cbn in HR.
  destruct (track_ok vi vj h L h1 L1 m HR E1) as (-> & HC1 & T1 & N1 & Hle1 & Hn1 & _).
  destruct (compact_ok t h L1 h2 L2 HC1 E2) as (-> & HC2 & C2 & N2).
  destruct (compact_does t h L HR) as (L1' & E1').
  { intros H. apply N2. apply (thinned_clash (under t) L L1 (under_same t)); [|done]. by eapply tracked_thinned. }
  destruct (compact_ok t h L h L1' HR E1') as (_ & HC1' & C1' & N1').
  destruct (track_does vi vj h L1' HC1') as (L2' & m' & E2'); [done|by rewrite (cp_version _ _ _ _ C1')|..].
  { intros H. rewrite <- clash_all in H. apply (clash_either (under t) (under "")) in H as [H|H]; [| |apply under_same..].
    - pose proof (compact_twice t h L h L1' HR E1') as ET. apply compact_ok in ET as (_ & _ & _ & ET); [|done]. apply ET.
      destruct HR as (n & Hv & _). assert (En : last (l_version L) = Some (N.of_nat n)).
      { rewrite Hv. apply nats_last. }
      specialize (Hn1 _ En). unfold all_ops. rewrite (cp_version _ _ _ _ C1'), En.
      rewrite (ops_between_le L1' 0 vi (N.of_nat n + 1)), (ops_between_le L1' vi (vj + 1) (N.of_nat n + 1)) by lia.
      rewrite !filter_app. by apply clash_app_r, clash_app_l.
    - rewrite (compacted_other_between _ _ _ _ C1') in H. apply N1.
      apply (clash_other (under t) (under "")) in H; [|apply under_same..]. by apply clash_all. }
  exists L1', m'. split; [done|]. rewrite E2'. do 3 f_equal.
  destruct (track_ok vi vj h L1' h L2' m' HC1' E2') as (_ & _ & T2' & _).
  pose proof (compacted_last (under t) _ L L1' (under_same t) C1') as HL.
  pose proof (thinned_sim L L1) as HT. specialize (fun v => HT v (tracked_thinned _ _ _ _ T1)).
  destruct C2 as [A1 A2 A3 A4 A5], C1' as [B1 B2 B3 B4 B5] eqn:EC1', T1 as [D1 D2 D3 D4 D5], T2' as [F1 F2 F3 F4 F5].
  apply logument_ext; try congruence. apply map_eq. intros v. rewrite F5, B5, A5, D5.
  assert (UN : forall p, under t p -> forall l, last_on (op_path p) (filter (under t) l) = last_on (op_path p) l).
  { intros p Hp l. apply last_on_filter. intros q E. by apply (under_same t p). }
  case_decide as X.
  - destruct (l_patches L !! v) as [ps|]; [|done]. cbn. f_equal. symmetry.
    apply (track_compact_list (under t) (under_same t) ps (ops_between L 0 v)).
    + rewrite (ops_between_le L 0 vi v) by lia. apply end_of_app.
    + intros p Hp. rewrite UN by done. apply HT.
    + intros p Hp.
      assert (UM : forall l, last_on (op_path p) (filter (fun q => ~ under t q) l) = last_on (op_path p) l).
      { intros l. apply last_on_filter. intros q E Hq. apply Hp. by apply (under_same t q). }
      rewrite <- UM, <- (UM (ops_between L vi v)). by rewrite (compacted_other_between _ _ _ _ C1').
    + intros p Hp. pose proof (HL v (op_path p)) as HX. rewrite (ops_between_le L1' 0 vi v) in HX by lia.
      destruct (end_of_app (ops_between L1' 0 vi) (ops_between L1' vi v) (op_path p)) as [Y|Y]; [by left|right]. by rewrite Y.
    + intros p Hp. by rewrite UN.
  - destruct (l_patches L !! v) as [ps|]; [|done]. cbn. f_equal. symmetry. apply changes_among_last.
    intros p Hp. rewrite !UN by done. apply HT.
Qed.

(** ** The other calls *)
Lemma track_use_thinned vi vj h L h1 L1 m : reachable (h, L) -> track vi vj (h, L) = ((h1, L1), Ok m) ->
  h1 = h ∧ consistent L ∧ thinned L L1.
Proof.
  intros HR E. apply reachable_consistent in HR. cbn in HR. apply track_ok in E as (-> & _ & T & _); [|done].
  split; [done|]. split; [done|]. by eapply tracked_thinned.
Qed.
Lemma track_use_all vi vj h L h1 L1 m : reachable (h, L) -> track vi vj (h, L) = ((h1, L1), Ok m) ->
  snd (compact "" (h1, L1)) = snd (compact "" (h, L)) ∧
  (snd (compact "" (h, L)) = Ok tt -> fst (compact "" (h1, L1)) = fst (compact "" (h, L))).
Proof. intros HR E. destruct (track_use_thinned _ _ _ _ _ _ _ HR E) as (-> & HC & T). by apply thinned_compact. Qed.
Lemma track_use_history vi vj orc t h L h1 L1 m : reachable (h, L) -> track vi vj (h, L) = ((h1, L1), Ok m) ->
  snd (history orc t (h1, L1)) = snd (history orc t (h, L)).
Proof. intros HR E. destruct (track_use_thinned _ _ _ _ _ _ _ HR E) as (-> & HC & T). by apply thinned_history. Qed.
Lemma track_use_temporal vi vj a b h L h1 L1 m : reachable (h, L) -> track vi vj (h, L) = ((h1, L1), Ok m) ->
  (forall p, p ∈ all_ops L -> a <= op_ts p <= b) ->
  snd (temporal_track a b (h1, L1)) = snd (temporal_track a b (h, L)).
Proof. intros HR E HA. destruct (track_use_thinned _ _ _ _ _ _ _ HR E) as (-> & HC & T). by apply thinned_temporal_track. Qed.

(** ** Replay *)
Lemma alike_sym t : forall t', alike t t' -> alike t' t.
Proof.
  induction t as [|x ts|m IHm|xs IHx] using tson_ind'; intros t1 HA; inversion HA as [|p q a b Hpq|l l' HF|m0 m' HF]; subst.
  - constructor.
  - constructor. by apply eqv_sym.
  - constructor. clear HA. induction HF as [|u v m0 m [E Hv] HF IH]; [constructor|]. inversion IHm; subst. constructor; [|auto]. split; [done|auto].
  - constructor. clear HA. induction HF as [|u v m0 m Hv HF IH]; [constructor|]. inversion IHx; subst. constructor; auto.
Qed.
Lemma thin_replay all s l l' : thin s l l' -> forall t1 t2, alike t1 t2 -> good t2 all -> in_place t2 s ->
  (forall q, q ∈ s -> q ∈ all) -> (forall q, q ∈ l -> q ∈ all) ->
  exists t1' t2', papply t1 l = (t1', Ok tt) ∧ papply t2 l' = (t2', Ok tt) ∧ alike t1' t2'.
Proof.
  assert (HX : forall s (p : operation), (forall q, q ∈ s -> q ∈ all) -> p ∈ all -> forall q, q ∈ s ++ [p] -> q ∈ all).
  { intros s0 p0 H Hp q Hq. apply elem_of_app in Hq as [Hq|Hq]; [by apply H|]. by apply elem_of_list_singleton in Hq as ->. }
  intros H. induction H as [s|s p l l' H IH|s p l l' C H IH]; intros t1 t2 HA HG HI Hs Hl; [by exists t1, t2|..].
  all: assert (Hp : p ∈ all) by (apply Hl, elem_of_list_here).
  all: assert (Hl' : forall q, q ∈ l -> q ∈ all) by (intros q Hq; apply Hl; by apply elem_of_list_further).
  all: pose proof HG as [G1 _]; destruct (G1 p Hp) as (Hw & [x Hx] & Hf2).
  all: pose proof (alike_free _ _ _ (alike_sym _ _ HA) Hf2) as Hf1.
  all: pose proof (ptrav_put p x _ t1 Hf1 (writes_set _ Hw) (payload_scalar _ _ Hx)) as E1.
  all: pose proof (ptrav_put p x _ t2 Hf2 (writes_set _ Hw) (payload_scalar _ _ Hx)) as E2.
  - cbn [papply]. rewrite E1, E2. apply IH; [| | |by apply HX|done].
    + apply put_alike; [done|apply alike_refl].
    + by apply good_put.
    + by apply (in_place_put all).
  - cbn [papply]. rewrite E1. apply IH; [|done| |by apply HX|done].
    + destruct (in_place_skip all _ _ _ Hp HG C HI (op_path p) p) as (y & ts & z & Hat & Hz & Hyz).
      { rewrite last_on_snoc. by rewrite decide_True. }
      apply (put_alike_l _ _ _ _ (TLeaf y ts)); [apply op_parts_ne|done|done|].
      constructor. rewrite (payload_fun _ _ _ Hx Hz). by apply eqv_sym.
    + by apply (in_place_skip all).
Qed.
Lemma payload_no_clash (all : list operation) : (forall p, p ∈ all -> exists x, payload (op_value p) x) -> forall l, (forall p, p ∈ l -> p ∈ all) -> ~ clash l.
Proof.
  intros H l Hl (pre & p & q & post & -> & H1 & H2). destruct (last_on_in _ _ _ H1) as [Hin _].
  destruct (H p) as [x Hx]; [apply Hl, elem_of_app; by left|]. destruct Hx; inversion H2.
Qed.
Lemma track_use_replay vi vj n h L t0 : reachable (h, L) -> (exists m, t0 = TObj m) -> independent t0 (all_ops L) ->
  last (l_version L) = Some n -> (vi <= vj <= n)%N ->
  exists L' m, track vi vj (h, L) = ((h, L'), Ok m) ∧
  forall k, (1 <= k)%N -> exists t t', applied t0 (ops_between L 1 k) t ∧ applied t0 (ops_between L' 1 k) t' ∧ alike t t'.
Proof.
  intros HR [m0 ->] HI Hn Hij. apply reachable_consistent in HR. cbn in HR. apply independent_good in HI.
  destruct (track_does vi vj h L HR) as (L' & m & E); [lia|..].
  { intros k Hk. assert (k = n) as -> by congruence. lia. }
  { apply (payload_no_clash (all_ops L)).
    - intros p Hp. destruct HI as [H1 _]. by destruct (H1 p Hp) as (_ & ? & _).
    - intros p. by apply ops_in_all. }
  exists L', m. split; [done|]. intros k Hk.
  destruct (track_ok vi vj h L h L' m HR E) as (_ & HC' & T & _).
  rewrite <- (ops_from_one L), <- (ops_from_one L') by done.
  destruct (thin_replay (all_ops L) _ _ _ (thinned_ops L L' (tracked_thinned _ _ _ _ T) k) (TObj m0) (TObj m0)) as (t1 & t2 & E1 & E2 & HA).
  - apply alike_refl.
  - done.
  - by intros j q Hq.
  - by intros q ?%elem_of_nil.
  - intros q. by apply ops_in_all.
  - exists t1, t2. split; [by apply papply_applied|]. split; [by apply papply_applied|done].
Qed.
