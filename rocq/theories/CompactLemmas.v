(** Track, TemporalTrack and Compact against their specifications. *)
From Verif Require Import Base BaseSpec BaseSpecLemmas F64 Tson Serial Heap Patch Logument LogSpec BaseLemmas F64Lemmas LogLemmas ChangeLemmas.
From Coq Require Import Lia.

(** ** Version ranges *)
Lemma ops_between_range L lo hi : ops_between L lo hi = concat (map (patch_at L) (range lo hi)).
Proof. unfold ops_between, range. by rewrite map_map. Qed.
Lemma range_elem lo hi v : v ∈ range lo hi <-> (lo <= v < hi)%N.
Proof.
  unfold range. rewrite elem_of_list_fmap. split.
  - intros (i & -> & H). apply elem_of_seq in H. lia.
  - intros H. exists (N.to_nat (v - lo)). rewrite elem_of_seq. lia.
Qed.
Lemma map_seq_sorted (f : nat -> N) a n : (forall i j, (i <= j)%nat -> (f i <= f j)%N) ->
  StronglySorted N.le (map f (seq a n)).
Proof.
  intros Hf. revert a. induction n as [|n IH]; intros a; cbn; constructor; [apply IH|].
  rewrite Forall_forall. intros x Hx. apply elem_of_list_fmap in Hx as (y & -> & Hy).
  apply elem_of_seq in Hy. apply Hf. lia.
Qed.
Lemma range_sorted lo hi : StronglySorted N.le (range lo hi).
Proof. apply map_seq_sorted. lia. Qed.
Lemma range_nodup lo hi : NoDup (range lo hi).
Proof. apply NoDup_fmap_2_strong; [lia|apply NoDup_seq]. Qed.
Lemma filter_sorted (Q : N -> Prop) `{!forall x, Decision (Q x)} l :
  StronglySorted N.le l -> StronglySorted N.le (filter Q l).
Proof.
  induction 1 as [|a l HS IH HF]; [constructor|]. rewrite filter_cons. case_decide; [|done].
  constructor; [done|]. rewrite Forall_forall in HF |- *. intros x Hx. apply HF.
  by apply elem_of_list_filter in Hx as [_ ?].
Qed.

Lemma concat_filter {A} (f : N -> list A) (Q : N -> Prop) `{!forall x, Decision (Q x)} l :
  (forall x, x ∈ l -> ~ Q x -> f x = []) -> concat (map f (filter Q l)) = concat (map f l).
Proof.
  induction l as [|x l IH]; intros Hf; [done|]. rewrite filter_cons. cbn [map concat].
  case_decide as HQ.
  - cbn [map concat]. f_equal. apply IH. intros y Hy. apply Hf. by apply elem_of_list_further.
  - rewrite (Hf x (elem_of_list_here _ _) HQ). apply IH. intros y Hy. apply Hf. by apply elem_of_list_further.
Qed.
Lemma concat_versions L vs lo hi :
  StronglySorted N.le vs -> NoDup vs ->
  (forall v, v ∈ vs -> (lo <= v < hi)%N) ->
  (forall v, (lo <= v < hi)%N -> v ∉ vs -> patch_at L v = []) ->
  concat (map (patch_at L) vs) = ops_between L lo hi.
Proof.
  intros HS HN H1 H2. rewrite ops_between_range.
  assert (E : vs = filter (fun v => v ∈ vs) (range lo hi)).
  { apply sorted_unique_lt; [done|apply filter_sorted, range_sorted|].
    apply NoDup_Permutation; [done|apply NoDup_filter, range_nodup|].
    intros x. rewrite elem_of_list_filter, range_elem. split; [intros Hx; split; [done|by apply H1]|tauto]. }
  rewrite E at 1. apply concat_filter. intros x Hx Hnx. apply range_elem in Hx. by apply H2.
Qed.
Lemma sorted_split a v b w :
  StronglySorted N.le (a ++ v :: b) -> NoDup (a ++ v :: b) ->
  w ∈ a ++ v :: b -> (w ∈ a <-> (w < v)%N).
Proof.
  induction a as [|x a IH]; intros HS HN Hw.
  - cbn in *. inversion HS as [|? ? _ HF]; subst. rewrite Forall_forall in HF.
    split; [by intros ?%elem_of_nil|]. intros Hlt. apply elem_of_cons in Hw as [->|Hw]; [lia|].
    specialize (HF _ Hw). lia.
  - cbn in *. inversion HS as [|? ? HS' HF]; subst. apply NoDup_cons in HN as [Hx HN].
    rewrite Forall_forall in HF. rewrite elem_of_cons. apply elem_of_cons in Hw as [->|Hw].
    + split; [|by left]. intros _. assert (x <= v)%N by (apply HF, elem_of_app; right; apply elem_of_list_here).
      assert (x <> v) by (intros ->; apply Hx, elem_of_app; right; apply elem_of_list_here). lia.
    + rewrite <- (IH HS' HN Hw). split; [|by right]. intros [->|?]; [done|done].
Qed.
Lemma sorted_app_l a (b : list N) : StronglySorted N.le (a ++ b) -> StronglySorted N.le a.
Proof.
  induction a as [|x a IH]; intros H; [constructor|]. inversion H as [|? ? HS HF]; subst.
  constructor; [auto|]. rewrite Forall_app in HF. tauto.
Qed.
Lemma concat_before L vs a v b lo :
  vs = a ++ v :: b ->
  StronglySorted N.le vs -> NoDup vs ->
  (forall w, w ∈ vs -> (lo <= w)%N) ->
  (forall w, (lo <= w < v)%N -> w ∉ vs -> patch_at L w = []) ->
  concat (map (patch_at L) a) = ops_between L lo v.
Proof.
  intros -> HS HN H1 H2. apply concat_versions.
  - by eapply sorted_app_l.
  - by apply NoDup_app in HN as [? _].
  - intros w Hw. split.
    + apply H1, elem_of_app. by left.
    + apply (sorted_split a v b w HS HN); [apply elem_of_app; by left|done].
  - intros w Hw Hnw. apply H2; [done|]. intros Hin. apply Hnw.
    apply (sorted_split a v b w HS HN Hin). lia.
Qed.

(** ** Facts about the specification of changes *)
Section changes.
Context (P : operation -> Prop) {HPd : forall p, Decision (P p)}.
Lemma changes_among_sublist seen l : changes_among P seen l `sublist_of` l.
Proof.
  revert seen. induction l as [|p l IH]; intros seen; cbn; [constructor|].
  case_decide; [|by apply sublist_skip]. case_decide; cbn; [by apply sublist_skip|apply sublist_cons, IH].
Qed.
Lemma changes_among_other seen l : filter (fun p => ~ P p) (changes_among P seen l) = filter (fun p => ~ P p) l.
Proof.
  revert seen. induction l as [|p l IH]; intros seen; [done|]. cbn [changes_among].
  rewrite (filter_cons _ p l). destruct (decide (P p)) as [HP|HP].
  - rewrite (decide_False (P := ~ P p)) by tauto. rewrite filter_app, IH. case_decide; [|done].
    rewrite filter_cons, decide_False by tauto. done.
  - rewrite (decide_True (P := ~ P p)) by done. rewrite filter_cons, decide_True by done. by rewrite IH.
Qed.
Lemma changes_among_only seen l : filter P (changes_among P seen l) = changes seen (filter P l).
Proof.
  revert seen. induction l as [|p l IH]; intros seen; [done|]. cbn [changes_among].
  rewrite (filter_cons _ p l). destruct (decide (P p)) as [HP|HP].
  - cbn [changes]. rewrite filter_app, IH. f_equal. case_decide; [|done].
    rewrite filter_cons, decide_True by done. done.
  - rewrite filter_cons, decide_False by done. apply IH.
Qed.
Lemma same_value_eq a b c : same_value a b -> any_eq a c = any_eq b c.
Proof. intros [->|H]; [done|]. by apply any_eq_trans, any_eq_true. Qed.

Definition sim (seen seen' : list operation) : Prop :=
  forall k, same_last_value (last_on k seen) (last_on k seen').
Lemma sim_refl seen : sim seen seen.
Proof. intros k. destruct (last_on k seen); [by left|done]. Qed.
Lemma sim_changed seen seen' p : sim seen seen' -> changed seen p <-> changed seen' p.
Proof.
  intros HS. rewrite !changed_model. specialize (HS (op_path p)).
  destruct (last_on _ seen) as [q|], (last_on _ seen') as [q'|]; try done. cbn in HS.
  by rewrite (same_value_eq _ _ _ HS).
Qed.
Lemma sim_snoc seen seen' p : sim seen seen' -> sim (seen ++ [p]) (seen' ++ [p]).
Proof.
  intros HS k. rewrite !last_on_snoc. case_decide; [by left|]. apply HS.
Qed.
Lemma sim_skip seen seen' p : sim seen seen' -> ~ changed seen p -> sim (seen ++ [p]) seen'.
Proof.
  intros HS HC k. rewrite last_on_snoc. case_decide as E; [|apply HS]. subst k.
  rewrite (sim_changed _ _ _ HS), changed_model in HC.
  destruct (last_on (op_path p) seen') as [q'|]; [|by destruct HC]. cbn. right. apply any_eq_true.
  destruct (any_eq (op_value q') (op_value p)) as [[]|]; [done|..]; by destruct HC.
Qed.
(** The filtered list leaves the same last values, and filtering it again changes nothing. *)
Lemma changes_sim l seen seen' : sim seen seen' ->
  sim (seen ++ l) (seen' ++ changes seen l) ∧ changes seen' (changes seen l) = changes seen l
  ∧ (comparable_after seen l -> comparable_after seen' (changes seen l)).
Proof.
  revert seen seen'. induction l as [|p l IH]; intros seen seen' HS; cbn [changes].
  - rewrite !app_nil_r. done.
  - case_decide as HC; cbn [app].
    + destruct (IH _ _ (sim_snoc _ _ p HS)) as (I1 & I2 & I3). rewrite <- !app_assoc in I1. cbn in I1.
      split; [done|]. split.
      * cbn [changes]. rewrite decide_True by (by apply (sim_changed _ _ _ HS)). cbn [app]. by rewrite I2.
      * cbn [comparable_after]. intros [H1 H2]. split; [|auto].
        specialize (HS (op_path p)).
        destruct (last_on _ seen) as [q|], (last_on _ seen') as [q'|]; try done. cbn in HS.
        by rewrite (same_value_eq _ _ _ HS).
    + destruct (IH _ _ (sim_skip _ _ p HS HC)) as (I1 & I2 & I3). rewrite <- !app_assoc in I1. cbn in I1.
      split; [done|]. split; [done|]. cbn. tauto.
Qed.
Lemma changes_app seen l l' : changes seen (l ++ l') = changes seen l ++ changes (seen ++ l) l'.
Proof.
  revert seen. induction l as [|p l IH]; intros seen; cbn [changes app].
  - by rewrite app_nil_r.
  - rewrite IH. rewrite <- !app_assoc. done.
Qed.
Lemma changes_among_again l seen seen' : sim seen seen' ->
  changes_among P seen' (changes_among P seen l) = changes_among P seen l.
Proof.
  revert seen seen'. induction l as [|p l IH]; intros seen seen' HS; [done|].
  cbn [changes_among]. case_decide as HP.
  - case_decide as HC; cbn [app].
    + cbn [changes_among]. rewrite (decide_True _ _ HP).
      rewrite decide_True by (by apply (sim_changed _ _ _ HS)). cbn [app]. f_equal.
      apply IH. by apply sim_snoc.
    + apply IH. by apply sim_skip.
  - cbn [changes_among]. rewrite (decide_False _ _ HP). f_equal. by apply IH.
Qed.
Lemma comparable_after_clash l seen :
  ~ comparable_after seen l <-> exists pre q post p, l = pre ++ q :: post ∧
    last_on (op_path q) (seen ++ pre) = Some p ∧ uncomparable (op_value p) (op_value q).
Proof.
  setoid_rewrite <- any_eq_none.
  revert seen. induction l as [|x l IH]; intros seen; cbn [comparable_after].
  - split; [tauto|]. intros (pre & q & post & p & E & _). by destruct pre.
  - split.
    + intros HN. destruct (last_on (op_path x) seen) as [q|] eqn:E.
      * destruct (any_eq (op_value q) (op_value x)) eqn:E2.
        -- destruct (IH (seen ++ [x])) as [IH1 _]. destruct IH1 as (pre & q' & post & p & -> & H1 & H2).
           { intros HC. apply HN. by split. }
           exists (x :: pre), q', post, p. rewrite <- app_assoc in H1. done.
        -- exists [], x, l, q. rewrite app_nil_r. done.
      * destruct (IH (seen ++ [x])) as [IH1 _]. destruct IH1 as (pre & q' & post & p & -> & H1 & H2).
        { intros HC. apply HN. by split. }
        exists (x :: pre), q', post, p. rewrite <- app_assoc in H1. done.
    + intros (pre & q & post & p & E & H1 & H2) [HA HB]. destruct pre as [|y pre]; cbn in E; inversion E; subst.
      * rewrite app_nil_r in H1. rewrite H1 in HA. done.
      * destruct (IH (seen ++ [y])) as [_ IH2]. apply IH2; [|done].
        exists pre, q, post, p. rewrite <- app_assoc. done.
Qed.
Lemma clash_iff l : clash l <-> ~ comparable_after [] l.
Proof.
  rewrite comparable_after_clash. unfold clash. split.
  - intros (pre & p & q & post & E & H1 & H2). by exists pre, q, post, p.
  - intros (pre & q & post & p & E & H1 & H2). by exists pre, p, q, post.
Qed.
End changes.

(** ** The three operations *)
Lemma ops_between_empty L lo hi : (hi <= lo)%N -> ops_between L lo hi = [].
Proof. intros H. unfold ops_between. by replace (N.to_nat (hi - lo)) with 0%nat by lia. Qed.
Lemma ops_between_snoc L lo v : (lo <= v)%N ->
  ops_between L lo (v + 1) = ops_between L lo v ++ patch_at L v.
Proof.
  intros H. unfold ops_between. replace (N.to_nat (v + 1 - lo)) with (S (N.to_nat (v - lo))) by lia.
  rewrite seq_S, map_app, concat_app. cbn [map concat]. rewrite app_nil_r. do 2 f_equal. lia.
Qed.
Lemma ops_between_le L lo mid hi : (lo <= mid <= hi)%N ->
  ops_between L lo hi = ops_between L lo mid ++ ops_between L mid hi.
Proof.
  intros [H1 H2]. remember (N.to_nat (hi - mid)) as d eqn:Ed. revert hi H2 Ed.
  induction d as [|d IH]; intros hi H2 Ed.
  - assert (hi = mid) as -> by lia. rewrite (ops_between_empty L mid mid) by lia. by rewrite app_nil_r.
  - assert (E : hi = (hi - 1 + 1)%N) by lia. rewrite E. rewrite !ops_between_snoc by lia.
    rewrite IH by lia. by rewrite app_assoc.
Qed.
Lemma in_split_N (vs : list N) v : v ∈ vs -> exists a b, vs = a ++ v :: b.
Proof. apply elem_of_list_split. Qed.

Lemma all_ops_versions L vs : consistent L -> vs = sorted_keys (l_patches L) ->
  concat (map (patch_at L) vs) = all_ops L.
Proof.
  intros (n & Hv & Hp & _) ->. unfold all_ops. rewrite Hv.
  change (map N.of_nat (seq 0 (S n))) with (nats (S n)). rewrite nats_last.
  apply concat_versions; [apply sorted_keys_sorted|apply sorted_keys_nodup|..].
  - intros v H. apply sorted_keys_elem in H. apply Hp in H. lia.
  - intros v _ H. unfold patch_at. destruct (l_patches L !! v) eqn:E; [|done].
    destruct H. apply sorted_keys_elem. by eexists.
Qed.
Lemma no_patch_empty L v : ~ is_Some (l_patches L !! v) -> patch_at L v = [].
Proof. intros H. unfold patch_at. destruct (l_patches L !! v); [|done]. destruct H. by eexists. Qed.

Lemma on_target_under target p : on_target target p = true <-> under target p.
Proof.
  unfold on_target, under. rewrite has_prefix_spec.
  split; intros (rest & H); exists rest; by apply decode_spec.
Qed.

Lemma compact_spec target h L : consistent L ->
  match compact target (h, L) with
  | ((h', L'), Ok _) =>
      (h' = h ∧ l_version L' = l_version L ∧ l_snapshots L' = l_snapshots L
       ∧ l_pool L' = l_pool L ∧ l_current L' = l_current L)
      ∧ (forall v, l_patches L' !! v =
          changes_among (under target) (filter (under target) (ops_between L 0 v)) <$> (l_patches L !! v))
      ∧ ~ clash (filter (under target) (all_ops L))
  | (_, Err) => False
  | (_, Panic) => clash (filter (under target) (all_ops L))
  end.
Proof.
  intros HC. destruct (compact_shape target h L HC) as ((S1 & S2 & _) & S3 & S4 & S5).
  rewrite compact_log in * by done.
  pose proof (compact_versions_spec (on_target target) (under target) (on_target_under target)
    (sorted_keys (l_patches L)) [] L [] repr_nil (sorted_keys_nodup _)) as H.
  rewrite (all_ops_versions L _ HC eq_refl) in H.
  destruct (compact_versions _ _ _ _) as [L' [u| |]]; cbn [fst snd] in *; [|done|].
  - destruct H as (H1 & H2 & H3). split; [done|]. split.
    + intros v. destruct (decide (v ∈ sorted_keys (l_patches L))) as [Hv|Hv].
      * destruct (in_split_N _ _ Hv) as (a & b & E). rewrite (H2 a v b E). cbn [app].
        rewrite (concat_before L _ a v b 0 E (sorted_keys_sorted _) (sorted_keys_nodup _)).
        -- apply sorted_keys_elem in Hv as [ps Hps]. unfold patch_at. by rewrite Hps.
        -- intros w _. lia.
        -- intros w _ Hw. apply no_patch_empty. by rewrite <- sorted_keys_elem.
      * rewrite (H1 v Hv). rewrite sorted_keys_elem in Hv. destruct (l_patches L !! v); [|done].
        destruct Hv. by eexists.
    + rewrite clash_iff. tauto.
  - by apply clash_iff.
Qed.

Lemma filter_concat_ops (P : operation -> Prop) {HPd : forall p, Decision (P p)} L L' :
  (forall v, l_patches L' !! v = changes_among P (filter P (ops_between L 0 v)) <$> (l_patches L !! v)) ->
  forall v, filter P (ops_between L' 0 v) = changes [] (filter P (ops_between L 0 v)).
Proof.
  intros H v. induction v as [|v IH] using N.peano_ind; [done|].
  rewrite <- N.add_1_r, !ops_between_snoc by lia.
  rewrite !filter_app, changes_app, IH. f_equal. cbn [app].
  unfold patch_at at 1. rewrite H. destruct (l_patches L !! v) as [ps|] eqn:E; cbn.
  - rewrite changes_among_only. unfold patch_at. by rewrite E.
  - unfold patch_at. by rewrite E.
Qed.
Lemma filter_concat_other (P : operation -> Prop) {HPd : forall p, Decision (P p)} L L' :
  (forall v, l_patches L' !! v = changes_among P (filter P (ops_between L 0 v)) <$> (l_patches L !! v)) ->
  forall v, filter (fun p => ~ P p) (ops_between L' 0 v) = filter (fun p => ~ P p) (ops_between L 0 v).
Proof.
  intros H v. induction v as [|v IH] using N.peano_ind; [done|].
  rewrite <- N.add_1_r, !ops_between_snoc by lia.
  rewrite !filter_app, IH. f_equal.
  unfold patch_at. rewrite H. destruct (l_patches L !! v) as [ps|] eqn:E; cbn; [|done].
  apply changes_among_other.
Qed.
Lemma last_on_filter (P : operation -> Prop) {HPd : forall p, Decision (P p)} k l :
  (forall p, op_path p = k -> P p) -> last_on k (filter P l) = last_on k l.
Proof.
  intros H. unfold last_on. f_equal. induction l as [|p l IH]; [done|].
  rewrite (filter_cons P). destruct (decide (P p)) as [HP|HP]; rewrite !filter_cons.
  - by rewrite IH.
  - rewrite IH. rewrite decide_False; [done|]. intros E. by apply HP, H.
Qed.
Lemma under_path target p q : op_path p = op_path q -> under target p -> under target q.
Proof. unfold under. by intros ->. Qed.

Lemma compact_last_values target h L h' L' : consistent L ->
  compact target (h, L) = ((h', L'), Ok tt) ->
  forall v k, same_last_value (last_on k (ops_between L 0 v)) (last_on k (ops_between L' 0 v)).
Proof.
  intros HC E v k. pose proof (compact_spec target h L HC) as H. rewrite E in H.
  destruct H as (_ & HP & _).
  destruct (decide (under target (Op OAdd k ANil 0))) as [Hu|Hu].
  - rewrite <- (last_on_filter (under target) k (ops_between L 0 v)).
    2: { intros p Hp. apply (under_path target (Op OAdd k ANil 0)); [done|done]. }
    rewrite <- (last_on_filter (under target) k (ops_between L' 0 v)).
    2: { intros p Hp. apply (under_path target (Op OAdd k ANil 0)); [done|done]. }
    rewrite (filter_concat_ops (under target) L L' HP).
    destruct (changes_sim (filter (under target) (ops_between L 0 v)) [] [] (sim_refl [])) as (HS & _).
    apply HS.
  - rewrite <- (last_on_filter (fun p => ~ under target p) k (ops_between L 0 v)).
    2: { intros p Hp Hx. apply Hu. by apply (under_path target p). }
    rewrite <- (last_on_filter (fun p => ~ under target p) k (ops_between L' 0 v)).
    2: { intros p Hp Hx. apply Hu. by apply (under_path target p). }
    rewrite (filter_concat_other (under target) L L' HP).
    apply sim_refl.
Qed.

Lemma logument_ext L L' : l_version L = l_version L' -> l_current L = l_current L' ->
  l_snapshots L = l_snapshots L' -> l_patches L = l_patches L' -> l_pool L = l_pool L' -> L = L'.
Proof. destruct L, L'; cbn. by intros -> -> -> -> ->. Qed.

Lemma compact_twice target h L h' L' : consistent L ->
  compact target (h, L) = ((h', L'), Ok tt) ->
  compact target (h', L') = ((h', L'), Ok tt).
Proof.
  intros HC E. pose proof (compact_spec target h L HC) as H.
  destruct (compact_shape target h L HC) as (HSh & _). rewrite E in H, HSh. cbn [fst snd] in HSh.
  destruct H as ((-> & V1 & V2 & V3 & V4) & HP & HN).
  assert (HC' : consistent L') by (by eapply same_shape_consistent).
  pose proof (compact_spec target h L' HC') as H'.
  destruct (compact target (h, L')) as [[h2 L2] [[]| |]]; [|done|].
  - destruct H' as ((-> & W1 & W2 & W3 & W4) & HP' & _). f_equal. f_equal.
    apply logument_ext; try congruence. apply map_eq. intros v. rewrite HP'.
    destruct (l_patches L' !! v) as [ps|] eqn:Ev; [|done]. cbn. f_equal.
    rewrite HP in Ev. destruct (l_patches L !! v) as [ps0|]; [|done]. cbn in Ev. injection Ev as <-.
    apply changes_among_again. rewrite (filter_concat_ops (under target) L L' HP).
    destruct (changes_sim (filter (under target) (ops_between L 0 v)) [] [] (sim_refl [])) as (HS & _).
    apply HS.
  - exfalso. apply HN. revert H'. rewrite !clash_iff. unfold all_ops. rewrite V1.
    rewrite (filter_concat_ops (under target) L L' HP). intros H1 H2. apply H1.
    by destruct (changes_sim (filter (under target) (ops_between L 0
      match last (l_version L) with Some v => (v + 1)%N | None => 0%N end)) [] [] (sim_refl [])) as (_ & _ & HS); auto.
Qed.

Lemma changes_among_all seen l : changes_among (fun _ => True) seen l = changes seen l.
Proof. revert seen. induction l as [|p l IH]; intros seen; cbn; [done|]. by rewrite IH. Qed.
Lemma filter_all (l : list operation) : filter (fun _ => True) l = l.
Proof. induction l as [|p l IH]; [done|]. by rewrite filter_cons, IH. Qed.

Lemma track_spec vi vj h L : consistent L ->
  match track vi vj (h, L) with
  | ((h', L'), Ok m) =>
      ((vi <= vj)%N ∧ (forall n, last (l_version L) = Some n -> (vj <= n)%N)
       ∧ ~ clash (ops_between L vi (vj + 1))) ∧
      (forall v, m !! v = if decide (vi <= v <= vj)%N then l_patches L !! v else None)
      ∧ (h' = h ∧ l_version L' = l_version L ∧ l_snapshots L' = l_snapshots L
         ∧ l_pool L' = l_pool L ∧ l_current L' = l_current L)
      ∧ (forall v, l_patches L' !! v =
          if decide (vi <= v <= vj)%N
          then changes (ops_between L vi v) <$> (l_patches L !! v) else l_patches L !! v)
  | (_, Err) => False
  | (_, Panic) => (vj < vi)%N ∨ (exists n, last (l_version L) = Some n ∧ ((n < vi)%N ∨ (n < vj)%N))
      ∨ clash (ops_between L vi (vj + 1))
  end.
Proof.
  intros HC. destruct (track_shape vi vj h L HC) as ((S1 & S2 & _) & S3 & S4 & S5).
  unfold track in *. rewrite (consistent_continuous _ HC) in *. cbn [negb] in *.
  destruct HC as (n & Hv & Hp & HC2). pose proof (consistent_last _ n Hv) as Hl. rewrite Hl in *.
  destruct ((N.of_nat n <? vi)%N || (N.of_nat n <? vj)%N) eqn:Eb.
  { right. left. exists (N.of_nat n). unfold last_version in Hl. split; [done|].
    apply orb_true_iff in Eb. rewrite !N.ltb_lt in Eb. done. }
  destruct (N.ltb_spec vj vi) as [Hlt|Hge]; [by left|].
  set (vs := sorted_keys (keys_in vi vj (l_patches L))) in *.
  assert (HE : forall v, v ∈ vs <-> (vi <= v <= vj)%N ∧ is_Some (l_patches L !! v)).
  { intros v. unfold vs. rewrite sorted_keys_elem, keys_in_lookup. case_decide; [tauto|].
    split; [by intros [? ?]|tauto]. }
  pose proof (compact_versions_spec (fun _ => true) (fun _ => True) (fun _ => ltac:(done))
    vs [] L [] repr_nil (sorted_keys_nodup _)) as H.
  rewrite !filter_all in H.
  assert (HA : concat (map (patch_at L) vs) = ops_between L vi (vj + 1)).
  { apply concat_versions; [apply sorted_keys_sorted|apply sorted_keys_nodup|..].
    - intros v Hin. apply HE in Hin. lia.
    - intros v Hr Hin. apply no_patch_empty. intros HS. apply Hin, HE. split; [lia|done]. }
  rewrite HA in H.
  destruct (compact_versions _ _ _ _) as [L' [u| |]]; cbn [fst snd] in *; [|done|].
  - destruct H as (H1 & H2 & H3). split; [split; [done|split]|].
    { intros m Hm. unfold last_version in Hl. rewrite Hl in Hm. injection Hm as <-.
      apply orb_false_iff in Eb. rewrite !N.ltb_ge in Eb. tauto. }
    { rewrite clash_iff. tauto. }
    split; [intros v; apply keys_in_lookup|]. split; [done|].
    intros v. destruct (decide (v ∈ vs)) as [Hin|Hin].
    + destruct (in_split_N _ _ Hin) as (a & b & E). rewrite (H2 a v b E). cbn [app]. rewrite filter_all, changes_among_all.
      rewrite (concat_before L _ a v b vi E (sorted_keys_sorted _) (sorted_keys_nodup _)).
      * apply HE in Hin as [Hr [ps Hps]]. rewrite decide_True by done. unfold patch_at. by rewrite Hps.
      * intros w Hw. apply HE in Hw. lia.
      * intros w Hr Hw. apply no_patch_empty. intros HS. apply Hw, HE. split; [|done].
        apply HE in Hin. lia.
    + rewrite (H1 v Hin). rewrite HE in Hin. case_decide; [|done]. destruct (l_patches L !! v); [|done].
      destruct Hin. split; [done|]. by eexists.
  - right. right. by apply clash_iff.
Qed.

Lemma in_time_range tsi tsj p : in_time tsi tsj (op_ts p) = true <-> in_range tsi tsj p.
Proof. unfold in_time, in_range. rewrite andb_true_iff, !Z.leb_le. done. Qed.
Lemma temporal_track_spec tsi tsj h L : consistent L ->
  fst (temporal_track tsi tsj (h, L)) = (h, L) ∧
  match snd (temporal_track tsi tsj (h, L)) with
  | Ok m => (tsi <= tsj ∧ ~ clash (filter (in_range tsi tsj) (all_ops L))) ∧ forall v, m !! v =
      match changes (filter (in_range tsi tsj) (ops_between L 0 v)) (filter (in_range tsi tsj) (patch_at L v)) with
      | [] => None
      | ps => Some ps
      end
  | Err => False
  | Panic => tsj < tsi ∨ clash (filter (in_range tsi tsj) (all_ops L))
  end.
Proof.
  intros HC. unfold temporal_track. destruct (Z.ltb_spec tsj tsi) as [Hlt|Hge]; [split; [done|by left]|].
  split; [done|]. cbn [snd].
  pose proof (ttrack_versions_spec (fun p => in_time tsi tsj (op_ts p)) (in_range tsi tsj) (in_time_range tsi tsj)
    tsi tsj (sorted_keys (l_patches L)) [] L [] ltac:(done) repr_nil (sorted_keys_nodup _)) as H.
  rewrite (all_ops_versions L _ HC eq_refl) in H.
  destruct (ttrack_versions _ _ _ _ _) as [m| |]; [|done|right; by apply clash_iff].
  destruct H as (H1 & H2 & H3). split; [split; [done|rewrite clash_iff; tauto]|]. intros v.
  destruct (decide (v ∈ sorted_keys (l_patches L))) as [Hin|Hin].
  - destruct (in_split_N _ _ Hin) as (a & b & E). rewrite (H2 a v b E). cbn [app].
    rewrite (concat_before L _ a v b 0 E (sorted_keys_sorted _) (sorted_keys_nodup _)); [done|..].
    + intros w _. lia.
    + intros w _ Hw. apply no_patch_empty. by rewrite <- sorted_keys_elem.
  - rewrite (H1 v Hin). rewrite no_patch_empty by (by rewrite <- sorted_keys_elem). done.
Qed.
