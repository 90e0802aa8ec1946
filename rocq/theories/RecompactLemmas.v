(** Proofs about what Compact changes for later calls. *)
From Verif Require Import Base BaseSpec BaseSpecLemmas F64 Tson Serial Heap Patch Logument LogSpec BaseLemmas F64Lemmas LogLemmas
  ChangeLemmas CompactLemmas HistoryLemmas CompactReplay.
From Coq Require Import Lia.

(** ** Lists of operations *)
Lemma same_last_changed s s' p : same_last_value (last_on (op_path p) s) (last_on (op_path p) s') -> changed s p <-> changed s' p.
Proof.
  intros HS. rewrite !changed_model.
  destruct (last_on _ s) as [q|], (last_on _ s') as [q'|]; try done. cbn in HS.
  by rewrite (same_value_eq _ _ _ HS).
Qed.
Lemma same_last_skip s s' p : same_last_value (last_on (op_path p) s) (last_on (op_path p) s') -> ~ changed s p ->
  same_last_value (Some p) (last_on (op_path p) s').
Proof.
  intros HS HC. rewrite (same_last_changed _ _ _ HS), changed_model in HC.
  destruct (last_on (op_path p) s') as [q'|]; [|by destruct HC]. cbn. right. apply any_eq_true.
  destruct (any_eq (op_value q') (op_value p)) as [[]|]; [done|..]; by destruct HC.
Qed.
Lemma same_last_eq a : same_last_value a a.
Proof. destruct a; [by left|done]. Qed.
Lemma changes_among_ext (P Q : operation -> Prop) {HP : forall p, Decision (P p)} {HQ : forall p, Decision (Q p)} (l : list operation) :
  (forall p, P p <-> Q p) -> forall s, changes_among P s l = changes_among Q s l.
Proof.
  intros H. induction l as [|p l IH]; intros s; [done|]. cbn [changes_among]. rewrite IH, (IH s).
  destruct (decide (P p)) as [X|X], (decide (Q p)) as [Y|Y]; try done; by rewrite H in X.
Qed.
Lemma filter_ext_iff (P Q : operation -> Prop) {HP : forall p, Decision (P p)} {HQ : forall p, Decision (Q p)} (l : list operation) :
  (forall p, P p <-> Q p) -> filter P l = filter Q l.
Proof. intros H. apply list_filter_iff. done. Qed.

Section two.
Context (P Q : operation -> Prop) {HPd : forall p, Decision (P p)} {HQd : forall p, Decision (Q p)}.
Context (PP : forall p q, op_path p = op_path q -> P p -> P q) (QQ : forall p q, op_path p = op_path q -> Q p -> Q q).

Lemma changes_among_two l : forall s sP sQ,
  (forall p, P p -> last_on (op_path p) sP = last_on (op_path p) s) ->
  (forall p, Q p -> same_last_value (last_on (op_path p) s) (last_on (op_path p) sQ)) ->
  changes_among Q sQ (changes_among P sP l) = changes_among (fun p => P p ∨ Q p) s l.
Proof.
  induction l as [|p l IH]; intros s sP sQ HA HB; [done|]. cbn [changes_among].
  destruct (decide (P p)) as [X|X].
  - rewrite (decide_True (P := P p ∨ Q p)) by tauto.
    assert (EC : changed sP p <-> changed s p).
    { apply same_last_changed. rewrite HA by done. apply same_last_eq. }
    assert (HA' : forall q, P q -> last_on (op_path q) (sP ++ [p]) = last_on (op_path q) (s ++ [p])).
    { intros q Hq. rewrite !last_on_snoc. case_decide; [done|]. by apply HA. }
    destruct (decide (changed sP p)) as [C|C].
    + rewrite (decide_True (P := changed s p)) by tauto. cbn [app changes_among].
      destruct (decide (Q p)) as [Y|Y].
      * rewrite decide_True. 2: { apply (same_last_changed s); [by apply HB|tauto]. }
        cbn [app]. f_equal. apply IH; [done|]. intros q Hq. rewrite !last_on_snoc.
        case_decide; [apply same_last_eq|by apply HB].
      * f_equal. apply IH; [done|]. intros q Hq. rewrite last_on_snoc. case_decide as E; [|by apply HB].
        destruct Y. by apply (QQ q).
    + rewrite (decide_False (P := changed s p)) by tauto. cbn [app]. apply IH; [done|].
      intros q Hq. rewrite last_on_snoc. case_decide as E; [|by apply HB]. rewrite <- E.
      apply (same_last_skip s); [|tauto]. apply HB. by apply (QQ q).
  - cbn [changes_among]. destruct (decide (Q p)) as [Y|Y].
    + rewrite (decide_True (P := P p ∨ Q p)) by tauto.
      assert (EC : changed sQ p <-> changed s p) by (symmetry; apply same_last_changed; by apply HB).
      assert (HX : changes_among Q (sQ ++ [p]) (changes_among P sP l) = changes_among (fun p => P p ∨ Q p) (s ++ [p]) l).
      { apply IH.
        - intros q Hq. rewrite last_on_snoc. case_decide as E; [|by apply HA]. destruct X. by apply (PP q).
        - intros q Hq. rewrite !last_on_snoc. case_decide; [apply same_last_eq|by apply HB]. }
      rewrite HX. destruct (decide (changed sQ p)), (decide (changed s p)); tauto || done.
    + rewrite (decide_False (P := P p ∨ Q p)) by tauto. f_equal. by apply IH.
Qed.
(** The operations of a smaller group of paths. *)
Lemma filter_changes_among l : (forall p, P p -> Q p) -> forall s, filter P (changes_among Q s l) = changes (filter P s) (filter P l).
Proof.
  intros HPQ. induction l as [|p l IH]; intros s; [done|]. cbn [changes_among]. rewrite (filter_cons P p l).
  destruct (decide (P p)) as [X|X].
  - rewrite (decide_True (P := Q p)) by auto. cbn [changes]. rewrite filter_app, IH.
    rewrite filter_app, (filter_cons P p []), (decide_True _ _ X). change (filter P []) with (@nil operation). f_equal.
    assert (EC : changed s p <-> changed (filter P s) p).
    { apply same_last_changed. rewrite last_on_filter; [apply same_last_eq|]. intros q E. by apply (PP p). }
    destruct (decide (changed s p)), (decide (changed (filter P s) p)); try tauto.
    by rewrite filter_cons, (decide_True _ _ X).
  - destruct (decide (Q p)) as [Y|Y].
    + rewrite filter_app, IH. rewrite filter_app, (filter_cons P p []), (decide_False _ _ X).
      change (filter P []) with (@nil operation). rewrite app_nil_r.
      destruct (decide (changed s p)); [|done]. by rewrite filter_cons, (decide_False _ _ X).
    + rewrite filter_cons, (decide_False _ _ X). apply IH.
Qed.
(** Values Go cannot compare are found path by path. *)
Lemma filter_split (l : list operation) : forall pre q post, filter P l = pre ++ q :: post -> exists a b, l = a ++ q :: b ∧ filter P a = pre ∧ filter P b = post ∧ P q.
Proof.
  induction l as [|x l IH]; intros pre q post E; [by destruct pre|]. rewrite filter_cons in E. case_decide as X.
  - destruct pre as [|y pre].
    + injection E as -> E. exists [], l. done.
    + injection E as -> E. destruct (IH _ _ _ E) as (a & b & -> & E1 & E2 & E3). exists (y :: a), b.
      by rewrite filter_cons, (decide_True _ _ X), E1.
  - destruct (IH _ _ _ E) as (a & b & -> & E1 & E2 & E3). exists (x :: a), b. by rewrite filter_cons, (decide_False _ _ X), E1.
Qed.
End two.

Lemma clash_filter (P : operation -> Prop) {HPd : forall p, Decision (P p)} (l : list operation) : (forall p q, op_path p = op_path q -> P p -> P q) ->
  clash (filter P l) <-> exists pre p q post, l = pre ++ q :: post ∧ P q ∧ last_on (op_path q) pre = Some p
    ∧ uncomparable (op_value p) (op_value q).
Proof.
  intros PP. unfold clash. split.
  - intros (pre & p & q & post & E & H1 & H2). destruct (filter_split P l _ _ _ E) as (a & b & -> & <- & <- & HP).
    exists a, p, q, b. split; [done|]. split; [done|]. split; [|done]. rewrite <- H1. symmetry. apply last_on_filter.
    intros x Ex. by apply (PP q).
  - intros (pre & p & q & post & -> & HP & H1 & H2). exists (filter P pre), p, q, (filter P post).
    split; [by rewrite filter_app, filter_cons, (decide_True _ _ HP)|]. split; [|done]. rewrite <- H1.
    apply last_on_filter. intros x Ex. by apply (PP q).
Qed.
(** Some group of paths has a clash that the rest does not explain. *)
Lemma clash_either (P Q : operation -> Prop) {HP : forall p, Decision (P p)} {HQ : forall p, Decision (Q p)} (l : list operation) :
  (forall p q, op_path p = op_path q -> P p -> P q) -> (forall p q, op_path p = op_path q -> Q p -> Q q) ->
  clash (filter Q l) -> clash (filter P l) ∨ clash (filter Q (filter (fun p => ~ P p) l)).
Proof.
  intros PP QQ H. apply (clash_filter Q l QQ) in H as (pre & p & q & post & E & HQq & H1 & H2).
  destruct (decide (P q)) as [X|X].
  - left. apply (clash_filter P l PP). by exists pre, p, q, post.
  - right. apply (clash_filter Q _ QQ). subst l. exists (filter (fun p => ~ P p) pre), p, q, (filter (fun p => ~ P p) post).
    split; [by rewrite filter_app, filter_cons, (decide_True (P := ~ P q)) by done|]. split; [done|]. split; [|done].
    rewrite <- H1. apply last_on_filter. intros x Ex Hx. apply X. by apply (PP x).
Qed.
Lemma clash_other (P Q : operation -> Prop) {HP : forall p, Decision (P p)} {HQ : forall p, Decision (Q p)} (l : list operation) :
  (forall p q, op_path p = op_path q -> P p -> P q) -> (forall p q, op_path p = op_path q -> Q p -> Q q) ->
  clash (filter Q (filter (fun p => ~ P p) l)) -> clash (filter Q l).
Proof.
  intros PP QQ H. rewrite list_filter_filter in H. apply clash_filter in H.
  2: { intros p q E [H1 H2]. split; [by apply (QQ p)|]. intros H3. apply H2. by apply (PP q). }
  destruct H as (pre & p & q & post & E & [H1 _] & H2 & H3). apply (clash_filter Q l QQ). by exists pre, p, q, post.
Qed.

(** ** Compact twice *)
Lemma under_same target p q : op_path p = op_path q -> under target p -> under target q.
Proof. apply under_path. Qed.
(** What Compact leaves. *)
Record compacted (P : operation -> Prop) (HP : forall p, Decision (P p)) (L L' : logument) : Prop := Compacted {
  cp_version : l_version L' = l_version L;
  cp_snapshots : l_snapshots L' = l_snapshots L;
  cp_pool : l_pool L' = l_pool L;
  cp_current : l_current L' = l_current L;
  cp_patches : forall v, l_patches L' !! v = changes_among P (filter P (ops_between L 0 v)) <$> (l_patches L !! v)
}.
Lemma compacted_unique P HP L A B : compacted P HP L A -> compacted P HP L B -> A = B.
Proof.
  intros [] []. apply logument_ext; try congruence. apply map_eq. intros v. congruence.
Qed.
Lemma compact_ok target h L h' L' : consistent L -> compact target (h, L) = ((h', L'), Ok tt) ->
  h' = h ∧ consistent L' ∧ compacted (under target) _ L L' ∧ ~ clash (filter (under target) (all_ops L)).
Proof.
  intros HC E. pose proof (compact_spec target h L HC) as H. destruct (compact_shape target h L HC) as (HSh & _).
  rewrite E in H, HSh. cbn [fst snd] in HSh. destruct H as ((-> & V1 & V2 & V3 & V4) & HP & HN).
  split; [done|]. split; [by eapply same_shape_consistent|]. split; [by constructor|done].
Qed.
Lemma compact_does target h L : consistent L -> ~ clash (filter (under target) (all_ops L)) ->
  exists L', compact target (h, L) = ((h, L'), Ok tt).
Proof.
  intros HC HN. pose proof (compact_spec target h L HC) as H.
  destruct (compact target (h, L)) as [[h' L'] [[]| |]]; [|done|done]. destruct H as ((-> & _) & _). by exists L'.
Qed.
Lemma compacted_last (P : operation -> Prop) HP L L' : (forall p q, op_path p = op_path q -> P p -> P q) -> compacted P HP L L' ->
  forall v k, same_last_value (last_on k (ops_between L 0 v)) (last_on k (ops_between L' 0 v)).
Proof.
  intros PP C v k. pose proof (cp_patches _ _ _ _ C) as HX.
  destruct (decide (P (Op OAdd k ANil 0))) as [Hu|Hu].
  - rewrite <- (last_on_filter P k (ops_between L 0 v)).
    2: { intros p Hp. by apply (PP (Op OAdd k ANil 0)). }
    rewrite <- (last_on_filter P k (ops_between L' 0 v)).
    2: { intros p Hp. by apply (PP (Op OAdd k ANil 0)). }
    rewrite (filter_concat_ops P L L' HX).
    destruct (changes_sim (filter P (ops_between L 0 v)) [] [] (sim_refl [])) as (HS & _). apply HS.
  - rewrite <- (last_on_filter (fun p => ~ P p) k (ops_between L 0 v)).
    2: { intros p Hp Hx. apply Hu. by apply (PP p). }
    rewrite <- (last_on_filter (fun p => ~ P p) k (ops_between L' 0 v)).
    2: { intros p Hp Hx. apply Hu. by apply (PP p). }
    rewrite (filter_concat_other P L L' HX). apply sim_refl.
Qed.
Lemma compacted_two (P Q : operation -> Prop) HP HQ L L1 L2 :
  (forall p q, op_path p = op_path q -> P p -> P q) -> (forall p q, op_path p = op_path q -> Q p -> Q q) ->
  compacted P HP L L1 -> compacted Q HQ L1 L2 -> compacted (fun p => P p ∨ Q p) _ L L2.
Proof.
  intros PP QQ C1 C2. pose proof (compacted_last P HP L L1 PP C1) as HL.
  destruct C1 as [A1 A2 A3 A4 A5], C2 as [B1 B2 B3 B4 B5]. constructor; try congruence.
  intros v. rewrite B5, A5. destruct (l_patches L !! v) as [ps|]; [|done]. cbn. f_equal.
  assert (OO : forall p q, op_path p = op_path q -> P p ∨ Q p -> P q ∨ Q q).
  { intros p q E [X|X]; [left; by apply (PP p)|right; by apply (QQ p)]. }
  apply changes_among_two; [done|done|..].
  - intros p Hp. rewrite !last_on_filter; [done|..].
    + intros q E. apply (OO p); [done|by left].
    + intros q E. by apply (PP p).
  - intros p Hp. rewrite !last_on_filter; [apply HL|..].
    + intros q E. by apply (QQ p).
    + intros q E. apply (OO p); [done|by right].
Qed.
Lemma all_ops_compacted P HP L L' : compacted P HP L L' ->
  filter (fun p => ~ P p) (all_ops L') = filter (fun p => ~ P p) (all_ops L).
Proof.
  intros C. unfold all_ops. rewrite (cp_version _ _ _ _ C). apply filter_concat_other. apply (cp_patches _ _ _ _ C).
Qed.
Lemma recompact_commute t t' h L h1 L1 h2 L2 : reachable (h, L) ->
  compact t (h, L) = ((h1, L1), Ok tt) -> compact t' (h1, L1) = ((h2, L2), Ok tt) ->
  exists L1', compact t' (h, L) = ((h, L1'), Ok tt) ∧ compact t (h, L1') = ((h2, L2), Ok tt).
Proof.
  intros HR E1 E2. apply reachable_consistent in HR. cbn in HR.
  destruct (compact_ok t h L h1 L1 HR E1) as (-> & HC1 & C1 & N1).
  destruct (compact_ok t' h L1 h2 L2 HC1 E2) as (-> & HC2 & C2 & N2).
  destruct (compact_does t' h L HR) as (L1' & E1').
  { intros H. apply (clash_either (under t) (under t')) in H as [H|H]; [done| |apply under_same..].
    apply N2. apply (clash_other (under t) (under t')); [apply under_same..|]. by rewrite (all_ops_compacted _ _ _ _ C1). }
  destruct (compact_ok t' h L h L1' HR E1') as (_ & HC1' & C1' & N1').
  destruct (compact_does t h L1' HC1') as (L2' & E2').
  { intros H. apply (clash_either (under t') (under t)) in H as [H|H]; [| |apply under_same..].
    - pose proof (compact_twice t' h L h L1' HR E1') as ET. by apply compact_ok in ET as (_ & _ & _ & ET).
    - apply N1. apply (clash_other (under t') (under t)); [apply under_same..|]. by rewrite <- (all_ops_compacted _ _ _ _ C1'). }
  exists L1'. split; [done|]. rewrite E2'. do 2 f_equal.
  destruct (compact_ok t h L1' h L2' HC1' E2') as (_ & _ & C2' & _).
  pose proof (compacted_two _ _ _ _ L L1 L2 (under_same t) (under_same t') C1 C2) as D.
  pose proof (compacted_two _ _ _ _ L L1' L2' (under_same t') (under_same t) C1' C2') as D'.
  eapply compacted_unique; [|exact D]. destruct D' as [A1 A2 A3 A4 A5]. constructor; try done.
  intros v. rewrite A5. destruct (l_patches L !! v) as [ps|]; [|done]. cbn. f_equal.
  rewrite (filter_ext_iff (fun p => under t' p ∨ under t p) (fun p => under t p ∨ under t' p)) by tauto.
  apply changes_among_ext. tauto.
Qed.
Lemma under_longer t r p : under (t +++ r) p -> under t p.
Proof. intros (x & H). exists (r +++ x). by rewrite sapp_assoc in H. Qed.
Lemma recompact_nested t r h L h1 L1 : reachable (h, L) -> compact t (h, L) = ((h1, L1), Ok tt) ->
  compact (t +++ r) (h1, L1) = ((h1, L1), Ok tt).
Proof.
  intros HR E1. apply reachable_consistent in HR. cbn in HR.
  destruct (compact_ok t h L h1 L1 HR E1) as (-> & HC1 & C1 & N1).
  destruct (compact_does (t +++ r) h L1 HC1) as (L2 & E2).
  { intros H. pose proof (compact_twice t h L h L1 HR E1) as ET. apply compact_ok in ET as (_ & _ & _ & ET); [|done].
    apply ET. apply (clash_filter _ _ (under_same _)) in H as (pre & p & q & post & E & HQ & H1 & H2).
    apply (clash_filter _ _ (under_same _)). exists pre, p, q, post. split; [done|]. split; [by apply under_longer in HQ|done]. }
  rewrite E2. do 2 f_equal. destruct (compact_ok (t +++ r) h L1 h L2 HC1 E2) as (_ & _ & C2 & _).
  pose proof (compacted_two _ _ _ _ L L1 L2 (under_same t) (under_same (t +++ r)) C1 C2) as D.
  eapply compacted_unique; [|exact C1]. destruct D as [A1 A2 A3 A4 A5]. constructor; try done.
  assert (HU : forall p, under t p ∨ under (t +++ r) p <-> under t p).
  { intros p. split; [|by left]. intros [H|H]; [done|by apply under_longer in H]. }
  intros v. rewrite A5. destruct (l_patches L !! v) as [ps|]; [|done]. cbn. f_equal.
  rewrite (filter_ext_iff (fun p => under t p ∨ under (t +++ r) p) (under t)) by done.
  by apply changes_among_ext.
Qed.
Lemma recompact_inside t r h L h1 L1 : reachable (h, L) -> compact t (h, L) = ((h1, L1), Ok tt) ->
  exists L1', compact (t +++ r) (h, L) = ((h, L1'), Ok tt) ∧ compact t (h, L1') = ((h1, L1), Ok tt).
Proof. intros HR E. apply (recompact_commute t (t +++ r) h L h1 L1 h1 L1); [done|done|]. by eapply recompact_nested. Qed.

(** ** Later queries *)
Lemma clash_after t t' h L h1 L1 : consistent L -> compact t (h, L) = ((h1, L1), Ok tt) ->
  clash (filter (under t') (all_ops L1)) <-> clash (filter (under t') (all_ops L)).
Proof.
  intros HR E1. destruct (compact_ok t h L h1 L1 HR E1) as (-> & HC1 & C1 & N1). split; intros H.
  - apply (clash_either (under t) (under t')) in H as [H|H]; [| |apply under_same..].
    + pose proof (compact_twice t h L h L1 HR E1) as ET. by apply compact_ok in ET as (_ & _ & _ & ET).
    + apply (clash_other (under t) (under t')); [apply under_same..|]. by rewrite <- (all_ops_compacted _ _ _ _ C1).
  - apply (clash_either (under t) (under t')) in H as [H|H]; [done| |apply under_same..].
    apply (clash_other (under t) (under t')); [apply under_same..|]. by rewrite (all_ops_compacted _ _ _ _ C1).
Qed.
Lemma sorted_keys_same {A} (m m' : gmap N A) : (forall v, is_Some (m !! v) <-> is_Some (m' !! v)) -> sorted_keys m = sorted_keys m'.
Proof.
  intros H. apply sorted_unique_lt; [apply sorted_keys_sorted..|].
  apply NoDup_Permutation; [apply sorted_keys_nodup..|]. intros v. rewrite !sorted_keys_elem. apply H.
Qed.
Lemma concat_filter_map (P : operation -> Prop) {HPd : forall p, Decision (P p)} (f g : N -> list operation) vs :
  (forall v, filter P (f v) = filter P (g v)) -> filter P (concat (map f vs)) = filter P (concat (map g vs)).
Proof. intros H. induction vs as [|v vs IH]; [done|]. cbn. by rewrite !filter_app, H, IH. Qed.
Lemma collect_history_same t (f g : N -> list operation) vs : (forall v, filter (under t) (f v) = filter (under t) (g v)) ->
  collect_history t (map f vs) = collect_history t (map g vs).
Proof.
  intros H. unfold collect_history. f_equal. rewrite !(filter_bool _ (under t)) by apply on_target_under.
  by apply concat_filter_map.
Qed.
Lemma compacted_keys P HP L L' : compacted P HP L L' -> sorted_keys (l_patches L') = sorted_keys (l_patches L).
Proof. intros C. apply sorted_keys_same. intros v. rewrite (cp_patches _ _ _ _ C). by rewrite fmap_is_Some. Qed.
Lemma recompact_history orc t t' h L h1 L1 : reachable (h, L) -> compact t' (h, L) = ((h1, L1), Ok tt) ->
  snd (history orc t (h1, L1)) = snd (history orc t (h, L)).
Proof.
  intros HR E1. apply reachable_consistent in HR. cbn in HR.
  destruct (compact_ok t' h L h1 L1 HR E1) as (-> & HC1 & C1 & N1).
  pose proof (clash_after t' t h L h L1 HR E1) as HCl.
  unfold history. rewrite (consistent_continuous _ HR), (consistent_continuous _ HC1). cbn [negb].
  pose proof (compact_spec t h L HR) as S0. pose proof (compact_spec t h L1 HC1) as S1.
  destruct (compact t (h, L)) as [[hA LA] rA] eqn:EA, (compact t (h, L1)) as [[hB LB] rB] eqn:EB.
  destruct rA as [[]| |]; [|done|].
  - destruct rB as [[]| |]; [|done|tauto].
    destruct (compact_ok t h L hA LA HR EA) as (-> & HCA & CA & _).
    destruct (compact_ok t h L1 hB LB HC1 EB) as (-> & HCB & CB & _).
    pose proof (compacted_two _ _ _ _ L L1 LB (under_same t') (under_same t) C1 CB) as D.
    rewrite (compacted_keys _ _ _ _ D), (compacted_keys _ _ _ _ CA), (cp_snapshots _ _ _ _ D), (cp_snapshots _ _ _ _ CA).
    destruct (read h _); [|done]. cbn [snd]. f_equal. apply collect_history_same. intros v.
    unfold patch_at. rewrite (cp_patches _ _ _ _ D), (cp_patches _ _ _ _ CA).
    destruct (l_patches L !! v) as [ps|]; [|done]. cbn.
    assert (PP := under_same t). assert (PP' := under_same t').
    rewrite !(filter_changes_among (under t) _ PP); [|done|tauto]. f_equal. rewrite !list_filter_filter.
    apply filter_ext_iff. tauto.
  - destruct rB as [[]| |]; [tauto|done|done].
Qed.
Lemma under_empty p : under "" p.
Proof. apply on_target_under. unfold on_target. apply has_prefix_spec. by eexists. Qed.
Lemma compact_versions_ext sel sel' vs : (forall p, sel p = sel' p) -> forall latest L,
  compact_versions sel latest L vs = compact_versions sel' latest L vs.
Proof.
  intros H. assert (HF : forall ps b latest, change_filter sel b latest ps = change_filter sel' b latest ps).
  { induction ps as [|p ps IH]; intros b latest; [done|]. cbn [change_filter]. rewrite H, IH.
    destruct (sel' p); [|done]. destruct (keep_change latest p) as [x| |]; [|done|done]. cbn. by rewrite IH. }
  induction vs as [|v vs IH]; intros latest L; [done|]. cbn [compact_versions]. rewrite HF.
  destruct (change_filter _ _ _ _) as [[]| |]; [apply IH|done|done].
Qed.
Lemma recompact_track h L n : reachable (h, L) -> last (l_version L) = Some n ->
  fst (track 0 n (h, L)) = fst (compact "" (h, L)) ∧
  snd (track 0 n (h, L)) = match snd (compact "" (h, L)) with Ok _ => Ok (l_patches L) | _ => Panic end.
Proof.
  intros HR Hn. apply reachable_consistent in HR. cbn in HR. unfold track, compact. rewrite (consistent_continuous _ HR). cbn [negb].
  destruct HR as (k & Hv & Hp & _). assert (Hl := consistent_last _ _ Hv). rewrite Hl.
  assert (n = N.of_nat k) as ->.
  { unfold last_version in Hl. congruence. }
  rewrite N.ltb_irrefl. destruct (N.ltb_spec (N.of_nat k) 0) as [X|_]; [lia|]. cbn [orb].
  assert (EK : keys_in 0 (N.of_nat k) (l_patches L) = l_patches L).
  { apply map_eq. intros v. rewrite keys_in_lookup. case_decide as X; [done|].
    destruct (l_patches L !! v) eqn:E; [|done]. destruct X. assert (HX : is_Some (l_patches L !! v)) by done.
    apply Hp in HX. lia. }
  rewrite EK, (compact_versions_ext (fun _ => true) (on_target "")).
  2: { intros p. symmetry. apply on_target_under, under_empty. }
  by destruct (compact_versions _ _ _ _) as [L2 [[]| |]].
Qed.

(** ** TemporalTrack *)
Lemma changes_all s l : changes_among (under "") (filter (under "") s) l = changes s l.
Proof.
  rewrite <- changes_among_all. rewrite (filter_ext_iff (under "") (fun _ => True)), filter_all.
  - apply changes_among_ext. intros p. split; [done|]. intros _. apply under_empty.
  - intros p. split; [done|]. intros _. apply under_empty.
Qed.
Lemma clash_all l : clash (filter (under "") l) <-> clash l.
Proof.
  rewrite (filter_ext_iff (under "") (fun _ => True)), filter_all; [done|].
  intros p. split; [done|]. intros _. apply under_empty.
Qed.
Lemma temporal_track_same tsi tsj h L h' L' : consistent L -> consistent L' ->
  (clash (filter (in_range tsi tsj) (all_ops L)) <-> clash (filter (in_range tsi tsj) (all_ops L'))) ->
  (forall v, changes (filter (in_range tsi tsj) (ops_between L 0 v)) (filter (in_range tsi tsj) (patch_at L v)) =
     changes (filter (in_range tsi tsj) (ops_between L' 0 v)) (filter (in_range tsi tsj) (patch_at L' v))) ->
  snd (temporal_track tsi tsj (h, L)) = snd (temporal_track tsi tsj (h', L')).
Proof.
  intros HC HC' HCl HX. destruct (temporal_track_spec tsi tsj h L HC) as [_ A]. destruct (temporal_track_spec tsi tsj h' L' HC') as [_ B].
  destruct (snd (temporal_track tsi tsj (h, L))) as [m| |], (snd (temporal_track tsi tsj (h', L'))) as [m'| |]; try done.
  - f_equal. apply map_eq. intros v. destruct A as [_ A], B as [_ B]. rewrite A, B, HX. done.
  - destruct A as [[A1 A2] _], B as [B|B]; [lia|tauto].
  - destruct B as [[A1 A2] _], A as [B|B]; [lia|tauto].
Qed.
Lemma filter_every (P : operation -> Prop) {HPd : forall p, Decision (P p)} (l : list operation) : (forall p, p ∈ l -> P p) -> filter P l = l.
Proof.
  induction l as [|p l IH]; intros H; [done|]. rewrite filter_cons, decide_True by (apply H; left). f_equal. apply IH.
  intros q Hq. apply H. by right.
Qed.
Lemma filter_none (P : operation -> Prop) {HPd : forall p, Decision (P p)} (l : list operation) : (forall p, p ∈ l -> ~ P p) -> filter P l = [].
Proof.
  induction l as [|p l IH]; intros H; [done|]. rewrite filter_cons, decide_False by (apply H; left). apply IH.
  intros q Hq. apply H. by right.
Qed.
Lemma patch_in_all L v p : consistent L -> p ∈ patch_at L v -> p ∈ all_ops L.
Proof.
  intros HC H. apply (ops_in_all L v (v + 1)); [done|]. by rewrite ops_between_snoc, ops_between_empty by lia.
Qed.
Lemma compacted_elem P HP L L' v p : compacted P HP L L' -> p ∈ patch_at L' v -> p ∈ patch_at L v.
Proof.
  intros C. unfold patch_at. rewrite (cp_patches _ _ _ _ C). destruct (l_patches L !! v); [|done]. cbn.
  intros H. eapply elem_of_submseteq; [done|]. apply sublist_submseteq, changes_among_sublist.
Qed.
Lemma elem_ops L lo hi p : p ∈ ops_between L lo hi -> exists v, p ∈ patch_at L v.
Proof.
  rewrite ops_between_range. intros H. apply elem_of_list_In, in_concat in H as (ps & H1 & H2).
  apply in_map_iff in H1 as (v & <- & _). exists v. by apply elem_of_list_In.
Qed.
Lemma recompact_temporal_track t a b h L h1 L1 : reachable (h, L) -> compact t (h, L) = ((h1, L1), Ok tt) ->
  (forall p, p ∈ all_ops L -> a <= op_ts p <= b) ->
  snd (temporal_track a b (h1, L1)) = snd (temporal_track a b (h, L)).
Proof.
  intros HR E1 HA. apply reachable_consistent in HR. cbn in HR.
  destruct (compact_ok t h L h1 L1 HR E1) as (-> & HC1 & C1 & N1).
  assert (HA1 : forall v p, p ∈ patch_at L1 v -> in_range a b p).
  { intros v p H. apply HA. eapply patch_in_all; [done|]. by eapply compacted_elem. }
  assert (HO1 : forall lo hi, filter (in_range a b) (ops_between L1 lo hi) = ops_between L1 lo hi).
  { intros lo hi. apply filter_every. intros p H. apply elem_ops in H as (v & H). by eapply HA1. }
  assert (HO : forall lo hi, filter (in_range a b) (ops_between L lo hi) = ops_between L lo hi).
  { intros lo hi. apply filter_every. intros p H. apply HA. by eapply ops_in_all. }
  apply temporal_track_same; [done|done|..].
  - unfold all_ops. rewrite HO, HO1. fold (all_ops L) (all_ops L1).
    rewrite <- clash_all, <- (clash_all (all_ops L)). by eapply clash_after.
  - intros v. rewrite HO, HO1, !filter_every; [|intros p H; apply HA; by eapply patch_in_all|by apply HA1].
    rewrite <- (changes_all (ops_between L1 0 v)), <- (changes_all (ops_between L 0 v)).
    unfold patch_at. rewrite (cp_patches _ _ _ _ C1). destruct (l_patches L !! v) as [ps|]; [|done]. cbn.
    rewrite (changes_among_two (under t) (under "") (under_same t) (under_same "") ps (filter (under "") (ops_between L 0 v))).
    + apply changes_among_ext. intros p. split; [by intros _; apply under_empty|by right].
    + intros p Hp. rewrite !last_on_filter; [done|intros; apply under_empty|intros q E; by apply (under_same t p)].
    + intros p Hp. rewrite !last_on_filter by (intros; apply under_empty). eapply compacted_last; [apply under_same|done].
Qed.

(** ** Logs in time order *)
Lemma changes_split l : forall s s' pre q post, sim s s' -> changes s l = pre ++ q :: post -> changed (s' ++ pre) q.
Proof.
  induction l as [|p l IH]; intros s s' pre q post HS E; cbn [changes] in E; [by destruct pre|].
  destruct (decide (changed s p)) as [C|C]; cbn [app] in E.
  - destruct pre as [|x pre].
    + injection E as -> E. rewrite app_nil_r. by apply (sim_changed _ _ _ HS).
    + injection E as -> E. change (x :: pre) with ([x] ++ pre). rewrite app_assoc. eapply IH; [|exact E]. by apply sim_snoc.
  - eapply IH; [|exact E]. by apply sim_skip.
Qed.
Lemma changes_keep y : forall x, (forall pre q post, y = pre ++ q :: post -> changed (x ++ pre) q) -> changes x y = y.
Proof.
  induction y as [|p y IH]; intros x H; [done|]. cbn [changes]. rewrite decide_True.
  - cbn. f_equal. apply IH. intros pre q post ->. rewrite <- app_assoc. apply (H (p :: pre) q post). done.
  - specialize (H [] p y eq_refl). by rewrite app_nil_r in H.
Qed.
Lemma sorted_app_pair (l : list operation) pre q post : StronglySorted (fun p q => op_ts p <= op_ts q) l -> l = pre ++ q :: post ->
  forall p, p ∈ pre -> op_ts p <= op_ts q.
Proof.
  intros HS ->. revert HS. induction pre as [|x pre IH]; intros HS p Hp; [by apply elem_of_nil in Hp|].
  apply StronglySorted_inv in HS as [HS HF]. apply elem_of_cons in Hp as [->|Hp]; [|by apply IH].
  rewrite Forall_forall in HF. apply HF. set_solver.
Qed.
Lemma ss_app_l (a b : list operation) : StronglySorted (fun p q => op_ts p <= op_ts q) (a ++ b) -> StronglySorted (fun p q => op_ts p <= op_ts q) a.
Proof.
  induction a as [|x a IH]; intros H; [constructor|]. apply StronglySorted_inv in H as [HS HF].
  constructor; [auto|]. rewrite Forall_app in HF. tauto.
Qed.
Lemma ss_sublist (l l' : list operation) : l `sublist_of` l' -> StronglySorted (fun p q => op_ts p <= op_ts q) l' ->
  StronglySorted (fun p q => op_ts p <= op_ts q) l.
Proof.
  intros HX. induction HX as [|x l l' HX IH|x l l' HX IH]; intros H; [done|..]; apply StronglySorted_inv in H as [HS HF].
  - constructor; [auto|]. rewrite Forall_forall in *. intros y Hy. apply HF. eapply elem_of_submseteq; [done|]. by apply sublist_submseteq.
  - auto.
Qed.
Lemma last_on_range a b k pre (HS : StronglySorted (fun p q => op_ts p <= op_ts q) pre) : (forall p, p ∈ pre -> op_ts p <= b) ->
  last_on k (filter (in_range a b) pre) = None ∨ last_on k (filter (in_range a b) pre) = last_on k pre.
Proof.
  induction pre as [|x pre IH] using rev_ind; intros HB; [by left|].
  assert (HS' : StronglySorted (fun p q => op_ts p <= op_ts q) pre) by (by eapply ss_app_l).
  rewrite filter_app, filter_cons, filter_nil, last_on_snoc. destruct (decide (in_range a b x)) as [X|X].
  - rewrite last_on_snoc. case_decide as E; [by right|]. apply IH; [done|]. intros p Hp. apply HB. set_solver.
  - rewrite app_nil_r. left. unfold in_range in X.
    assert (HX : op_ts x <= b) by (apply HB; set_solver).
    rewrite filter_none; [done|]. intros p Hp. unfold in_range. pose proof (sorted_app_pair _ pre x [] HS eq_refl p Hp). lia.
Qed.
(** A list without repetitions, in time order, has none among the operations of a time range. *)
Lemma range_changed a b C pre q post : StronglySorted (fun p q => op_ts p <= op_ts q) C -> filter (in_range a b) C = pre ++ q :: post ->
  exists pre' post', C = pre' ++ q :: post' ∧ filter (in_range a b) pre' = pre ∧
    (last_on (op_path q) pre = None ∨ last_on (op_path q) pre = last_on (op_path q) pre').
Proof.
  intros HS E. destruct (filter_split (in_range a b) C _ _ _ E) as (x & y & -> & <- & _ & HQ).
  exists x, y. split; [done|]. split; [done|]. apply last_on_range; [by eapply ss_app_l|].
  intros p Hp. pose proof (sorted_app_pair _ x q y HS eq_refl p Hp). unfold in_range in HQ. lia.
Qed.
Lemma compacted_all L L1 : compacted (under "") _ L L1 -> forall v, ops_between L1 0 v = changes [] (ops_between L 0 v).
Proof.
  intros C v. pose proof (filter_concat_ops (under "") L L1 (cp_patches _ _ _ _ C) v) as H.
  rewrite !filter_every in H by (intros; apply under_empty). done.
Qed.
Lemma recompact_ordered a b h L h1 L1 : reachable (h, L) -> compact "" (h, L) = ((h1, L1), Ok tt) ->
  StronglySorted (fun p q => op_ts p <= op_ts q) (all_ops L) -> a <= b ->
  exists m, snd (temporal_track a b (h1, L1)) = Ok m ∧
    forall v, m !! v = match filter (in_range a b) (changes (ops_between L 0 v) (patch_at L v)) with [] => None | ps => Some ps end.
Proof.
  intros HR E1 HS Hab. apply reachable_consistent in HR. cbn in HR.
  destruct (compact_ok "" h L h1 L1 HR E1) as (-> & HC1 & C1 & N1).
  pose proof (compacted_all L L1 C1) as HO.
  assert (ES : forall v, StronglySorted (fun p q => op_ts p <= op_ts q) (ops_between L1 0 v)).
  { intros v. rewrite HO. rewrite <- changes_among_all. eapply ss_sublist; [apply changes_among_sublist|].
    destruct HR as (n & Hv & Hr). assert (HR : consistent L) by (by exists n).
    destruct (decide (N.of_nat n + 1 <= v)%N) as [X|X]; [by rewrite (ops_beyond L n v HR Hv X)|].
    rewrite <- (ops_beyond L n (N.of_nat n + 1)%N HR Hv) in HS by lia.
    rewrite (ops_between_le L 0 v (N.of_nat n + 1)) in HS by lia. by apply ss_app_l in HS. }
  destruct (temporal_track_spec a b h L1 HC1) as [_ A].
  assert (NC : ~ clash (filter (in_range a b) (all_ops L1))).
  { intros (pre & p & q & post & E & H1 & H2). destruct (range_changed a b _ pre q post (ES _) E) as (x & y & EC & Ex & [HX|HX]); [congruence|].
    apply N1. apply (clash_after "" "" h L h L1 HR E1). apply clash_all. exists x, p, q, y. split; [done|]. split; [congruence|done]. }
  destruct (snd (temporal_track a b (h, L1))) as [m| |]; [|done|destruct A; [lia|done]].
  exists m. split; [done|]. intros v. destruct A as [_ A]. rewrite A.
  assert (EP : patch_at L1 v = changes (ops_between L 0 v) (patch_at L v)).
  { unfold patch_at. rewrite (cp_patches _ _ _ _ C1). destruct (l_patches L !! v); [|done]. cbn. apply changes_all. }
  rewrite <- EP. rewrite changes_keep; [done|]. intros pre q post E.
  assert (EC : filter (in_range a b) (ops_between L1 0 (v + 1)) = (filter (in_range a b) (ops_between L1 0 v) ++ pre) ++ q :: post).
  { rewrite ops_between_snoc, filter_app, E by lia. by rewrite app_assoc. }
  destruct (range_changed a b _ _ q post (ES _) EC) as (x & y & EX & _ & HX).
  rewrite HO in EX. pose proof (changes_split _ [] [] x q y (sim_refl []) EX) as HQ. cbn in HQ.
  rewrite changed_model. rewrite changed_model in HQ. destruct HX as [-> | ->]; done.
Qed.
(** Nothing new is reported. *)
Lemma range_fewer a b l : forall s, StronglySorted (fun p q => op_ts p <= op_ts q) (s ++ l) ->
  filter (in_range a b) (changes s l) `sublist_of` changes (filter (in_range a b) s) (filter (in_range a b) l).
Proof.
  induction l as [|p l IH]; intros s HS; [done|]. cbn [changes]. rewrite filter_app, (filter_cons (in_range a b) p l).
  assert (HS' : StronglySorted (fun p q => op_ts p <= op_ts q) ((s ++ [p]) ++ l)) by (by rewrite <- app_assoc).
  specialize (IH _ HS'). rewrite filter_app in IH. destruct (decide (in_range a b p)) as [X|X].
  - cbn [changes]. rewrite (filter_cons (in_range a b) p []), (decide_True _ _ X), filter_nil in IH.
    destruct (decide (changed s p)) as [C|C].
    + rewrite decide_True.
      * rewrite filter_cons, (decide_True _ _ X), filter_nil. by apply sublist_app.
      * rewrite changed_model. rewrite changed_model in C. destruct (last_on_range a b (op_path p) s) as [-> | ->]; [|..|done].
        -- by apply ss_app_l in HS.
        -- intros q Hq. pose proof (sorted_app_pair _ s p l HS eq_refl q Hq). unfold in_range in X. lia.
        -- done.
    + rewrite filter_nil. by apply sublist_inserts_l.
  - rewrite (filter_cons (in_range a b) p []), (decide_False _ _ X), filter_nil, app_nil_r in IH.
    destruct (decide (changed s p)); [|done]. by rewrite filter_cons, (decide_False _ _ X).
Qed.
Lemma recompact_ordered_fewer a b h L h1 L1 : reachable (h, L) -> compact "" (h, L) = ((h1, L1), Ok tt) ->
  StronglySorted (fun p q => op_ts p <= op_ts q) (all_ops L) -> a <= b ->
  exists m m', snd (temporal_track a b (h, L)) = Ok m ∧ snd (temporal_track a b (h1, L1)) = Ok m' ∧
    (forall v, m' !! v = match filter (in_range a b) (changes (ops_between L 0 v) (patch_at L v)) with [] => None | ps => Some ps end) ∧
    forall v, default [] (m' !! v) `sublist_of` default [] (m !! v).
Proof.
  intros HR E1 HS Hab. destruct (recompact_ordered a b h L h1 L1 HR E1 HS Hab) as (m' & Em' & Hm').
  apply reachable_consistent in HR. cbn in HR.
  destruct (compact_ok "" h L h1 L1 HR E1) as (-> & HC1 & C1 & N1).
  destruct (temporal_track_spec a b h L HR) as [_ A].
  assert (NC : ~ clash (filter (in_range a b) (all_ops L))).
  { intros (pre & p & q & post & E & H1 & H2). destruct (range_changed a b _ pre q post HS E) as (x & y & EC & Ex & [HX|HX]); [congruence|].
    apply N1, clash_all. exists x, p, q, y. split; [done|]. split; [congruence|done]. }
  destruct (snd (temporal_track a b (h, L))) as [m| |]; [|done|destruct A; [lia|done]].
  exists m, m'. split; [done|]. split; [done|]. split; [done|]. intros v. destruct A as [_ A]. rewrite A, Hm'.
  assert (HX : filter (in_range a b) (changes (ops_between L 0 v) (patch_at L v)) `sublist_of`
    changes (filter (in_range a b) (ops_between L 0 v)) (filter (in_range a b) (patch_at L v))).
  { apply range_fewer. rewrite <- ops_between_snoc by lia. 
    destruct HR as (n & Hv & Hr). assert (HR : consistent L) by (by exists n).
    destruct (decide (N.of_nat n + 1 <= v + 1)%N) as [X|X]; [by rewrite (ops_beyond L n (v + 1) HR Hv X)|].
    rewrite <- (ops_beyond L n (N.of_nat n + 1)%N HR Hv) in HS by lia.
    rewrite (ops_between_le L 0 (v + 1) (N.of_nat n + 1)) in HS by lia. by apply ss_app_l in HS. }
  by destruct (filter _ (changes _ _)), (changes (filter _ _) _).
Qed.
Lemma recompact_covered t r h L h1 L1 : reachable (h, L) -> compact t (h, L) = ((h1, L1), Ok tt) ->
  compact (t +++ r) (h1, L1) = ((h1, L1), Ok tt) ∧
  exists L1', compact (t +++ r) (h, L) = ((h, L1'), Ok tt) ∧ compact t (h, L1') = ((h1, L1), Ok tt).
Proof. intros HR E. split; [by eapply recompact_nested|by apply recompact_inside]. Qed.
