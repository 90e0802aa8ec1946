(** Proofs about patch generation: when it succeeds. *)
From Verif Require Import Base F64 Tson TsonInd BaseLemmas TsonSpec Heap Patch PatchSpec Diff DiffSpec DiffLemmas ArrayDiff TotalSpec.
From Coq Require Import Lia.

Lemma kind_type a b : Diff.same_type a b = true <-> same_kind a b.
Proof.
  split.
  - destruct a as [|[] ?| |], b as [|[] ?| |]; try done; constructor.
  - by destruct 1.
Qed.
Lemma leaf_dec (t : tson) : {is_leaf t} + {~ is_leaf t}.
Proof. destruct t; [right|left|right|right]; try (by intros (? & ? & ?)). by eexists _, _. Qed.

(** ** The greedy matching *)
Lemma unmatched_assign ms : forall os i used, exists M : list (nat * nat),
  (forall a b, (a, b) ∈ M -> exists n x y, a = (i + n)%nat ∧ os !! n = Some x ∧ ms !! b = Some y ∧ tson_deep_eq x y = true ∧ b ∉ used) ∧
  NoDup (map fst M) ∧ NoDup (map snd M) ∧
  (forall a v, (a, v) ∈ unmatched os i ms used <-> exists n, a = (i + n)%nat ∧ os !! n = Some v ∧ a ∉ map fst M) ∧
  (forall n x b y, os !! n = Some x -> (i + n)%nat ∉ map fst M -> ms !! b = Some y -> tson_deep_eq x y = true -> b ∈ used ∨ b ∈ map snd M).
Proof.
  intros os. induction os as [|o os IH]; intros i used.
  - exists []. split; [by intros a b H%elem_of_nil|]. split; [constructor|]. split; [constructor|]. split; [|done].
    intros a v. split; [by intros H%elem_of_nil|]. by intros (n & _ & H & _).
  - cbn [unmatched]. destruct (find_match o ms used 0) as [j|] eqn:E.
    + apply find_match_some in E as (n0 & y0 & -> & Hn0 & Hv0 & Hj & _). cbn [Nat.add] in *.
      destruct (IH (S i) (n0 :: used)) as (M & H1 & H2 & H3 & H4 & H5). exists ((i, n0) :: M). split; [|split; [|split; [|split]]].
      * intros a b [[= -> ->]|Hin]%elem_of_cons.
        -- exists 0%nat, o, y0. split; [lia|]. done.
        -- destruct (H1 a b Hin) as (n & x & y & -> & Hx & Hy & He & Hu). exists (S n), x, y. split; [lia|]. split; [done|]. split; [done|].
           split; [done|]. set_solver.
      * cbn [map fst]. apply NoDup_cons. split; [|done]. intros ([a b] & Ea & Hin)%elem_of_list_fmap. cbn [fst] in Ea. subst a.
        destruct (H1 _ _ Hin) as (n & ? & ? & ? & _). lia.
      * cbn [map snd]. apply NoDup_cons. split; [|done]. intros ([a b] & Ea & Hin)%elem_of_list_fmap. cbn [snd] in Ea. subst b.
        destruct (H1 _ _ Hin) as (n & ? & ? & ? & _ & _ & _ & Hu). set_solver.
      * intros a v. rewrite H4. cbn [map fst]. split.
        -- intros (n & -> & Hn & Hni). exists (S n). split; [lia|]. split; [done|]. rewrite not_elem_of_cons. split; [lia|done].
        -- intros ([|n] & -> & Hn & Hni); rewrite not_elem_of_cons in Hni; destruct Hni as [Hne Hni]; [lia|].
           exists n. split; [lia|]. done.
      * intros n x b y Hn Hni Hy He. cbn [map fst] in Hni. rewrite not_elem_of_cons in Hni. destruct Hni as [Hne Hni]. destruct n as [|n]; [lia|].
        cbn [map snd]. replace (i + S n)%nat with (S i + n)%nat in Hni by lia. destruct (H5 n x b y Hn Hni Hy He); set_solver.
    + destruct (IH (S i) used) as (M & H1 & H2 & H3 & H4 & H5). exists M. split; [|split; [done|split; [done|split]]].
      * intros a b Hin. destruct (H1 a b Hin) as (n & x & y & -> & Hx & Hy & He & Hu). exists (S n), x, y. split; [lia|]. done.
      * assert (Hi : i ∉ map fst M).
        { intros ([a b] & Ea & Hin)%elem_of_list_fmap. cbn [fst] in Ea. subst a. destruct (H1 _ _ Hin) as (n & ? & ? & ? & _). lia. }
        intros a v. rewrite elem_of_cons, H4. split.
        -- intros [[= -> ->]|(n & -> & Hn & Hni)]; [exists 0%nat; split; [lia|done]|]. exists (S n). split; [lia|done].
        -- intros ([|n] & -> & Hn & Hni).
           ++ left. injection Hn as ->. by rewrite Nat.add_0_r.
           ++ right. exists n. split; [lia|]. done.
      * intros [|n] x b y Hn Hni Hy He.
        -- left. injection Hn as ->. exact (find_match_none x ms used 0 E b y Hy He).
        -- replace (i + S n)%nat with (S i + n)%nat in Hni by lia. by apply (H5 n x b y).
Qed.
Lemma process_assign os ms : Forall wf os -> Forall wf ms -> exists M : list (nat * nat),
  (forall a b, (a, b) ∈ M -> exists x y, os !! a = Some x ∧ ms !! b = Some y ∧ same_content x y) ∧
  NoDup (map fst M) ∧ NoDup (map snd M) ∧
  (forall a v, (a, v) ∈ process_array os ms <-> os !! a = Some v ∧ a ∉ map fst M) ∧
  (forall a x b y, os !! a = Some x -> a ∉ map fst M -> ms !! b = Some y -> same_content x y -> b ∈ map snd M).
Proof.
  intros Wo Wm. destruct (unmatched_assign ms os 0 []) as (M & H1 & H2 & H3 & H4 & H5). exists M.
  assert (Heq : forall a b x y, os !! a = Some x -> ms !! b = Some y -> tson_deep_eq x y = true <-> same_content x y).
  { intros a b x y Hx Hy. apply deep_eq_same; [exact (Forall_lookup_1 _ _ _ _ Wo Hx)|exact (Forall_lookup_1 _ _ _ _ Wm Hy)]. }
  split; [|split; [done|split; [done|split]]].
  - intros a b Hin. destruct (H1 a b Hin) as (n & x & y & -> & Hx & Hy & He & _). exists x, y. split; [done|]. split; [done|]. by eapply Heq.
  - intros a v. unfold process_array. rewrite H4. split.
    + by intros (n & -> & Hn & Hni).
    + intros [Hn Hni]. by exists a.
  - intros a x b y Hx Hni Hy He. destruct (H5 a x b y Hx Hni Hy) as [H|H]; [by eapply Heq|by apply elem_of_nil in H|done].
Qed.
Lemma same_leaf x y : same_content x y -> is_leaf x -> is_leaf y.
Proof. intros H (p & ts & ->). inversion H; subst. by eexists _, _. Qed.
Lemma process_leaves os ms : Forall wf os -> Forall wf ms ->
  (forall a v, (a, v) ∈ process_array ms os -> is_leaf v) <-> reused os ms.
Proof.
  intros Wo Wm. destruct (process_assign ms os Wm Wo) as (M & H1 & H2 & H3 & H4 & H5). split.
  - intros HL. set (f := fun a => match list_find (fun p => fst p = a) M with Some (_, (_, b)) => b | None => 0%nat end).
    assert (Hf : forall j v, ms !! j = Some v -> ~ is_leaf v -> (j, f j) ∈ M).
    { intros j v Hj Hv. destruct (decide (j ∈ map fst M)) as [Hin|Hni]; [|destruct Hv; apply (HL j), H4; done].
      unfold f. destruct (list_find (fun p => fst p = j) M) as [[n [a b]]|] eqn:E.
      - apply list_find_Some in E as (Hn & Ha & _). cbn [fst] in Ha. subst a. by eapply elem_of_list_lookup_2.
      - apply list_find_None in E. apply elem_of_list_fmap in Hin as ([a b] & -> & Hin). rewrite Forall_forall in E. by destruct (E _ Hin). }
    exists f. split.
    + intros j v Hj Hv. destruct (H1 _ _ (Hf j v Hj Hv)) as (x & y & Hx & Hy & He). rewrite Hj in Hx. injection Hx as <-.
      exists y. split; [done|by apply same_sym].
    + intros j j' v v' Hj Hj' Hv Hv' Ef. assert (G := Hf j v Hj Hv). assert (G' := Hf j' v' Hj' Hv'). rewrite <- Ef in G'.
      apply elem_of_list_lookup in G as (n & Hn). apply elem_of_list_lookup in G' as (n' & Hn').
      assert (n = n'); [|congruence]. rewrite NoDup_alt in H3. apply (H3 n n' (f j)); rewrite list_lookup_fmap; [by rewrite Hn|by rewrite Hn'].
  - intros (f & F1 & F2) j0 v0 Hin. destruct (leaf_dec v0) as [|Hl]; [done|exfalso]. apply H4 in Hin as [Hj0 Hni].
    destruct (F1 j0 v0 Hj0 Hl) as (u0 & Hu0 & He0).
    set (C := List.filter (fun j => match ms !! j with Some w => tson_deep_eq w v0 | None => false end) (seq 0 (length ms))).
    assert (Wv0 : wf v0) by (eapply Forall_lookup_1; [exact Wm|done]).
    assert (HC : forall j, j ∈ C <-> exists w, ms !! j = Some w ∧ same_content w v0).
    { intros j. unfold C. rewrite elem_of_list_In, filter_In, <- elem_of_list_In, elem_of_seq. split.
      - intros [_ Hd]. destruct (ms !! j) as [w|] eqn:Ew; [|done]. exists w. split; [done|]. apply deep_eq_same; [|done|done].
        eapply Forall_lookup_1; [exact Wm|done].
      - intros (w & Hw & He). split; [apply lookup_lt_Some in Hw; lia|]. rewrite Hw. apply deep_eq_same; [|done|done].
        eapply Forall_lookup_1; [exact Wm|done]. }
    assert (NC : NoDup C) by (apply NoDup_ListNoDup, List.NoDup_filter, NoDup_ListNoDup, NoDup_seq).
    assert (HCl : forall j w, ms !! j = Some w -> same_content w v0 -> ~ is_leaf w) by (intros j w _ He Hw; apply Hl; by eapply same_leaf).
    set (M' := List.filter (fun p => bool_decide (fst p ∈ C)) M).
    assert (HM' : forall a b, (a, b) ∈ M' <-> (a, b) ∈ M ∧ a ∈ C).
    { intros a b. unfold M'. rewrite elem_of_list_In, filter_In, <- elem_of_list_In. cbn [fst]. by rewrite bool_decide_eq_true. }
    assert (L1 : (length (map f C) <= length (map snd M'))%nat).
    { apply NoDup_incl_length.
      - apply NoDup_ListNoDup, NoDup_alt. intros n n' b Hn Hn'. rewrite list_lookup_fmap in Hn, Hn'.
        apply fmap_Some in Hn as (j & Hn & ->). apply fmap_Some in Hn' as (j' & Hn' & Ef).
        destruct (proj1 (HC j)) as (w & Hw & Hws); [by eapply elem_of_list_lookup_2|]. destruct (proj1 (HC j')) as (w' & Hw' & Hws'); [by eapply elem_of_list_lookup_2|].
        assert (j = j') by (eapply F2; eauto). subst j'. rewrite NoDup_alt in NC. by apply (NC n n' j).
      - intros b (j & <- & Hj)%in_map_iff. apply elem_of_list_In in Hj. destruct (proj1 (HC j) Hj) as (w & Hw & Hws).
        destruct (F1 j w Hw) as (u & Hu & Hus); [by eapply HCl|].
        assert (Hb : f j ∈ map snd M) by (apply (H5 j0 v0 (f j) u); [done|done|done|]; apply same_sym; by eapply same_trans).
        apply elem_of_list_fmap in Hb as ([a b] & Eb & Hin). cbn [snd] in Eb. subst b. apply in_map_iff. exists (a, f j). split; [done|].
        apply elem_of_list_In, HM'. split; [done|]. apply HC. destruct (H1 _ _ Hin) as (x & y & Hx & Hy & He). rewrite Hu in Hy. injection Hy as <-.
        exists x. split; [done|]. eapply same_trans; [exact He|]. by eapply same_trans. }
    assert (L2 : (length (j0 :: map fst M') <= length C)%nat).
    { apply NoDup_incl_length.
      - apply NoDup_ListNoDup. apply NoDup_cons. split.
        + intros ([a b] & -> & [Hin _]%HM')%elem_of_list_fmap. apply Hni. apply elem_of_list_fmap. by exists (a, b).
        + unfold M'. clear -H2. induction M as [|[a b] M IH]; [constructor|]. cbn [map fst] in H2. apply NoDup_cons in H2 as [Ha H2]. cbn [List.filter fst].
          destruct (bool_decide (a ∈ C)); [|by apply IH]. cbn [map fst]. apply NoDup_cons. split; [|by apply IH].
          intros ([a' b'] & -> & Hin)%elem_of_list_fmap. apply Ha. apply elem_of_list_In, filter_In in Hin as [Hin _].
          apply elem_of_list_fmap. exists (a', b'). split; [done|by apply elem_of_list_In].
      - intros j [<-|([a b] & <- & Hin)%in_map_iff].
        + apply elem_of_list_In, HC. exists v0. split; [done|]. eapply same_trans; [apply same_sym|]; exact He0.
        + apply elem_of_list_In in Hin. apply HM' in Hin as [_ ?]. by apply elem_of_list_In. }
    cbn [length] in L2. rewrite !map_length in L1. rewrite map_length in L2. lia.
Qed.

(** ** Arrays of different lengths *)
Lemma adds_outcome p l : match array_adds p l with
  | Ok _ => forall a v, (a, v) ∈ l -> is_leaf v
  | Err => False
  | Panic => exists a v, (a, v) ∈ l ∧ ~ is_leaf v
  end.
Proof.
  induction l as [|[i v] l IH]; cbn [array_adds]; [by intros a v H%elem_of_nil|].
  destruct (leaf_dec v) as [(x & ts & ->)|Hv].
  - destruct (array_adds p l) as [r| |]; cbn [rbind]; [|done|].
    + intros a v [[= -> ->]|H]%elem_of_cons; [by eexists _, _|by eapply IH].
    + destruct IH as (a & v & H & Hv). exists a, v. split; [by right|done].
  - assert (E : match v with TLeaf x ts => do r <- array_adds p l; Ok (Op OAdd (idx_path p i) (any_of_prim x) ts :: r) | _ => Panic end = Panic).
    { destruct v; try done. destruct Hv. by eexists _, _. }
    rewrite E. exists i, v. split; [by left|done].
Qed.
Lemma compare_outcome os ms p : Forall wf os -> Forall wf ms -> match compare_array os ms p with
  | Ok _ => reused os ms
  | Err => False
  | Panic => ~ reused os ms
  end.
Proof.
  intros Wo Wm. unfold compare_array. assert (H := adds_outcome p (process_array ms os)). assert (HP := process_leaves os ms Wo Wm).
  destruct (array_adds p (process_array ms os)) as [r| |]; cbn [rbind]; [by apply HP|done|].
  intros Hr. destruct H as (a & v & Hin & Hv). apply Hv. by apply (proj2 HP Hr a).
Qed.
Lemma updates_outcome p ms : forall os i, match array_updates p os ms i with
  | Ok _ => plain_tail os ms
  | Err => False
  | Panic => ~ plain_tail os ms
  end.
Proof.
  induction ms as [|m ms IH]; intros os i; cbn [array_updates]; [by intros j v _ H|].
  destruct os as [|o os].
  - cbn [tail]. destruct (leaf_dec m) as [(x & ts & ->)|Hm].
    + cbn [rbind]. specialize (IH [] (S i)). destruct (array_updates p [] ms (S i)); cbn [rbind]; [|done|].
      * intros [|j] v _ Hj; [injection Hj as <-; by eexists _, _|]. apply (IH j v); [cbn; lia|done].
      * intros H. apply IH. intros j v _ Hj. apply (H (S j) v); [cbn; lia|done].
    + assert (Hn : ~ plain_tail [] (m :: ms)) by (intros H; apply Hm, (H 0%nat m); [cbn; lia|done]).
      destruct m; try done. destruct Hm. by eexists _, _.
  - set (here := if matches_value o m && matches_timestamp o m then _ else _).
    assert (Hh : exists r, here = Ok r) by (unfold here; destruct (_ && _); [by eexists|]; destruct m; by eexists).
    destruct Hh as (r & ->). cbn [rbind tail]. specialize (IH os (S i)). destruct (array_updates p os ms (S i)); cbn [rbind]; [|done|].
    + intros [|j] v Hlt Hj; [cbn in Hlt; lia|]. apply (IH j v); [cbn in Hlt; lia|done].
    + intros H. apply IH. intros j v Hlt Hj. apply (H (S j) v); [cbn; lia|done].
Qed.
Lemma length_outcome (wt : bool) os ms p : Forall wf os -> Forall wf ms ->
  match (if wt then compare_array_ts os ms p else compare_array os ms p) with
  | Ok _ => if wt then plain_tail os ms else reused os ms
  | Err => False
  | Panic => ~ (if wt then plain_tail os ms else reused os ms)
  end.
Proof.
  intros Wo Wm. destruct wt; [|by apply compare_outcome]. unfold compare_array_ts.
  assert (H := updates_outcome p ms os 0). by destruct (array_updates p os ms 0).
Qed.

(** ** The whole *)
Definition outcome (wt : bool) (a b : tson) (r : res (list operation)) : Prop :=
  match r with
  | Ok _ => forall br, ~ obstacle wt br a b
  | Err => obstacle wt false a b
  | Panic => obstacle wt true a b
  end.
(** The obstacles at one common or new member. *)
Definition member_obstacle (wt : bool) (mo : list (string * tson)) (br : bool) (k : string) (v : tson) : Prop :=
  match alookup k mo with
  | None => br = false ∧ ~ is_leaf v
  | Some u => same_kind u v ∧ obstacle wt br u v ∨ ~ same_kind u v ∧ br = false ∧ ~ is_leaf v
  end.
Lemma emit_outcome k p v : match emit_leaf k p v with Ok _ => is_leaf v | Err => ~ is_leaf v | Panic => False end.
Proof. destruct v; cbn [emit_leaf]; try (by intros (? & ? & ?)). by eexists _, _. Qed.
Lemma members_outcome wt mo path mm :
  Forall (fun kv => wf (snd kv) -> forall a path, wf a -> outcome wt a (snd kv) (handle_values wt a (snd kv) path)) mm ->
  Forall (fun kv => wf (snd kv)) mo -> Forall (fun kv => wf (snd kv)) mm ->
  match hv_members wt mo path mm with
  | Ok _ => forall k v br, (k, v) ∈ mm -> ~ member_obstacle wt mo br k v
  | Err => exists k v, (k, v) ∈ mm ∧ member_obstacle wt mo false k v
  | Panic => exists k v, (k, v) ∈ mm ∧ member_obstacle wt mo true k v
  end.
Proof.
  intros HF Wo. induction HF as [|[k v] mm Hv HF IH]; intros Wm; [by intros k v br H%elem_of_nil|].
  rewrite hv_members_cons. inversion Wm as [|? ? Wv Wm']; subst. cbn [snd] in Hv, Wv. specialize (IH Wm').
  assert (Hhere : match (match alookup k mo with
      | None => emit_leaf OAdd (make_path path k) v
      | Some ov => if Diff.same_type ov v then handle_values wt ov v (make_path path k) else emit_leaf OReplace (make_path path k) v
      end) with
    | Ok _ => forall br, ~ member_obstacle wt mo br k v
    | Err => member_obstacle wt mo false k v
    | Panic => member_obstacle wt mo true k v
    end).
  { unfold member_obstacle. destruct (alookup k mo) as [u|] eqn:Ek.
    - assert (Wu : wf u) by (apply alookup_Some_in in Ek; rewrite Forall_forall in Wo; exact (Wo _ Ek)).
      destruct (Diff.same_type u v) eqn:Et.
      + apply kind_type in Et. specialize (Hv Wv u (make_path path k) Wu). unfold outcome in Hv. destruct (handle_values wt u v (make_path path k)).
        * intros br [[_ H]|[H _]]; [by destruct (Hv br)|done].
        * by left.
        * by left.
      + assert (Hk : ~ same_kind u v) by (rewrite <- kind_type; by rewrite Et).
        assert (He := emit_outcome OReplace (make_path path k) v). destruct (emit_leaf OReplace (make_path path k) v); [|by right|done].
        intros br [[H _]|(_ & _ & H)]; done.
    - assert (He := emit_outcome OAdd (make_path path k) v). destruct (emit_leaf OAdd (make_path path k) v); [|done|done].
      by intros br [_ H]. }
  destruct (match alookup k mo with Some _ => _ | None => _ end) as [here| |]; cbn [rbind].
  - destruct (hv_members wt mo path mm) as [rest| |]; cbn [rbind].
    + intros k' v' br [[= -> ->]|Hin]%elem_of_cons; [by apply Hhere|by apply IH].
    + destruct IH as (k' & v' & Hin & H). exists k', v'. split; [by right|done].
    + destruct IH as (k' & v' & Hin & H). exists k', v'. split; [by right|done].
  - exists k, v. split; [by left|done].
  - exists k, v. split; [by left|done].
Qed.
Lemma removed_outcome path mo mm : match diff_removed path mo mm with
  | Ok _ => forall k, (k, TNil) ∈ mo -> alookup k mm ≠ None
  | Err => False
  | Panic => exists k, (k, TNil) ∈ mo ∧ alookup k mm = None
  end.
Proof.
  induction mo as [|[k v] mo IH]; cbn [diff_removed]; [by intros k H%elem_of_nil|].
  set (here := match alookup k mm with Some _ => _ | None => _ end).
  assert (Hh : match here with Ok _ => v = TNil -> alookup k mm ≠ None | Err => False | Panic => v = TNil ∧ alookup k mm = None end).
  { unfold here. by destruct (alookup k mm); [|destruct v]. }
  destruct here; cbn [rbind].
  - destruct (diff_removed path mo mm); cbn [rbind].
    + intros k' [[= -> <-]|Hin]%elem_of_cons; [by apply Hh|by apply IH].
    + done.
    + destruct IH as (k' & Hin & H). exists k'. split; [by right|done].
  - done.
  - destruct Hh as [-> H]. exists k. split; [by left|done].
Qed.
Lemma elems_outcome wt path lm :
  Forall (fun v => wf v -> forall a path, wf a -> outcome wt a v (handle_values wt a v path)) lm -> Forall wf lm ->
  forall lo i, Forall wf lo ->
  match hv_elems wt path i lo lm with
  | Ok _ => forall n u v br, lo !! n = Some u -> lm !! n = Some v -> ~ obstacle wt br u v
  | Err => exists n u v, lo !! n = Some u ∧ lm !! n = Some v ∧ obstacle wt false u v
  | Panic => exists n u v, lo !! n = Some u ∧ lm !! n = Some v ∧ obstacle wt true u v
  end.
Proof.
  intros HF. induction HF as [|v lm Hv HF IH]; intros Wm lo i Wo; [by destruct lo|]. destruct lo as [|u lo]; [by intros n u v' br H|].
  rewrite hv_elems_cons. inversion Wm as [|? ? Wv Wm']; subst. inversion Wo as [|? ? Wu Wo']; subst.
  specialize (Hv Wv u (idx_path path i) Wu). unfold outcome in Hv. specialize (IH Wm' lo (S i) Wo').
  destruct (handle_values wt u v (idx_path path i)); cbn [rbind].
  - destruct (hv_elems wt path (S i) lo lm); cbn [rbind].
    + intros [|n] u' v' br Hu Hv'; [injection Hu as <-; injection Hv' as <-; apply Hv|by apply (IH n)].
    + destruct IH as (n & u' & v' & H). by exists (S n), u', v'.
    + destruct IH as (n & u' & v' & H). by exists (S n), u', v'.
  - by exists 0%nat, u, v.
  - by exists 0%nat, u, v.
Qed.
Lemma handle_outcome wt b : wf b -> forall a path, wf a -> outcome wt a b (handle_values wt a b path).
Proof.
  induction b as [|p ts|mm IH|lm IH] using tson_ind'; intros Wb a path Wa.
  - destruct a as [|p' ts'|mo|lo]; cbn.
    + intros br H. inversion H as [| | |? [(? & ?)|(? & ?)]| | | | | |]; done.
    + constructor. by inversion 1.
    + constructor. by inversion 1.
    + constructor; [by inversion 1|by intros (? & ? & ?)].
  - destruct a as [|p' ts'|mo|lo]; try rewrite handle_arr.
    + cbn. intros br H. inversion H as [| | |? [(? & ?)|(? & ?)]| | | | | |]; done.
    + cbn [handle_values]. destruct (Diff.same_type (TLeaf p' ts') (TLeaf p ts)) eqn:Et.
      * apply kind_type in Et. assert (H : forall br, ~ obstacle wt br (TLeaf p' ts') (TLeaf p ts)) by (intros br H; inversion H; done).
        by destruct (_ && _).
      * constructor. rewrite <- kind_type. by rewrite Et.
    + cbn. constructor. by inversion 1.
    + cbn. intros br H. inversion H as [| |? ? ? Hl| | | | | | |]; subst. apply Hl. by eexists _, _.
  - destruct a as [|p' ts'|mo|lo].
    + cbn. constructor. left. by eexists.
    + cbn. constructor. by inversion 1.
    + rewrite handle_obj. inversion Wa as [| |? No Fo|]; subst. inversion Wb as [| |? Nm Fm|]; subst.
      assert (HM := members_outcome wt mo path mm IH Fo Fm). assert (HR := removed_outcome path mo mm).
      assert (Hmem : forall k v br, (k, v) ∈ mm -> member_obstacle wt mo br k v -> obstacle wt br (TObj mo) (TObj mm)).
      { intros k v br Hin H. apply alookup_in in Hin; [|done]. unfold member_obstacle in H. destruct (alookup k mo) as [u|] eqn:Ek.
        - destruct H as [[H1 H2]|(H1 & -> & H2)]; [by eapply ob_member|by eapply ob_turned].
        - destruct H as [-> H]. by eapply ob_new. }
      destruct (hv_members wt mo path mm); cbn [rbind outcome].
      * destruct (diff_removed path mo mm); cbn [rbind outcome]; [|done|].
        -- intros br H. inversion H as [|? ? Hk| | |? ? k Hg1 Hg2|? ? k v Hn1 Hn2 Hn3|? ? k u v Ht1 Ht2 Ht3 Ht4|? ? ? k u v Hb1 Hb2 Hb3 Hb4| |]; subst.
           ++ apply Hk. constructor.
           ++ apply alookup_Some_in in Hg1. by apply (HR k).
           ++ apply (HM k v false); [by apply alookup_Some_in|]. unfold member_obstacle. by rewrite Hn1.
           ++ apply (HM k v false); [by apply alookup_Some_in|]. unfold member_obstacle. rewrite Ht1. by right.
           ++ apply (HM k v br); [by apply alookup_Some_in|]. unfold member_obstacle. rewrite Hb1. by left.
        -- destruct HR as (k & Hin & Hk). eapply ob_gone; [|exact Hk]. by apply alookup_in.
      * destruct HM as (k & v & Hin & H). by eapply Hmem.
      * destruct HM as (k & v & Hin & H). by eapply Hmem.
    + cbn. constructor; [by inversion 1|by intros (? & ? & ?)].
  - destruct a as [|p' ts'|mo|lo].
    + cbn. constructor. right. by eexists.
    + cbn. constructor. by inversion 1.
    + cbn. constructor. by inversion 1.
    + rewrite handle_arr. inversion Wa as [| | |? Fo]; subst. inversion Wb as [| | |? Fm]; subst.
      destruct (Nat.eqb (length lo) (length lm)) eqn:El.
      * apply Nat.eqb_eq in El. assert (HE := elems_outcome wt path lm IH Fm lo 0 Fo). destruct (hv_elems wt path 0 lo lm); cbn [outcome].
        -- intros br H. inversion H as [| |? ? Hk| | | | | |? ? ? n u v Hl Hu Hv Ho|? ? Hl]; subst; [by apply Hk; constructor|by apply (HE n u v br)|done].
        -- destruct HE as (n & u & v & Hu & Hv & H). by eapply ob_elem.
        -- destruct HE as (n & u & v & Hu & Hv & H). by eapply ob_elem.
      * apply Nat.eqb_neq in El. assert (HL := length_outcome wt lo lm path Fo Fm).
        destruct (if wt then compare_array_ts lo lm path else compare_array lo lm path); cbn [outcome]; [|done|].
        -- intros br H. inversion H as [| |? ? Hk| | | | | |? ? ? n u v Hl Hu Hv Ho|? ? Hl Hn]; subst; [by apply Hk; constructor|done|done].
        -- by apply ob_length.
Qed.
Lemma diff_outcome wt a b : wf a -> wf b -> outcome wt a b (handle_values wt a b "").
Proof. intros Wa Wb. by apply handle_outcome. Qed.
Lemma generate_outcome a b : wf a -> wf b ->
  ((exists ops, generate_patch a b = Ok ops) <-> forall br, ~ obstacle false br a b) ∧
  (generate_patch a b = Err -> obstacle false false a b) ∧
  (generate_patch a b = Panic -> obstacle false true a b).
Proof.
  intros Wa Wb. assert (H := diff_outcome false a b Wa Wb). unfold generate_patch. destruct (handle_values false a b ""); cbn in H.
  - split; [|done]. split; [done|]. intros _. by eexists.
  - split; [|done]. split; [by intros (? & ?)|]. intros Hn. by destruct (Hn false).
  - split; [|done]. split; [by intros (? & ?)|]. intros Hn. by destruct (Hn true).
Qed.
Lemma generate_ts_outcome a b : wf a -> wf b ->
  ((exists ops, generate_patch_with_timestamp a b = Ok ops) <-> forall br, ~ obstacle true br a b) ∧
  (generate_patch_with_timestamp a b = Err -> obstacle true false a b) ∧
  (generate_patch_with_timestamp a b = Panic -> obstacle true true a b).
Proof.
  intros Wa Wb. assert (H := diff_outcome true a b Wa Wb). unfold generate_patch_with_timestamp. destruct (handle_values true a b ""); cbn in H.
  - split; [|done]. split; [done|]. intros _. by eexists.
  - split; [|done]. split; [by intros (? & ?)|]. intros Hn. by destruct (Hn false).
  - split; [|done]. split; [by intros (? & ?)|]. intros Hn. by destruct (Hn true).
Qed.
