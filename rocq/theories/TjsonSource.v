(** Where the values shown by a snapshot of a temporal JSON document come from. *)
From Verif Require Import Base BaseSpec F64 Tson TsonInd BaseLemmas BaseSpecLemmas Tjson TjsonSpec TjsonLemmas.
From Coq Require Import Lia.

Lemma kids_inv t cs k s : NoDup (akeys cs) -> alookup k (kids t cs) = Some s ->
  exists c, alookup k cs = Some c ∧ s = snapshot_item t c ∧ s ≠ JNull.
Proof.
  induction cs as [|[k' c'] cs IH]; [done|]. inversion 1 as [|? ? Hk Hn]; subst.
  cbn [alookup kids]. intros E. destruct (is_null (snapshot_item t c')) eqn:En.
  - case_decide as Hd; [|by apply IH]. subst k'. exfalso. apply Hk, (kids_keys t).
    apply alookup_Some_in, (elem_of_list_fmap_1 fst) in E. exact E.
  - cbn [alookup] in E. case_decide as Hd; [|by apply IH]. injection E as <-. exists c'. split; [done|]. split; [done|].
    intros E. by rewrite E in En.
Qed.

Lemma snap_source t l v : forall i, twf i ->
  (forall pre x m, (x, JObj m) ∈ vers_below pre i -> NoDup (map fst m)) ->
  below l (snapshot_item t i) = Some v -> (forall m, v ≠ JObj m) ->
  (l = [] ∧ v = JNull) ∨
  exists pre r x w, l = pre ++ r ∧ (x, w) ∈ vers_below pre i ∧ below r w = Some v ∧ (v = JNull -> r ≠ []).
Proof.
  induction l as [|k l IH]; intros [p vs cs] Hi Hnd E Hv; rewrite snapshot_item_eq in E.
  - cbn [below] in E. injection E as E.
    assert (Hd : v = JNull ∨ exists x, (x, v) ∈ vs).
    { destruct cs as [|c cs], vs as [|d vs]; [by left|..];
        (destruct (choose_version t _ None) as [u|] eqn:Ec; [|destruct (kids t _); [by left|by destruct (Hv _ (eq_sym E))]]);
        apply choose_in in Ec as [Ec|Ec]; try done;
        (destruct u; [subst v..|by destruct (Hv _ (eq_sym E))]); auto. }
    assert (Hor : v = JNull ∨ v ≠ JNull) by (destruct v; auto).
    destruct Hor as [->|Hnn]; [by left|]. right. destruct Hd as [Hd|[x Hd]]; [done|]. exists [], [], x, v.
    split; [done|]. split; [exact Hd|]. done.
  - right. apply twf_children in Hi as [Hncs Hcs].
    assert (Hkid : forall s, alookup k (kids t cs) = Some s -> below l s = Some v ->
      exists pre r x w, k :: l = pre ++ r ∧ (x, w) ∈ vers_below pre (TItem p vs cs) ∧ below r w = Some v ∧ (v = JNull -> r ≠ [])).
    { intros s Hs Hb. destruct (kids_inv t cs k s Hncs Hs) as (c & Hc & -> & Hnn).
      assert (Hsub : forall pre, vers_below (k :: pre) (TItem p vs cs) = vers_below pre c).
      { intros pre. unfold vers_below. cbn [find_below ti_children]. by rewrite Hc. }
      assert (Hndc : forall pre x m, (x, JObj m) ∈ vers_below pre c -> NoDup (map fst m)).
      { intros pre x m Hx. apply (Hnd (k :: pre) x). by rewrite Hsub. }
      destruct (IH c (Hcs _ _ Hc) Hndc Hb Hv) as [[-> ->]|(pre & r & x & w & -> & Hx & Hr & Hn)].
      - exfalso. apply Hnn. by injection Hb.
      - exists (k :: pre), r, x, w. rewrite Hsub. done. }
    assert (HC : match choose_version t vs None with
            | Some (JObj m) => below (k :: l) (JObj (merge_into (merge_into [] m) (kids t cs))) = Some v
            | Some _ => False
            | None => below (k :: l) (JObj (kids t cs)) = Some v
            end).
    { destruct cs as [|c cs], vs as [|d vs]; [done|..];
        (destruct (choose_version t _ None) as [u|]; [by destruct u|by destruct (kids t _)]). }
    destruct (choose_version t vs None) as [u|] eqn:Ec.
    + destruct u as [| | | | |m]; try done. apply choose_in in Ec as [Ec|[x Hx]]; [done|].
      cbn [below] in HC. rewrite merge_lookup in HC by by apply kids_nodup.
      destruct (alookup k (kids t cs)) as [s|] eqn:Es; [by eapply Hkid|].
      rewrite merge_lookup in HC by exact (Hnd [] x m Hx).
      exists [], (k :: l), x, (JObj m). split; [done|]. split; [done|]. split; [|done]. cbn [below].
      by destruct (alookup k m).
    + cbn [below] in HC. destruct (alookup k (kids t cs)) as [s|] eqn:Es; [|done]. by eapply Hkid.
Qed.

Lemma snapshot_lookup_inv d t k s : NoDup (akeys d) -> alookup k (tj_snapshot d t) = Some s ->
  exists i, alookup k d = Some i ∧ s = snapshot_item t i ∧ s ≠ JNull.
Proof.
  unfold tj_snapshot. induction d as [|[k' c'] d IH]; [done|]. inversion 1 as [|? ? Hk Hn]; subst.
  cbn [alookup map List.filter fst snd]. destruct (is_null (snapshot_item t c')) eqn:En; cbn [negb].
  - intros E. case_decide as Hd; [|by apply IH]. subst k'. destruct (IH Hn E) as (i & Hi & _). exfalso. apply Hk.
    apply alookup_Some_in, (elem_of_list_fmap_1 fst) in Hi. exact Hi.
  - cbn [alookup]. intros E. case_decide as Hd; [|by apply IH]. injection E as <-. exists c'. split; [done|]. split; [done|].
    intros E. by rewrite E in En.
Qed.

Lemma snapshot_source srt ord now ps t l v :
  sorting tp_ts srt -> (forall m, Permutation (ord m) m) ->
  (forall p m, p ∈ ps -> tp_value p = JObj m -> NoDup (map fst m)) ->
  below l (JObj (tj_snapshot (from_patches srt ord now ps) t)) = Some v -> (forall m, v ≠ JObj m) ->
  exists p pre r, p ∈ ps ∧ sets p pre ∧ l = pre ++ r ∧ (2 <= length pre)%nat ∧
    below r (tp_value p) = Some v ∧ (v = JNull -> r ≠ []).
Proof.
  intros Hs Ho Hnd E Hv. destruct l as [|k l]; [injection E as <-; by destruct (Hv _ eq_refl)|].
  set (d := from_patches srt ord now ps) in *. pose proof (from_patches_wf srt ord now ps) as [Hn Hd]. fold d in Hn, Hd.
  cbn [below] in E. destruct (alookup k (tj_snapshot d t)) as [s|] eqn:Es; [|done].
  destruct (snapshot_lookup_inv d t k s Hn Es) as (i & Hi & -> & Hnn).
  assert (Hsub : forall pre, vers_below pre i = vers d (k :: pre)).
  { intros pre. unfold vers_below, vers. cbn [find_item]. by rewrite Hi. }
  assert (Hsrc : forall pre x w, (x, w) ∈ vers_below pre i -> exists p, p ∈ ps ∧ sets p (k :: pre) ∧ tp_value p = w).
  { intros pre x w Hx. rewrite Hsub in Hx. apply (vers_src srt ord now ps) in Hx as (p & Hp & Hset & Hpath & Hw); [|done..].
    exists p. split; [done|]. split; [|done]. apply sets_setp. split; [done|]. by apply route_split. }
  assert (Hti : twf i) by exact (alookup_Forall (fun c => twf c) k i d Hd Hi).
  assert (Hndi : forall pre x m, (x, JObj m) ∈ vers_below pre i -> NoDup (map fst m)).
  { intros pre x m Hx. destruct (Hsrc _ _ _ Hx) as (p & Hp & _ & Hw). by eapply Hnd. }
  destruct (snap_source t l v i Hti Hndi E Hv) as [[-> ->]|(pre & r & x & w & -> & Hx & Hr & Hnull)].
  - exfalso. apply Hnn. by injection E.
  - destruct (Hsrc _ _ _ Hx) as (p & Hp & Hset & <-). exists p, (k :: pre), r. split; [done|]. split; [done|].
    split; [done|]. split; [|done]. destruct pre; [|cbn; lia]. exfalso. rewrite Hsub in Hx. unfold d in Hx.
    rewrite one_name_vers in Hx. by apply elem_of_nil in Hx.
Qed.
