(** Facts about BuildFromLeafNodes. *)
From Verif Require Import Base BaseLemmas BaseSpec Tjson TjsonSpec TjsonLemmas F64 Bytes BytesLemmas Vss VssSpec VssLemmas VssPlace VssGen VssData VssNext VssTidy.
From Coq Require Import Lia.

Lemma keyed_and (P Q : string -> Prop) d : keyed P d -> keyed Q d -> keyed (fun k => P k ∧ Q k) d.
Proof.
  induction d as [|b|f|z|s|l IH|m IH] using wjson_ind'; intros HP HQ; try (apply ky_scalar; [by intros []|done]).
  - inversion HP as [|? FP|? ? Hn]; subst; [|by destruct (Hn l)]. inversion HQ as [|? FQ|? ? Hn]; subst; [|by destruct (Hn l)].
    apply ky_arr. rewrite Forall_forall in IH, FP, FQ |- *. intros x Hx. by apply IH; [|apply FP|apply FQ].
  - apply keyed_map in HP as [HN FP]. apply keyed_map in HQ as [_ FQ]. apply keyed_map. split; [done|].
    rewrite Forall_forall in IH, FP, FQ |- *. intros kv Hx. destruct (FP _ Hx), (FQ _ Hx). split; [done|]. by apply IH.
Qed.
Lemma ends_with_split a s : ends_with a s = true -> exists r, s = r +++ String a "".
Proof.
  induction s as [|b s IH]; [done|]. destruct s as [|c s].
  - cbn. intros ->%bool_decide_eq_true. by exists "".
  - intros H. destruct IH as (r & ->); [exact H|]. by exists (String b r).
Qed.
Lemma bracketed_index k : ~ index_name k -> bracketed k = None.
Proof.
  intros H. destruct k as [|a s]; [done|]. unfold bracketed. case_decide as E; [|done]. subst a.
  destruct (ends_with "]" s) eqn:Es; [|done]. destruct H.
  apply ends_with_split in Es as (r & ->). by exists r.
Qed.
Lemma build_place v l : forall m, free_way l m -> Forall (fun k => ~ index_name k) l -> build v l m = place (Some v) l m.
Proof.
  induction l as [|k l IH]; intros m HF HB; [by inversion HF|]. inversion HB as [|? ? Hk HB']; subst.
  assert (Eb : forall m, build v (k :: l) m = match l with [] => Ok (ainsert k v m) | _ =>
     match default (WObj []) (alookup k m) with WObj n => do n' <- build v l n; Ok (ainsert k (WObj n') m) | _ => Ok m end end).
  { intros m'. cbn [build]. by rewrite (bracketed_index k Hk). }
  rewrite Eb. clear Eb. inversion HF as [? ? ? Hn|? ? ? n En Un Fn]; subst.
  - apply alookup_None_iff in Hn. cbn [place]. rewrite Hn. cbn [default]. destruct l as [|k' l]; [done|].
    rewrite IH; [done|by apply free_way_nil|done].
  - cbn [place]. rewrite En. cbn [default]. destruct l as [|k' l]; [by inversion Fn|]. unfold id. by rewrite IH.
Qed.
Definition parts_of (px : string * wjson) : list string * option wjson := (split_on dot (fst px), Some (snd px)).
Lemma build_all_place P L : forall m, keyed P (WObj m) -> ~ stamped (WObj m) ->
  Forall (fun lv => free_way (fst lv) m ∧ keyed P (default (WObj []) (snd lv)) ∧ Forall P (fst lv) ∧ Forall (.≠ "timestamp") (fst lv)) (map parts_of L) ->
  Forall (fun lv => Forall (fun k => ~ index_name k) (fst lv)) (map parts_of L) ->
  ForallOrdPairs (fun a b => unrelated (fst a) (fst b)) (map parts_of L) ->
  build_all L m = place_all (map parts_of L) m.
Proof.
  induction L as [|[p x] L IH]; intros m HK Hs HF HB HU; [done|]. cbn [map] in *.
  inversion HF as [|? ? (F1 & F2 & F3 & F4) HF']; subst. inversion HB as [|? ? B1 HB']; subst.
  inversion HU as [|? ? U1 U2]; subst. cbn [build_all place_all parts_of fst snd] in *.
  destruct (place_ok P (Some x) (split_on dot p) m) as (m1 & E & K1 & S1 & L1 & W1); [done..|].
  rewrite build_place by done. rewrite E. cbn [rbind]. apply IH; [done|done| |done|done].
  rewrite Forall_forall in HF', U1 |- *. intros lv Hin. destruct (HF' _ Hin) as (G1 & G2 & G3 & G4).
  destruct (U1 _ Hin) as [N1 N2]. cbn [fst snd] in *. split; [|done]. by apply W1.
Qed.
Lemma visible_in k l : k ∈ visible l -> k ∈ l.
Proof.
  destruct l as [|k0 l]; [done|]. cbn [visible]. rewrite !elem_of_cons. intros [->|H]; [by left|]. right.
  apply elem_of_list_In, filter_In in H as [H _]. by apply elem_of_list_In.
Qed.
Lemma visible_forall (P : string -> Prop) l : Forall P l -> Forall P (visible l).
Proof. rewrite !Forall_forall. intros H k Hk. apply H. by apply visible_in. Qed.
Lemma build_exact d : is_map d -> ~ stamped d -> keyed (fun k => schema_name k ∧ ~ index_name k) d ->
  (forall l l' x x', leaf_at d l x -> leaf_at d l' x' -> visible l `prefix_of` visible l' -> l = l') ->
  exists r, build_from_leaf_nodes d = Ok r ∧ is_map r ∧ keyed (fun k => schema_name k ∧ ~ index_name k) r ∧
    (forall q x, leaf_at r q x <-> exists l, leaf_at d l x ∧ q = visible l) ∧
    ((forall l x q, leaf_at d l x -> ~ item x q (WObj [])) -> forall q, q ≠ [] -> ~ item r q (WObj [])).
Proof.
  intros Dm Do Dk Dp. set (P := fun k => schema_name k ∧ ~ index_name k) in *.
  assert (Dn : keyed schema_name d) by (eapply keyed_impl; [|exact Dk]; by intros k []).
  assert (Hin : forall p x, (p, x) ∈ leaf_nodes d <-> exists l, leaf_at d l x ∧ p = dotted l).
  { intros p x. apply leaf_nodes_spec; [done|]. by apply schema_nonempty. }
  assert (Hpath : forall l x, leaf_at d l x -> visible l ≠ [] ∧ Forall P (visible l) ∧ split_on dot (dotted l) = visible l).
  { intros l x Hl. assert (Hne : visible l ≠ []).
    { destruct l; [|done]. inversion Hl as [? Hd|]; subst. by destruct Hd. }
    assert (HN : Forall P (visible l)) by (apply visible_forall; exact (leaf_at_names _ _ _ _ Dk Hl)).
    split; [done|]. split; [done|]. apply split_names; [done|]. eapply Forall_impl; [exact HN|]. by intros k []. }
  assert (HF : Forall (fun lv => free_way (fst lv) [] ∧ keyed P (default (WObj []) (snd lv)) ∧ Forall P (fst lv) ∧ Forall (.≠ "timestamp") (fst lv))
     (map parts_of (leaf_nodes d))).
  { apply Forall_forall. intros lv (px & -> & Hpx)%elem_of_list_fmap. destruct px as [p x].
    apply Hin in Hpx as (l & Hl & ->). cbn [parts_of fst snd default]. destruct (Hpath _ _ Hl) as (H1 & H2 & ->).
    split; [by apply free_way_nil|]. split; [exact (leaf_at_keyed _ _ _ _ Dk Hl)|]. split; [done|].
    apply visible_forall. exact (leaf_at_no_stamp _ _ _ Hl). }
  assert (HU : ForallOrdPairs (fun a b => unrelated (fst a) (fst b)) (map parts_of (leaf_nodes d))).
  { apply (pairs_of parts_of (fun a b => unrelated (fst a) (fst b))).
    - apply NoDup_fmap_1 with (f := fst). apply leaf_nodes_distinct; [done|].
      intros l l' x x' Hl Hl' E. apply (Dp l l' x x'); [done|done|]. by rewrite E.
    - intros [p x] [p' x'] (l & Hl & ->)%Hin (l' & Hl' & ->)%Hin Hne. cbn [parts_of fst].
      destruct (Hpath _ _ Hl) as (_ & _ & ->). destruct (Hpath _ _ Hl') as (_ & _ & ->).
      assert (Hnn : l ≠ l').
      { intros ->. apply Hne. f_equal. exact (leaf_at_fun _ d Dn l' x x' Hl Hl'). }
      split; intros Hpre; apply Hnn; [|symmetry].
      + exact (Dp l l' x x' Hl Hl' Hpre).
      + exact (Dp l' l x' x Hl' Hl Hpre). }
  destruct (place_all_ok P (map parts_of (leaf_nodes d)) []) as (r & Er & Kr & Ur & Lr);
    [apply keyed_nil|apply unstamped_nil|done|done|].
  exists (WObj r). unfold build_from_leaf_nodes.
  rewrite (build_all_place P), Er; [|apply keyed_nil|apply unstamped_nil|done| |done].
  - split; [done|]. split; [by eexists|]. split; [done|]. split; [intros q x; rewrite Lr; split|].
    + intros [H|(l & v & t & Hl & -> & Ht)]; [by destruct (leaf_at_empty _ _ H)|].
      apply elem_of_list_fmap in Hl as ([p y] & [= -> ->] & Hpx). apply Hin in Hpx as (l & Hl & ->). cbn [fst snd default] in *.
      destruct (Hpath _ _ Hl) as (_ & _ & ->). apply leaf_at_leaf in Ht as [-> ->]; [|clear -Hl; by induction Hl].
      rewrite app_nil_r. by exists l.
    + intros (l & Hl & ->). right. exists (visible l), (Some x), []. split.
      * apply elem_of_list_fmap. exists (dotted l, x). unfold parts_of. cbn [fst snd]. destruct (Hpath _ _ Hl) as (_ & _ & ->).
        split; [done|]. apply Hin. by exists l.
      * rewrite app_nil_r. split; [done|]. cbn [default]. apply leaf_at_leaf; [|done]. clear -Hl. by induction Hl.
    + intros Hne. apply (place_all_full _ _ _) with (3 := Er); [|apply full_nil].
      intros l v ([p x] & [= -> ->] & Hpx)%elem_of_list_fmap. apply Hin in Hpx as (l & Hl & ->). cbn [fst snd].
      destruct (Hpath _ _ Hl) as (H1 & _ & ->). split; [done|]. exists x. split; [done|]. intros q. by apply (Hne l).
  - rewrite Forall_forall in HF |- *. intros lv Hlv. destruct (HF _ Hlv) as (_ & _ & H & _).
    eapply Forall_impl; [exact H|]. by intros k [].
Qed.
