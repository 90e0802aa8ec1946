(** Facts about the vehicle data generator: putting leaves into a data set. *)
From Verif Require Import Base BaseLemmas BaseSpec Tjson TjsonSpec TjsonLemmas F64 Bytes BytesLemmas Vss VssSpec VssLemmas.
From Coq Require Import Lia.

(** The way to [l] ends in a place where [m] has nothing. *)
Inductive free_way : list string -> members -> Prop :=
| fw_new k l m : k ∉ map fst m -> free_way (k :: l) m
| fw_in k l m n : alookup k m = Some (WObj n) -> ~ stamped (WObj n) -> free_way l n -> free_way (k :: l) m.
Lemma free_way_ne l m : free_way l m -> l ≠ [].
Proof. by inversion 1. Qed.
Lemma free_way_nil l : l ≠ [] -> free_way l [].
Proof. destruct l; [done|]. intros _. constructor. cbn. set_solver. Qed.

Lemma keyed_map P m : keyed P (WObj m) <-> NoDup (map fst m) ∧ Forall (fun kv => P (fst kv) ∧ keyed P (snd kv)) m.
Proof.
  split.
  - inversion 1 as [? ? ?| |? Hd]; subst; [done|]. destruct Hd. by eexists.
  - intros []. by constructor.
Qed.
Lemma keyed_lookup P m k v : keyed P (WObj m) -> alookup k m = Some v -> P k ∧ keyed P v.
Proof.
  intros [_ H]%keyed_map E. rewrite Forall_forall in H. apply alookup_Some_in in E. by apply (H _ E).
Qed.
Lemma keyed_insert P m k v : keyed P (WObj m) -> P k -> keyed P v -> keyed P (WObj (ainsert k v m)).
Proof.
  rewrite !keyed_map. intros [HN HF] Hk Hv. split; [by apply NoDup_ainsert|].
  by apply Forall_ainsert.
Qed.
Lemma keyed_nil P : keyed P (WObj []).
Proof. constructor; constructor. Qed.
Lemma unstamped_nil : ~ stamped (WObj []).
Proof. rewrite stamped_lookup. by intros []. Qed.
Lemma unstamped_insert m k v : k ≠ "timestamp" -> ~ stamped (WObj m) -> ~ stamped (WObj (ainsert k v m)).
Proof. intros Hk. rewrite !stamped_lookup, alookup_ainsert_ne by done. done. Qed.
Lemma leaf_at_map P m q x : keyed P (WObj m) -> ~ stamped (WObj m) ->
  leaf_at (WObj m) q x <-> exists k l v, q = k :: l ∧ alookup k m = Some v ∧ leaf_at v l x.
Proof.
  intros [HN _]%keyed_map Hs. split.
  - inversion 1 as [d Hd|m' k v l x' _ Hin Hv]; subst.
    { destruct Hd as [Hd|Hd]; [destruct Hd; by eexists|done]. }
    exists k, l, v. split; [done|]. split; [|done]. by apply alookup_in.
  - intros (k & l & v & -> & E & Hv). apply (la_in m k v); [done|by apply alookup_Some_in|done].
Qed.
Lemma leaf_at_empty q x : ~ leaf_at (WObj []) q x.
Proof.
  rewrite (leaf_at_map (fun _ => True)) by (apply keyed_nil || apply unstamped_nil).
  intros (k & l & v & _ & E & _). done.
Qed.
(** Maps that differ in one member only. *)
Lemma leaf_at_insert P m k v q x : keyed P (WObj m) -> P k -> keyed P v -> k ≠ "timestamp" -> ~ stamped (WObj m) ->
  leaf_at (WObj (ainsert k v m)) q x <->
  (exists l, q = k :: l ∧ leaf_at v l x) ∨ (leaf_at (WObj m) q x ∧ forall l, q ≠ k :: l).
Proof.
  intros HK Hk Hv Ht Hs. rewrite (leaf_at_map P) by (by apply keyed_insert || by apply unstamped_insert).
  rewrite (leaf_at_map P m) by done. split.
  - intros (k' & l & w & -> & E & Hw). destruct (decide (k' = k)) as [->|Hne].
    + rewrite alookup_ainsert_eq in E. injection E as ->. left. eauto.
    + rewrite alookup_ainsert_ne in E by done. right. split; [eauto 10|]. intros l' [= ->]. done.
  - intros [(l & -> & Hl)|[(k' & l & w & -> & E & Hw) Hne]].
    + exists k, l, v. by rewrite alookup_ainsert_eq.
    + exists k', l, w. rewrite alookup_ainsert_ne; [done|]. intros ->. by apply (Hne l).
Qed.
Lemma place_ok P v l : forall m, free_way l m -> keyed P (WObj m) -> keyed P (default (WObj []) v) -> Forall P l ->
  Forall (.≠ "timestamp") l -> ~ stamped (WObj m) ->
  exists m', place v l m = Ok m' ∧ keyed P (WObj m') ∧ ~ stamped (WObj m') ∧
    (forall q x, leaf_at (WObj m') q x <->
       leaf_at (WObj m) q x ∨ exists r, q = l ++ r ∧ leaf_at (default (WObj []) v) r x) ∧
    (forall l2, ~ l `prefix_of` l2 -> ~ l2 `prefix_of` l -> free_way l2 m -> free_way l2 m').
Proof.
  induction l as [|k l IH]; intros m HF HK Hv HP HT Hs; [by inversion HF|].
  inversion HP as [|? ? Hk HPl]; subst. inversion HT as [|? ? Ht HTl]; subst.
  (* the common end: member [k] becomes [w] *)
  assert (End : forall w, keyed P w -> place v (k :: l) m = Ok (ainsert k w m) ->
     (forall q x, leaf_at w q x <-> (exists u, alookup k m = Some u ∧ leaf_at u q x) ∨ exists r, q = l ++ r ∧ leaf_at (default (WObj []) v) r x) ->
     (forall l2, ~ l `prefix_of` l2 -> ~ l2 `prefix_of` l -> l2 ≠ [] -> free_way (k :: l2) m -> exists n, w = WObj n ∧ ~ stamped (WObj n) ∧ free_way l2 n) ->
     exists m', place v (k :: l) m = Ok m' ∧ keyed P (WObj m') ∧ ~ stamped (WObj m') ∧
    (forall q x, leaf_at (WObj m') q x <->
       leaf_at (WObj m) q x ∨ exists r, q = (k :: l) ++ r ∧ leaf_at (default (WObj []) v) r x) ∧
    (forall l2, ~ (k :: l) `prefix_of` l2 -> ~ l2 `prefix_of` (k :: l) -> free_way l2 m -> free_way l2 m')).
  { intros w Kw E Lw Fw. exists (ainsert k w m). split; [done|]. split; [by apply keyed_insert|].
    split; [by apply unstamped_insert|]. split.
    - intros q x. rewrite (leaf_at_insert P) by done. split.
      + intros [(q' & -> & [(u & Eu & Hu)|(r & -> & Hr)]%Lw)|[Hq _]]; [| |by left].
        * left. apply (leaf_at_map P); [done|done|]. by exists k, q', u.
        * right. by exists r.
      + intros [Hq|(r & -> & Hr)].
        * pose proof Hq as Hq'. apply (leaf_at_map P) in Hq' as (k' & q' & u & -> & Eu & Hu); [|done..].
          destruct (decide (k' = k)) as [->|Hne].
          -- left. exists q'. split; [done|]. apply Lw. left. eauto.
          -- right. split; [done|]. intros l' [= ->]. done.
        * left. exists (l ++ r). split; [done|]. apply Lw. right. eauto.
    - intros l2 N1 N2 F2. destruct l2 as [|k2 l2]; [by destruct N2; apply prefix_nil|].
      destruct (decide (k2 = k)) as [->|Hne].
      + destruct (Fw l2) as (n & -> & Un & Fn).
        * intros Hp. apply N1. by apply prefix_cons.
        * intros Hp. apply N2. by apply prefix_cons.
        * intros ->. apply N2. apply prefix_cons, prefix_nil.
        * done.
        * apply (fw_in k l2 _ n); [apply alookup_ainsert_eq|done|done].
      + inversion F2 as [? ? ? Hnin|? ? ? n En Un Fn]; subst.
        * apply fw_new. apply alookup_None_iff. rewrite alookup_ainsert_ne by done. by apply alookup_None_iff.
        * apply (fw_in k2 l2 _ n); [by rewrite alookup_ainsert_ne|done|done]. }
  inversion HF as [? ? ? Hnin|? ? ? n En Un Fn]; subst.
  - apply alookup_None_iff in Hnin. destruct l as [|k' l].
    + apply (End (default (WObj []) v)); [done|cbn [place]; by rewrite Hnin| |].
      * intros q x. rewrite Hnin. split; [intros H; right; by exists q|].
        intros [(u & ? & _)|(r & -> & Hr)]; done.
      * intros l2 N1. by destruct N1; apply prefix_nil.
    + destruct (IH []) as (n' & E & Kn & Un & Ln & Fn); [by apply free_way_nil|apply keyed_nil|done|done|done|apply unstamped_nil|].
      apply (End (WObj n')); [done|cbn [place]; rewrite Hnin; cbn [place] in E; by rewrite E| |].
      * intros q x. rewrite Ln, Hnin. split.
        -- intros [Hq|Hq]; [by destruct (leaf_at_empty _ _ Hq)|by right].
        -- intros [(u & ? & _)|Hq]; [done|by right].
      * intros l2 N1 N2 N3 _. exists n'. split; [done|]. split; [done|]. apply Fn; [done|done|by apply free_way_nil].
  - destruct (keyed_lookup _ _ _ _ HK En) as [_ Kn0].
    destruct (IH n) as (n' & E & Kn & Un' & Ln & Fn'); [done..|].
    assert (Hl : l ≠ []) by by eapply free_way_ne. destruct l as [|k' l]; [done|].
    apply (End (WObj n')); [done|cbn [place]; rewrite En; cbn [place] in E; by rewrite E| |].
    + intros q x. rewrite Ln, En. split.
      * intros [Hq|Hq]; [left; eauto|by right].
      * intros [(u & [= <-] & Hu)|Hq]; [by left|by right].
    + intros l2 N1 N2 N3 F2. exists n'. split; [done|]. split; [done|]. apply Fn'; [done|done|].
      inversion F2 as [? ? ? Hnin2|? ? ? n2 En2 Un2 Fn2]; subst.
      * apply alookup_None_iff in Hnin2. by rewrite En in Hnin2.
      * rewrite En in En2. by injection En2 as ->.
Qed.

(** A list of placements at unrelated paths. *)
Definition unrelated (l l' : list string) : Prop := ~ l `prefix_of` l' ∧ ~ l' `prefix_of` l.
Fixpoint place_all (L : list (list string * option wjson)) (m : members) : res members :=
  match L with
  | [] => Ok m
  | (l, v) :: L' => do m' <- place v l m; place_all L' m'
  end.
Lemma place_all_ok P L : forall m, keyed P (WObj m) -> ~ stamped (WObj m) ->
  Forall (fun lv => free_way (fst lv) m ∧ keyed P (default (WObj []) (snd lv)) ∧ Forall P (fst lv) ∧ Forall (.≠ "timestamp") (fst lv)) L ->
  ForallOrdPairs (fun a b => unrelated (fst a) (fst b)) L ->
  exists m', place_all L m = Ok m' ∧ keyed P (WObj m') ∧ ~ stamped (WObj m') ∧
    forall q x, leaf_at (WObj m') q x <-> leaf_at (WObj m) q x ∨
      exists l v r, (l, v) ∈ L ∧ q = l ++ r ∧ leaf_at (default (WObj []) v) r x.
Proof.
  induction L as [|[l v] L IH]; intros m HK Hs HF HU.
  - exists m. split; [done|]. split; [done|]. split; [done|]. intros q x. split; [by left|].
    intros [H|(l & v & r & Hin & _)]; [done|]. by apply elem_of_nil in Hin.
  - inversion HF as [|? ? (F1 & F2 & F3 & F4) HF']; subst. inversion HU as [|? ? U1 U2]; subst. cbn [fst snd] in *.
    destruct (place_ok P v l m) as (m1 & E & K1 & S1 & L1 & W1); [done..|].
    destruct (IH m1) as (m' & E' & K' & S' & L'); [done|done| |done|].
    { rewrite Forall_forall in HF', U1 |- *. intros [l2 v2] Hin. destruct (HF' _ Hin) as (G1 & G2 & G3 & G4).
      destruct (U1 _ Hin) as [N1 N2]. cbn [fst snd] in *. split; [|done]. by apply W1. }
    exists m'. cbn [place_all]. rewrite E. cbn [rbind]. split; [done|]. split; [done|]. split; [done|].
    intros q x. rewrite L', L1. split.
    + intros [[Hq|(r & -> & Hr)]|(l2 & v2 & r & Hin & -> & Hr)]; [by left| |].
      * right. exists l, v, r. split; [by left|done].
      * right. exists l2, v2, r. split; [by right|done].
    + intros [Hq|(l2 & v2 & r & Hin & -> & Hr)]; [by left; left|].
      apply elem_of_cons in Hin as [[= -> ->]|Hin].
      * left. right. eauto.
      * right. eauto 10.
Qed.
