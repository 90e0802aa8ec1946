(** How documents without internal sharing are read, edited and allocated. *)
From Verif Require Import Base F64 Tson TsonInd BaseLemmas Heap HeapSpec.
From Coq Require Import Lia.

Section ind.
Context (P : ltree -> Prop).
Context (Hnil : P LNil) (Hleaf : forall p ts, P (LLeaf p ts)).
Context (Hobj : forall l m, Forall (fun kv => P (snd kv)) m -> P (LObj l m)).
Context (Harr : forall l xs, Forall P xs -> P (LArr l xs)).
Fixpoint ltree_ind' (t : ltree) : P t :=
  match t with
  | LNil => Hnil
  | LLeaf p ts => Hleaf p ts
  | LObj l m => Hobj l m ((fix go (m : list (string * ltree)) : Forall (fun kv => P (snd kv)) m :=
      match m with
      | [] => Forall_nil_2 _
      | kv :: m' => Forall_cons_2 _ _ _ (ltree_ind' (snd kv)) (go m')
      end) m)
  | LArr l xs => Harr l xs ((fix go (l : list ltree) : Forall P l :=
      match l with
      | [] => Forall_nil_2 _
      | t :: l' => Forall_cons_2 _ _ _ (ltree_ind' t) (go l')
      end) xs)
  end.
End ind.

Lemma upd_eq (h : heap) (l : loc) c : (l < length h)%nat -> <[l := c]> h !! l = Some c.
Proof. apply list_lookup_insert. Qed.
Lemma upd_ne (h : heap) (l x : loc) c : l <> x -> <[l := c]> h !! x = h !! x.
Proof. apply list_lookup_insert_ne. Qed.
Lemma upd_length (h : heap) (l : loc) c : length (<[l := c]> h) = length h.
Proof. apply insert_length. Qed.

Lemma look_fresh (h : heap) c : (h ++ [c]) !! (length h : loc) = Some c.
Proof. apply (list_lookup_middle h []). done. Qed.
Lemma look_app (h : heap) (c : list cell) (x : loc) : (x < length h)%nat -> (h ++ c) !! x = h !! x.
Proof. apply lookup_app_l. Qed.

Lemma own_lt h t x : own h t -> x ∈ locs t -> (x < length h)%nat.
Proof.
  induction t as [| |l m IH|l xs IH] using ltree_ind'; intros HO Hx; cbn in Hx.
  - by apply elem_of_nil in Hx.
  - by apply elem_of_nil in Hx.
  - inversion HO as [| |? ? Hl HF|]; subst. apply elem_of_cons in Hx as [->|Hx].
    + apply lookup_lt_is_Some. by eexists.
    + clear HO Hl. induction m as [|[k c] m IHm]; cbn in Hx; [by apply elem_of_nil in Hx|].
      inversion IH; subst. inversion HF; subst. apply elem_of_app in Hx as [Hx|Hx]; auto.
  - inversion HO as [| | |? ? spare Hl HF]; subst. apply elem_of_cons in Hx as [->|Hx].
    + apply lookup_lt_is_Some. by eexists.
    + clear HO Hl. induction xs as [|c xs IHm]; cbn in Hx; [by apply elem_of_nil in Hx|].
      inversion IH; subst. inversion HF; subst. apply elem_of_app in Hx as [Hx|Hx]; auto.
Qed.
Lemma own_frame h h' t : own h t -> (forall x, x ∈ locs t -> h' !! x = h !! x) -> own h' t.
Proof.
  induction t as [| |l m IH|l xs IH] using ltree_ind'; intros HO Hf.
  - constructor.
  - constructor.
  - inversion HO as [| |? ? Hl HF|]; subst. constructor.
    + rewrite Hf; [done|]. apply elem_of_list_here.
    + assert (Hf' : forall x, x ∈ concat (map (fun kv => locs (snd kv)) m) -> h' !! x = h !! x).
      { intros x Hx. apply Hf. by apply elem_of_list_further. }
      clear HO Hl Hf. induction m as [|[k c] m IHm]; [constructor|].
      inversion IH; subst. inversion HF; subst. constructor.
      * cbn in *. apply H1; [done|]. intros x Hx. apply Hf'. apply elem_of_app. by left.
      * apply IHm; try done. intros x Hx. apply Hf'. cbn. apply elem_of_app. by right.
  - inversion HO as [| | |? ? spare Hl HF]; subst. apply (own_arr _ _ _ spare).
    + rewrite Hf; [done|]. apply elem_of_list_here.
    + assert (Hf' : forall x, x ∈ concat (map locs xs) -> h' !! x = h !! x).
      { intros x Hx. apply Hf. by apply elem_of_list_further. }
      clear HO Hl Hf. induction xs as [|c xs IHm]; [constructor|].
      inversion IH; subst. inversion HF; subst. constructor.
      * apply H1; [done|]. intros x Hx. apply Hf'. apply elem_of_app. by left.
      * apply IHm; try done. intros x Hx. apply Hf'. cbn. apply elem_of_app. by right.
Qed.

(** ** Reading *)
Definition read_members (f : val -> option tson) : list (string * val) -> option (list (string * tson)) :=
  fix go m :=
    match m with
    | [] => Some []
    | (k, v) :: m' => t ← f v; ts ← go m'; Some ((k, t) :: ts)
    end.
Definition read_elems (f : val -> option tson) : list val -> option (list tson) :=
  fix go vs :=
    match vs with
    | [] => Some []
    | v :: vs' => t ← f v; ts ← go vs'; Some (t :: ts)
    end.
Lemma read_fuel_S f h v : read_fuel (S f) h v =
  match v with
  | VNil => Some TNil
  | VLeaf p ts => Some (TLeaf p ts)
  | VObj l => m ← read_members (read_fuel f h) (obj_at h l); Some (TObj m)
  | VArr l n => ts ← read_elems (read_fuel f h) (take n (arr_at h l)); Some (TArr ts)
  end.
Proof. reflexivity. Qed.

Lemma read_members_cons f k v m :
  read_members f ((k, v) :: m) = (t ← f v; ts ← read_members f m; Some ((k, t) :: ts)).
Proof. reflexivity. Qed.
Lemma read_elems_cons f v vs :
  read_elems f (v :: vs) = (t ← f v; ts ← read_elems f vs; Some (t :: ts)).
Proof. reflexivity. Qed.

Lemma take_roots (xs : list ltree) spare : take (length xs) (map root xs ++ spare) = map root xs.
Proof. rewrite take_app_alt; [done|by rewrite map_length]. Qed.

Lemma read_own f h t : own h t -> (length (locs t) < f)%nat -> read_fuel f h (root t) = Some (erase t).
Proof.
  revert f. induction t as [| |l m IH|l xs IH] using ltree_ind'; intros f HO Hf;
    (destruct f as [|f]; [lia|]); rewrite read_fuel_S; cbn [root].
  - done.
  - done.
  - inversion HO as [| |? ? Hl HF|]; subst. unfold obj_at. rewrite Hl.
    assert (E : read_members (read_fuel f h) (roots m) = Some (erases m)).
    { cbn in Hf. clear HO Hl. induction m as [|[k c] m IHm]; [done|].
      inversion IH; subst. inversion HF; subst. cbn in Hf. rewrite app_length in Hf.
      change (roots ((k, c) :: m)) with ((k, root c) :: roots m). rewrite read_members_cons.
      cbn [snd] in H1. rewrite H1 by (done || lia). rewrite IHm by (done || lia). done. }
    rewrite E. done.
  - inversion HO as [| | |? ? spare Hl HF]; subst. unfold arr_at. rewrite Hl, take_roots.
    assert (E : read_elems (read_fuel f h) (map root xs) = Some (map erase xs)).
    { cbn in Hf. clear HO Hl. induction xs as [|c xs IHm]; [done|].
      inversion IH; subst. inversion HF; subst. cbn in Hf. rewrite app_length in Hf.
      cbn [map]. rewrite read_elems_cons, H1 by (done || lia). rewrite IHm by (done || lia). done. }
    rewrite E. done.
Qed.
Lemma locs_bound h t : holds h t -> (length (locs t) <= length h)%nat.
Proof.
  intros [HO HN].
  assert (Hs : locs t ⊆ seq 0 (length h)).
  { intros x Hx. apply elem_of_seq. pose proof (own_lt _ _ _ HO Hx). lia. }
  pose proof (submseteq_length _ _ (NoDup_submseteq _ _ HN Hs)) as H. by rewrite seq_length in H.
Qed.
Lemma read_holds h t : holds h t -> read h (root t) = Some (erase t).
Proof. intros H. unfold read. apply read_own; [apply H|]. pose proof (locs_bound _ _ H). lia. Qed.
Lemma read_doc h v t : doc_of h v t -> read h v = Some t.
Proof. intros (lt & H & <- & <-). by apply read_holds. Qed.

(** ** Members *)
Lemma alookup_roots k m : alookup k (roots m) = root <$> alookup k m.
Proof. induction m as [|[k' c] m IH]; cbn; [done|]. by case_decide. Qed.
Lemma alookup_erases k m : alookup k (erases m) = erase <$> alookup k m.
Proof. induction m as [|[k' c] m IH]; cbn; [done|]. by case_decide. Qed.
Lemma roots_insert k c m : ainsert k (root c) (roots m) = roots (ainsert k c m).
Proof. induction m as [|[k' c'] m IH]; cbn; [done|]. case_decide; [done|]. cbn. by f_equal. Qed.
Lemma erases_insert k c m : ainsert k (erase c) (erases m) = erases (ainsert k c m).
Proof. induction m as [|[k' c'] m IH]; cbn; [done|]. case_decide; [done|]. cbn. by f_equal. Qed.
Lemma roots_delete k m : adelete k (roots m) = roots (adelete k m).
Proof. induction m as [|[k' c'] m IH]; cbn; [done|]. case_decide; [done|]. cbn. by f_equal. Qed.
Lemma erases_delete k m : adelete k (erases m) = erases (adelete k m).
Proof. induction m as [|[k' c'] m IH]; cbn; [done|]. case_decide; [done|]. cbn. by f_equal. Qed.

Definition mlocs (m : list (string * ltree)) : list loc := concat (map (fun kv => locs (snd kv)) m).
Definition old_locs (k : string) (m : list (string * ltree)) : list loc :=
  match alookup k m with Some c => locs c | None => [] end.

(** The member list around key [k]. *)
Lemma split_key k (m : list (string * ltree)) :
  exists m1 m2, (forall c, ainsert k c m = m1 ++ (k, c) :: m2) ∧
    mlocs m ≡ₚ old_locs k m ++ mlocs (m1 ++ m2) ∧
    (forall kv, kv ∈ m1 ++ m2 -> kv ∈ m).
Proof.
  unfold old_locs, mlocs. induction m as [|[k' c'] m (m1 & m2 & I1 & I2 & I3)].
  - exists [], []. split; [done|]. split; [done|]. done.
  - cbn [alookup ainsert]. destruct (decide (k = k')) as [->|Hne].
    + exists [], m. split; [done|]. split; [done|]. intros kv Hkv. by apply elem_of_list_further.
    + exists ((k', c') :: m1), m2. split; [intros c; by rewrite I1|]. split.
      * cbn [map concat app snd]. rewrite I2. rewrite !app_assoc.
        by rewrite (Permutation_app_comm (locs c')).
      * intros kv Hkv. cbn in Hkv. apply elem_of_cons in Hkv as [->|Hkv]; [apply elem_of_list_here|].
        apply elem_of_list_further. auto.
Qed.
Lemma mlocs_mid m1 m2 k c : mlocs (m1 ++ (k, c) :: m2) ≡ₚ locs c ++ mlocs (m1 ++ m2).
Proof.
  unfold mlocs. rewrite !map_app, !concat_app. cbn. rewrite app_assoc, (Permutation_app_comm _ (locs c)).
  by rewrite <- app_assoc.
Qed.

Lemma mlocs_in kv m x : kv ∈ m -> x ∈ locs (snd kv) -> x ∈ mlocs m.
Proof.
  unfold mlocs. induction m as [|[k c] m IH]; intros Hkv Hx; [by apply elem_of_nil in Hkv|].
  cbn. apply elem_of_app. apply elem_of_cons in Hkv as [->|Hkv]; [by left|right; auto].
Qed.
Lemma NoDup_app_disj {A} (l k : list A) : NoDup (l ++ k) -> forall x, x ∈ l -> x ∉ k.
Proof. intros H. by apply NoDup_app in H as (_ & H & _). Qed.

(** Replacing the value of one member. *)
Lemma obj_update h h' l m k c :
  holds h (LObj l m) ->
  holds h' c -> (forall x, x ∈ locs c -> x ∈ old_locs k m ∨ (length h <= x)%nat) ->
  h' !! l = Some (CObj (roots (ainsert k c m))) ->
  (forall x, (x < length h)%nat -> x <> l -> x ∉ old_locs k m -> h' !! x = h !! x) ->
  holds h' (LObj l (ainsert k c m)) ∧
  (forall x, x ∈ locs (LObj l (ainsert k c m)) -> x ∈ locs (LObj l m) ∨ (length h <= x)%nat).
Proof.
  intros [HO HN] [HOc HNc] Hnew Hl Hf. inversion HO as [| |? ? Hl0 HF|]; subst.
  destruct (split_key k m) as (m1 & m2 & E & HP & Hin). rewrite E in Hl |- *.
  cbn [locs] in HN. fold (mlocs m) in HN. apply NoDup_cons in HN as [Hlm HN].
  rewrite HP in Hlm, HN. rewrite not_elem_of_app in Hlm. destruct Hlm as [Hlo Hlr].
  pose proof (NoDup_app_disj _ _ HN) as Hd. apply NoDup_app in HN as (HNo & _ & HNr).
  assert (Hll : (l < length h)%nat) by (apply lookup_lt_is_Some; by eexists).
  assert (Hrest : forall x, x ∈ mlocs (m1 ++ m2) -> (x < length h)%nat).
  { intros x Hx. apply (own_lt h (LObj l m)); [done|]. cbn. apply elem_of_list_further.
    fold (mlocs m). rewrite HP. apply elem_of_app. by right. }
  split; [split|].
  - constructor; [done|]. rewrite Forall_forall in HF |- *. intros kv Hkv.
    rewrite elem_of_app, elem_of_cons in Hkv.
    assert (Hkv' : kv = (k, c) ∨ kv ∈ m1 ++ m2) by (rewrite elem_of_app; tauto). clear Hkv.
    destruct Hkv' as [->|Hkv]; [done|].
    apply (own_frame h); [by apply HF, Hin|]. intros x Hx.
    assert (Hxm : x ∈ mlocs (m1 ++ m2)) by (by eapply mlocs_in).
    apply Hf; [by apply Hrest| |].
    + intros ->. done.
    + intros Hxo. by apply (Hd x Hxo).
  - cbn [locs]. fold (mlocs (m1 ++ (k, c) :: m2)). apply NoDup_cons. rewrite mlocs_mid, not_elem_of_app.
    split; [split; [|done]|].
    + intros Hx. destruct (Hnew l Hx) as [?|?]; [done|lia].
    + apply NoDup_app. split; [done|]. split; [|done]. intros x Hx Hxr.
      destruct (Hnew x Hx) as [Hxo|Hge]; [by apply (Hd x Hxo)|]. specialize (Hrest x Hxr). lia.
  - intros x. cbn [locs]. fold (mlocs (m1 ++ (k, c) :: m2)). fold (mlocs m). rewrite !elem_of_cons, mlocs_mid, HP, !elem_of_app.
    intros [?|[Hx|Hx]]; [tauto| |tauto]. destruct (Hnew x Hx) as [?|?]; tauto.
Qed.

Lemma sublist_NoDup {A} (l k : list A) : l `sublist_of` k -> NoDup k -> NoDup l.
Proof.
  intros HS. induction HS as [|x l k HS IH|x l k HS IH]; intros HN; [constructor| |].
  - apply NoDup_cons in HN as [Hx HN]. apply NoDup_cons. split; [|auto]. intros Hl. apply Hx.
    eapply elem_of_submseteq; [exact Hl|]. by apply sublist_submseteq.
  - apply NoDup_cons in HN as [_ HN]. auto.
Qed.
Lemma mlocs_delete k m : mlocs (adelete k m) `sublist_of` mlocs m.
Proof.
  unfold mlocs. induction m as [|[k' c] m IH]; cbn; [constructor|]. case_decide; cbn.
  - by apply sublist_inserts_l.
  - by apply sublist_app.
Qed.
Lemma adelete_in {V} k (m : list (string * V)) kv : kv ∈ adelete k m -> kv ∈ m.
Proof.
  induction m as [|[k' c] m IH]; cbn; [done|]. case_decide; intros Hin.
  - apply elem_of_list_further. auto.
  - apply elem_of_cons in Hin as [->|Hin]; [apply elem_of_list_here|apply elem_of_list_further; auto].
Qed.
Lemma obj_delete h l m k :
  holds h (LObj l m) ->
  holds (<[l := CObj (roots (adelete k m))]> h) (LObj l (adelete k m)) ∧
  (forall x, x ∈ locs (LObj l (adelete k m)) -> x ∈ locs (LObj l m)).
Proof.
  intros [HO HN]. inversion HO as [| |? ? Hl0 HF|]; subst.
  assert (Hll : (l < length h)%nat) by (apply lookup_lt_is_Some; by eexists).
  pose proof (mlocs_delete k m) as HS. unfold mlocs in HS.
  cbn [locs] in HN |- *. apply NoDup_cons in HN as [Hlm HN].
  assert (Hsub : forall x, x ∈ concat (map (fun kv => locs (snd kv)) (adelete k m)) -> x ∈ concat (map (fun kv => locs (snd kv)) m)).
  { intros x Hx. eapply elem_of_submseteq; [exact Hx|]. by apply sublist_submseteq. }
  split; [split|].
  - constructor; [by apply list_lookup_insert|]. rewrite Forall_forall in HF |- *. intros kv Hkv.
    apply (own_frame h); [by apply HF, (adelete_in k)|]. intros x Hx.
    rewrite upd_ne; [done|]. intros <-. apply Hlm.
    apply (mlocs_in kv); [by apply (adelete_in k)|done].
  - cbn [locs]. apply NoDup_cons. split; [intros Hx; by apply Hlm, Hsub|].
    by eapply sublist_NoDup.
  - intros x. rewrite !elem_of_cons. intros [?|?]; auto.
Qed.

(** Elements *)
Definition xlocs (xs : list ltree) : list loc := concat (map locs xs).
Lemma xlocs_insert (xs : list ltree) i c c' : xs !! i = Some c ->
  exists r, xlocs xs ≡ₚ locs c ++ r ∧ xlocs (<[i := c']> xs) ≡ₚ locs c' ++ r.
Proof.
  intros H. apply elem_of_list_split_length in H as (a & b & -> & ->).
  exists (xlocs (a ++ b)). unfold xlocs. rewrite insert_app_r_alt by lia.
  replace (length a - length a)%nat with 0%nat by lia. cbn.
  rewrite !map_app, !concat_app. cbn. split; apply Permutation_app_swap_app.
Qed.
Lemma xlocs_in c (xs : list ltree) x : c ∈ xs -> x ∈ locs c -> x ∈ xlocs xs.
Proof.
  unfold xlocs. induction xs as [|d xs IH]; intros Hc Hx; [by apply elem_of_nil in Hc|].
  cbn. apply elem_of_app. apply elem_of_cons in Hc as [->|Hc]; [by left|right; auto].
Qed.

Lemma own_child h l xs i c : own h (LArr l xs) -> xs !! i = Some c -> own h c.
Proof.
  intros HO Hi. inversion HO as [| | |? ? spare Hl HF]; subst. rewrite Forall_forall in HF.
  apply HF. by eapply elem_of_list_lookup_2.
Qed.
Lemma holds_child h l xs i c : holds h (LArr l xs) -> xs !! i = Some c -> holds h c.
Proof.
  intros [HO HN] Hi. split; [by eapply own_child|]. cbn in HN. apply NoDup_cons in HN as [_ HN].
  destruct (xlocs_insert xs i c c Hi) as (r & HP & _). unfold xlocs in HP. rewrite HP in HN.
  by apply NoDup_app in HN as (HN & _).
Qed.
Lemma holds_member h l m k c : holds h (LObj l m) -> alookup k m = Some c -> holds h c.
Proof.
  intros [HO HN] Hk. inversion HO as [| |? ? Hl HF|]; subst. split.
  - rewrite Forall_forall in HF. apply (HF (k, c)). by apply alookup_Some_in.
  - cbn in HN. apply NoDup_cons in HN as [_ HN]. destruct (split_key k m) as (m1 & m2 & _ & HP & _).
    unfold mlocs in HP. rewrite HP in HN. unfold old_locs in HN. rewrite Hk in HN.
    by apply NoDup_app in HN as (HN & _).
Qed.

(** Replacing one element of an array. *)
Lemma arr_update h h' l xs i c0 c spare :
  holds h (LArr l xs) -> xs !! i = Some c0 ->
  holds h' c -> (forall x, x ∈ locs c -> x ∈ locs c0 ∨ (length h <= x)%nat) ->
  h' !! l = Some (CArr (map root (<[i := c]> xs) ++ spare)) ->
  (forall x, (x < length h)%nat -> x <> l -> x ∉ locs c0 -> h' !! x = h !! x) ->
  holds h' (LArr l (<[i := c]> xs)) ∧
  (forall x, x ∈ locs (LArr l (<[i := c]> xs)) -> x ∈ locs (LArr l xs) ∨ (length h <= x)%nat).
Proof.
  intros [HO HN] Hi [HOc HNc] Hnew Hl Hf. inversion HO as [| | |? ? spare0 Hl0 HF]; subst.
  destruct (xlocs_insert xs i c0 c Hi) as (r & HP & HP').
  unfold xlocs in HP, HP'.
  cbn [locs] in HN. apply NoDup_cons in HN as [Hlm HN].
  rewrite HP in Hlm, HN. rewrite not_elem_of_app in Hlm. destruct Hlm as [Hlo Hlr].
  pose proof (NoDup_app_disj _ _ HN) as Hd. apply NoDup_app in HN as (HNo & _ & HNr).
  assert (Hll : (l < length h)%nat) by (apply lookup_lt_is_Some; by eexists).
  assert (Hrest : forall x, x ∈ r -> (x < length h)%nat).
  { intros x Hx. apply (own_lt h (LArr l xs)); [done|]. cbn. apply elem_of_list_further.
    rewrite HP. apply elem_of_app. by right. }
  split; [split|].
  - apply (own_arr _ _ _ spare); [done|]. rewrite Forall_forall. intros d Hd'.
    apply elem_of_list_lookup_1 in Hd' as [j Hj].
    destruct (decide (i = j)) as [<-|Hij].
    + rewrite list_lookup_insert in Hj by (by eapply lookup_lt_Some). by injection Hj as <-.
    + pose proof Hj as Hj0. rewrite list_lookup_insert_ne in Hj by done.
      apply (own_frame h); [by eapply own_child|]. intros x Hx.
      assert (Hxr : x ∈ r).
      { destruct (xlocs_insert xs i c0 LNil Hi) as (r' & HQ & HQ').
        unfold xlocs in HQ, HQ'. cbn in HQ'.
        assert (Hrr : r ≡ₚ r') by (apply (Permutation_app_inv_l (locs c0)); by rewrite <- HP, <- HQ).
        rewrite Hrr, <- HQ'. apply (xlocs_in d); [|done].
        apply (elem_of_list_lookup_2 _ j). by rewrite list_lookup_insert_ne. }
      apply Hf; [by apply Hrest| |].
      * intros ->. done.
      * intros Hxo. by apply (Hd x Hxo).
  - cbn [locs]. apply NoDup_cons. rewrite HP', not_elem_of_app.
    split; [split; [|done]|].
    + intros Hx. destruct (Hnew l Hx) as [?|?]; [done|lia].
    + apply NoDup_app. split; [done|]. split; [|done]. intros x Hx Hxr.
      destruct (Hnew x Hx) as [Hxo|Hge]; [by apply (Hd x Hxo)|]. specialize (Hrest x Hxr). lia.
  - intros x. cbn [locs]. rewrite !elem_of_cons, HP', HP, !elem_of_app.
    intros [?|[Hx|Hx]]; [tauto| |tauto]. destruct (Hnew x Hx) as [?|?]; tauto.
Qed.

Lemma xlocs_delete (xs : list ltree) i : xlocs (delete i xs) `sublist_of` xlocs xs.
Proof.
  unfold xlocs. revert i. induction xs as [|c xs IH]; intros [|i]; cbn; try constructor.
  - by apply sublist_inserts_l.
  - by apply sublist_app.
Qed.
Lemma delete_in {A} (xs : list A) i x : x ∈ delete i xs -> x ∈ xs.
Proof.
  revert i. induction xs as [|y xs IH]; intros [|i]; cbn; try done.
  - intros Hx. by apply elem_of_list_further.
  - intros Hx. apply elem_of_cons in Hx as [->|Hx]; [apply elem_of_list_here|apply elem_of_list_further; eauto].
Qed.
Lemma arr_delete h h' l xs i spare :
  holds h (LArr l xs) ->
  h' !! l = Some (CArr (map root (delete i xs) ++ spare)) ->
  (forall x, (x < length h)%nat -> x <> l -> h' !! x = h !! x) ->
  holds h' (LArr l (delete i xs)) ∧
  (forall x, x ∈ locs (LArr l (delete i xs)) -> x ∈ locs (LArr l xs)).
Proof.
  intros [HO HN] Hl Hf. inversion HO as [| | |? ? spare0 Hl0 HF]; subst.
  pose proof (xlocs_delete xs i) as HS. unfold xlocs in HS.
  assert (Hll : forall x, x ∈ locs (LArr l xs) -> (x < length h)%nat) by (intros x Hx; by eapply own_lt).
  cbn [locs] in HN |- *. apply NoDup_cons in HN as [Hlm HN].
  assert (Hsub : forall x, x ∈ concat (map locs (delete i xs)) -> x ∈ concat (map locs xs)).
  { intros x Hx. eapply elem_of_submseteq; [exact Hx|]. by apply sublist_submseteq. }
  split; [split|].
  - apply (own_arr _ _ _ spare); [done|]. rewrite Forall_forall in HF |- *. intros c Hc.
    apply (own_frame h); [by apply HF, (delete_in _ i)|]. intros x Hx.
    assert (x ∈ concat (map locs xs)).
    { apply (xlocs_in c); [by apply (delete_in _ i)|done]. }
    apply Hf; [apply Hll; cbn; by apply elem_of_list_further|]. intros ->. done.
  - cbn [locs]. apply NoDup_cons. split; [intros Hx; by apply Hlm, Hsub|].
    by eapply sublist_NoDup.
  - intros x. rewrite !elem_of_cons. intros [?|?]; auto.
Qed.

(** Copying an array into a longer fresh one. *)
Lemma xlocs_nils (xs : list ltree) n : xlocs (xs ++ replicate n LNil) = xlocs xs.
Proof.
  unfold xlocs. rewrite map_app, concat_app. induction n as [|n IH]; cbn.
  - by rewrite app_nil_r.
  - done.
Qed.
Lemma map_root_nils (xs : list ltree) n : map root (xs ++ replicate n LNil) = map root xs ++ replicate n VNil.
Proof. rewrite map_app. f_equal. induction n as [|n IH]; cbn; [done|by f_equal]. Qed.
Lemma extend_own h l xs n' h0 a0 :
  holds h (LArr l xs) -> extend h l (length xs) n' = (h0, a0) ->
  h0 = h ++ [CArr (map root (xs ++ replicate (n' - length xs) LNil))] ∧ a0 = length h ∧
  holds h0 (LArr a0 (xs ++ replicate (n' - length xs) LNil)) ∧ own h0 (LArr l xs).
Proof.
  intros [HO HN] E. inversion HO as [| | |? ? spare0 Hl0 HF]; subst.
  unfold extend, alloc, arr_at in E. rewrite Hl0, take_roots, <- map_root_nils in E. injection E as <- <-.
  assert (Hfr : forall t, own h t -> own (h ++ [CArr (map root (xs ++ replicate (n' - length xs) LNil))]) t).
  { intros t Ht. apply (own_frame h); [done|]. intros x Hx. apply look_app. by eapply own_lt. }
  split; [done|]. split; [done|]. split; [split|].
  - apply (own_arr _ _ _ []).
    + rewrite app_nil_r. apply look_fresh.
    + apply Forall_app. split.
      * eapply Forall_impl; [exact HF|]. intros t. apply Hfr.
      * rewrite Forall_forall. intros t Ht. apply elem_of_replicate in Ht as [-> _]. constructor.
  - cbn [locs]. fold (xlocs (xs ++ replicate (n' - length xs) LNil)). rewrite xlocs_nils.
    cbn [locs] in HN. apply NoDup_cons in HN as [_ HN]. apply NoDup_cons. split; [|done].
    intros Hx. assert (length h < length h)%nat; [|lia]. apply (own_lt h (LArr l xs)); [done|].
    cbn. by apply elem_of_list_further.
  - by apply Hfr.
Qed.

(** ** Fresh copies *)
Definition alloc_members : heap -> list (string * tson) -> heap * list (string * val) :=
  fix go h m :=
    match m with
    | [] => (h, [])
    | (k, t) :: m' =>
        let '(h1, v) := alloc_tree h t in
        let '(h2, kvs) := go h1 m' in (h2, (k, v) :: kvs)
    end.
Definition alloc_elems : heap -> list tson -> heap * list val :=
  fix go h ts :=
    match ts with
    | [] => (h, [])
    | t :: ts' =>
        let '(h1, v) := alloc_tree h t in
        let '(h2, vs) := go h1 ts' in (h2, v :: vs)
    end.
Lemma alloc_tree_obj h m : alloc_tree h (TObj m) =
  let '(h1, kvs) := alloc_members h m in (h1 ++ [CObj kvs], VObj (length h1)).
Proof. reflexivity. Qed.
Lemma alloc_tree_arr h ts : alloc_tree h (TArr ts) =
  let '(h1, vs) := alloc_elems h ts in (h1 ++ [CArr vs], VArr (length h1) (length vs)).
Proof. reflexivity. Qed.
Lemma alloc_members_cons h k t m : alloc_members h ((k, t) :: m) =
  let '(h1, v) := alloc_tree h t in let '(h2, kvs) := alloc_members h1 m in (h2, (k, v) :: kvs).
Proof. reflexivity. Qed.
Lemma alloc_elems_cons h t ts : alloc_elems h (t :: ts) =
  let '(h1, v) := alloc_tree h t in let '(h2, vs) := alloc_elems h1 ts in (h2, v :: vs).
Proof. reflexivity. Qed.

Lemma own_app h c t : own h t -> own (h ++ c) t.
Proof. intros HO. apply (own_frame h); [done|]. intros x Hx. apply look_app. by eapply own_lt. Qed.

Lemma alloc_tree_own t h h' v : alloc_tree h t = (h', v) ->
  exists lt c, h' = h ++ c ∧ holds h' lt ∧ root lt = v ∧ erase lt = t ∧
    (forall x, x ∈ locs lt -> (length h <= x)%nat).
Proof.
  revert h h' v. induction t as [|p ts|m IH|ts IH] using tson_ind'; intros h h' v E.
  - injection E as <- <-. exists LNil, []. rewrite app_nil_r. split; [done|]. split; [split; constructor|].
    split; [done|]. split; [done|]. intros x Hx. by apply elem_of_nil in Hx.
  - injection E as <- <-. exists (LLeaf p ts), []. rewrite app_nil_r. split; [done|]. split; [split; constructor|].
    split; [done|]. split; [done|]. intros x Hx. by apply elem_of_nil in Hx.
  - rewrite alloc_tree_obj in E. destruct (alloc_members h m) as [h1 kvs] eqn:Em. injection E as <- <-.
    assert (G : exists lm c, h1 = h ++ c ∧ Forall (fun kv => own h1 (snd kv)) lm ∧ NoDup (mlocs lm) ∧
       roots lm = kvs ∧ erases lm = m ∧ (forall x, x ∈ mlocs lm -> (length h <= x < length h1)%nat)).
    { revert h h1 kvs Em. induction m as [|[k t] m IHm]; intros h h1 kvs Em.
      - injection Em as <- <-. exists [], []. rewrite app_nil_r. repeat split; try constructor; by apply elem_of_nil in H.
      - rewrite alloc_members_cons in Em. destruct (alloc_tree h t) as [h2 v] eqn:Et.
        destruct (alloc_members h2 m) as [h3 kvs'] eqn:Em'. injection Em as <- <-.
        inversion IH as [|? ? IHt IHr]; subst. cbn in IHt.
        destruct (IHt _ _ _ Et) as (lt & c & -> & [HO HN] & <- & <- & Hx).
        destruct (IHm IHr _ _ _ Em') as (lm & c' & -> & HF & HN' & <- & <- & Hx').
        exists ((k, lt) :: lm), (c ++ c'). rewrite app_assoc. split; [done|]. split.
        { constructor; [by apply own_app|done]. }
        unfold mlocs. cbn [map concat snd]. fold (mlocs lm). split.
        { apply NoDup_app. split; [done|]. split; [|done]. intros x H1 H2.
          pose proof (own_lt _ _ _ HO H1). specialize (Hx' _ H2). lia. }
        split; [done|]. split; [done|]. intros x Hxx. apply elem_of_app in Hxx as [H1|H1].
        + pose proof (own_lt _ _ _ HO H1). specialize (Hx _ H1). rewrite app_length. lia.
        + specialize (Hx' _ H1). rewrite app_length in Hx'. lia. }
    destruct G as (lm & c & -> & HF & HN & <- & <- & Hx).
    exists (LObj (length (h ++ c)) lm), (c ++ [CObj (roots lm)]).
    rewrite app_assoc. split; [done|]. split; [split|].
    + constructor; [apply look_fresh|].
      eapply Forall_impl; [exact HF|]. intros kv. apply own_app.
    + cbn. fold (mlocs lm). apply NoDup_cons. split; [|done]. intros H1. specialize (Hx _ H1). lia.
    + split; [done|]. split; [done|]. intros x H1. cbn in H1. fold (mlocs lm) in H1.
      apply elem_of_cons in H1 as [->|H1]; [rewrite app_length; lia|]. specialize (Hx _ H1). lia.
  - rewrite alloc_tree_arr in E. destruct (alloc_elems h ts) as [h1 vs] eqn:Em. injection E as <- <-.
    assert (G : exists lm c, h1 = h ++ c ∧ Forall (own h1) lm ∧ NoDup (xlocs lm) ∧
       map root lm = vs ∧ map erase lm = ts ∧ (forall x, x ∈ xlocs lm -> (length h <= x < length h1)%nat)).
    { revert h h1 vs Em. induction ts as [|t ts IHm]; intros h h1 vs Em.
      - injection Em as <- <-. exists [], []. rewrite app_nil_r. repeat split; try constructor; by apply elem_of_nil in H.
      - rewrite alloc_elems_cons in Em. destruct (alloc_tree h t) as [h2 v] eqn:Et.
        destruct (alloc_elems h2 ts) as [h3 vs'] eqn:Em'. injection Em as <- <-.
        inversion IH as [|? ? IHt IHr]; subst.
        destruct (IHt _ _ _ Et) as (lt & c & -> & [HO HN] & <- & <- & Hx).
        destruct (IHm IHr _ _ _ Em') as (lm & c' & -> & HF & HN' & <- & <- & Hx').
        exists (lt :: lm), (c ++ c'). rewrite app_assoc. split; [done|]. split.
        { constructor; [by apply own_app|done]. }
        unfold xlocs. cbn [map concat]. fold (xlocs lm). split.
        { apply NoDup_app. split; [done|]. split; [|done]. intros x H1 H2.
          pose proof (own_lt _ _ _ HO H1). specialize (Hx' _ H2). lia. }
        split; [done|]. split; [done|]. intros x Hxx. apply elem_of_app in Hxx as [H1|H1].
        + pose proof (own_lt _ _ _ HO H1). specialize (Hx _ H1). rewrite app_length. lia.
        + specialize (Hx' _ H1). rewrite app_length in Hx'. lia. }
    destruct G as (lm & c & -> & HF & HN & <- & <- & Hx).
    exists (LArr (length (h ++ c)) lm), (c ++ [CArr (map root lm)]).
    rewrite app_assoc. split; [done|]. split; [split|].
    + apply (own_arr _ _ _ []); [rewrite app_nil_r; apply look_fresh|].
      eapply Forall_impl; [exact HF|]. intros kv. apply own_app.
    + cbn. fold (xlocs lm). apply NoDup_cons. split; [|done]. intros H1. specialize (Hx _ H1). lia.
    + cbn [root erase]. rewrite map_length. split; [done|]. split; [done|]. intros x H1. cbn in H1. fold (xlocs lm) in H1.
      apply elem_of_cons in H1 as [->|H1]; [rewrite app_length; lia|]. specialize (Hx _ H1). lia.
Qed.
Lemma alloc_tree_doc h t h' v : alloc_tree h t = (h', v) -> doc_of h' v t.
Proof. intros E. destruct (alloc_tree_own _ _ _ _ E) as (lt & c & _ & H & Hr & He & _). by exists lt. Qed.
