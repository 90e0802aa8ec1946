(** Facts about BuildFromLeafNodes on paths with names in brackets. *)
From Verif Require Import Base BaseLemmas BaseSpec BaseSpecLemmas Tson TsonSpec PatchSpec Tjson TjsonSpec TjsonLemmas F64 Bytes BytesLemmas Vss VssSpec VssLemmas VssPlace VssGen VssData
  VssBuild VssIndexSpec.
From Coq Require Import Lia.

(** Putting a value at a place, making the containers around it. *)
Definition slot (a : list wjson) (i : nat) : option wjson :=
  match a !! i with Some WNull | None => None | Some x => Some x end.
Fixpoint put (v : wjson) (w : list step) (d : option wjson) : wjson :=
  match w with
  | [] => v
  | Key k :: w' => let m := match d with Some (WObj m) => m | _ => [] end in WObj (ainsert k (put v w' (alookup k m)) m)
  | Elem i :: w' => let a := match d with Some (WArr a) => a | _ => [] end in WArr (<[i := put v w' (slot a i)]> (pad_nil a (S i)))
  end.
(** Nothing is in the way. *)
Inductive room : option wjson -> list step -> Prop :=
| rm_none w : room None w
| rm_map m k w : room (alookup k m) w -> room (Some (WObj m)) (Key k :: w)
| rm_arr a i w : room (slot a i) w -> room (Some (WArr a)) (Elem i :: w).
(** The places of [way]: elements follow the name "array", and only they do. *)
Inductive laid : bool -> list step -> Prop :=
| ld_end : laid false []
| ld_name k w : k ≠ "array" -> laid false w -> laid false (Key k :: w)
| ld_array w : laid true w -> laid false (Key "array" :: w)
| ld_elem i w : laid false w -> laid true (Elem i :: w).
Definition strange (q w : list step) : Prop := ~ q `prefix_of` w ∧ ~ w `prefix_of` q.
Lemma strange_cons s q w : strange (s :: q) (s :: w) -> strange q w.
Proof. intros [H1 H2]. split; intros H; [apply H1|apply H2]; by apply prefix_cons. Qed.
Lemma strange_nil q : ~ strange [] q.
Proof. intros [H _]. apply H, prefix_nil. Qed.
Lemma strange_nil_r q : ~ strange q [].
Proof. intros [_ H]. apply H, prefix_nil. Qed.

Lemma pad_length a i : (i < length (pad_nil a (S i)))%nat.
Proof. unfold pad_nil. rewrite app_length, repeat_length. lia. Qed.
Lemma pad_same a n j x : a !! j = Some x -> pad_nil a n !! j = Some x.
Proof. intros H. unfold pad_nil. by apply lookup_app_l_Some. Qed.
Lemma pad_fill a n j x : pad_nil a n !! j = Some x -> a !! j = Some x ∨ (x = WNull ∧ (j < n)%nat).
Proof.
  unfold pad_nil. intros [H|[Hl H]]%lookup_app_Some; [by left|]. right. assert (L := lookup_lt_Some _ _ _ H). rewrite repeat_length in L.
  apply elem_of_list_lookup_2, elem_of_list_In, repeat_spec in H. split; [done|lia].
Qed.
Lemma pad_back a n j x : pad_nil a n !! j = Some x -> a !! j = Some x ∨ x = WNull.
Proof. intros [H|[H _]]%pad_fill; [by left|by right]. Qed.
Lemma gap_cons s q w : gap q w -> gap (s :: q) (s :: w).
Proof. intros (q0 & i & j & -> & H1 & H2). exists (s :: q0), i, j. split; [done|]. split; [done|]. cbn. by apply prefix_cons. Qed.
Lemma slot_put a i j y : i ≠ j -> slot (<[i := y]> (pad_nil a (S i))) j = slot a j.
Proof.
  intros Hne. unfold slot. rewrite list_lookup_insert_ne by done.
  destruct (pad_nil a (S i) !! j) as [x|] eqn:E.
  - destruct (pad_back _ _ _ _ E) as [->| ->]; [done|]. destruct (a !! j) as [z|] eqn:Ez; [|done].
    assert (H := pad_same a (S i) j z Ez). rewrite E in H. by injection H as <-.
  - destruct (a !! j) as [z|] eqn:Ez; [|done]. assert (H := pad_same a (S i) j z Ez). by rewrite E in H.
Qed.
Lemma slot_here a i y w : room (Some y) w -> room (slot (<[i := y]> (pad_nil a (S i))) i) w.
Proof.
  intros H. unfold slot. rewrite list_lookup_insert by apply pad_length. destruct y; first [exact H|constructor].
Qed.
Lemma put_here v w : forall d, found (put v w d) w v.
Proof.
  induction w as [|[k|i] w IH]; intros d; cbn [put]; [constructor| |].
  - eapply fd_key; [apply alookup_ainsert_eq|apply IH].
  - eapply fd_elem; [apply list_lookup_insert, pad_length|apply IH].
Qed.
Lemma put_keeps v w : forall d q x, room (Some d) w -> found d q x -> strange q w -> found (put v w (Some d)) q x.
Proof.
  induction w as [|s w IH]; intros d q x HR HF HS; [by destruct (strange_nil_r _ HS)|].
  inversion HF as [|m k u q' ? Eu Hu|a i u q' ? Eu Hu]; subst; [by destruct (strange_nil _ HS)| |].
  - inversion HR as [|? k0 ? HR'|]; subst. cbn [put]. destruct (decide (k0 = k)) as [->|Hne].
    + eapply fd_key; [apply alookup_ainsert_eq|]. rewrite Eu in HR' |- *. apply IH; [done|done|by eapply strange_cons].
    + eapply fd_key; [by rewrite alookup_ainsert_ne|done].
  - inversion HR as [| |? i0 ? HR']; subst. cbn [put]. destruct (decide (i0 = i)) as [->|Hne].
    + eapply fd_elem; [apply list_lookup_insert, pad_length|].
      assert (HS' : strange q' w) by by eapply strange_cons.
      assert (Hd : u = WNull ∨ u ≠ WNull) by (destruct u; first [by left|by right]). destruct Hd as [->|Hu0].
      { inversion Hu; subst. by destruct (strange_nil _ HS'). }
      assert (Es : slot a i = Some u) by (unfold slot; rewrite Eu; by destruct u).
      rewrite Es in HR' |- *. by apply IH.
    + eapply fd_elem; [|exact Hu]. rewrite list_lookup_insert_ne by done. by apply pad_same.
Qed.
Lemma put_only v w : forall d q x, found (put v w d) q x ->
  (exists d0, d = Some d0 ∧ found d0 q x) ∨ (exists r, q = w ++ r ∧ found v r x) ∨ (q `prefix_of` w ∧ q ≠ w) ∨ (x = WNull ∧ gap q w).
Proof.
  induction w as [|[k|i] w IH]; intros d q x HF; cbn [put] in HF.
  - right. left. by exists q.
  - inversion HF as [|m k' u q' ? Eu Hu|]; subst; [right; right; left; split; [apply prefix_nil|done]|].
    destruct (decide (k' = k)) as [->|Hne].
    + rewrite alookup_ainsert_eq in Eu. injection Eu as <-.
      destruct (IH _ _ _ Hu) as [(d0 & E & H)|[(r & -> & H)|[[H1 H2]|[-> HG]]]].
      * left. destruct d as [[]|]; try done. eexists. split; [done|]. by eapply fd_key.
      * right. left. by exists r.
      * right. right. left. split; [by apply prefix_cons|]. by intros [= ->].
      * right; right; right. split; [done|by apply gap_cons].
    + rewrite alookup_ainsert_ne in Eu by done. left. destruct d as [[]|]; try done. eexists. split; [done|]. by eapply fd_key.
  - inversion HF as [| |a j u q' ? Eu Hu]; subst; [right; right; left; split; [apply prefix_nil|done]|].
    destruct (decide (j = i)) as [->|Hne].
    + rewrite list_lookup_insert in Eu by apply pad_length. injection Eu as <-.
      destruct (IH _ _ _ Hu) as [(d0 & E & H)|[(r & -> & H)|[[H1 H2]|[-> HG]]]].
      * left. unfold slot in E. destruct d as [[]|]; try done. eexists. split; [done|].
        eapply fd_elem; [|exact H]. destruct (_ !! i) as [[]|]; congruence.
      * right. left. by exists r.
      * right. right. left. split; [by apply prefix_cons|]. by intros [= ->].
      * right; right; right. split; [done|by apply gap_cons].
    + rewrite list_lookup_insert_ne in Eu by done. apply pad_fill in Eu as [Eu|[-> Hj]].
      * left. destruct d as [[]|]; try done. eexists. split; [done|]. by eapply fd_elem.
      * right; right; right. inversion Hu; subst. split; [done|]. exists [], j, i. split; [done|]. split; [lia|]. cbn. apply prefix_cons, prefix_nil.
Qed.
Lemma room_put v w : forall b d w2, laid b w -> laid b w2 -> room d w -> room d w2 -> strange w w2 -> room (Some (put v w d)) w2.
Proof.
  induction w as [|s w IH]; intros b d w2 L1 L2 R1 R2 HS; [by destruct (strange_nil _ HS)|].
  destruct w2 as [|s2 w2]; [by destruct (strange_nil_r _ HS)|].
  assert (Key_case : forall k k2 b', s = Key k -> s2 = Key k2 -> (k = k2 -> laid b' w ∧ laid b' w2) -> room (Some (put v (s :: w) d)) (s2 :: w2)).
  { intros k k2 b' -> -> HL. cbn [put]. apply rm_map. destruct (decide (k2 = k)) as [->|Hne].
    - rewrite alookup_ainsert_eq. destruct HL as [HL1 HL2]; [done|]. apply IH with b'; [done|done| | |by eapply strange_cons].
      + inversion R1; subst; [cbn; constructor|done].
      + inversion R2; subst; [cbn; constructor|done].
    - rewrite alookup_ainsert_ne by done. inversion R2; subst; [cbn; constructor|done]. }
  inversion L1 as [|k ? Hk HL|? HL|i ? HL]; subst; inversion L2 as [|k2 ? Hk2 HL2|? HL2|i2 ? HL2]; subst.
  - apply (Key_case k k2 false); [done|done|]. done.
  - apply (Key_case k "array" false); [done|done|]. by intros ->.
  - apply (Key_case "array" k2 false); [done|done|]. by intros <-.
  - apply (Key_case "array" "array" true); [done|done|]. done.
  - cbn [put]. apply rm_arr. destruct (decide (i = i2)) as [->|Hne].
    + apply slot_here. apply IH with false; [done|done| | |by eapply strange_cons].
      * inversion R1; subst; [cbn; constructor|done].
      * inversion R2; subst; [cbn; constructor|done].
    + rewrite slot_put by done. inversion R2; subst; [cbn; constructor|done].
Qed.

(** The code puts a leaf at its place. *)
Lemma bracketed_name s : bracketed ("[" +++ s +++ "]") = Some s.
Proof.
  cbn [String.append bracketed]. rewrite decide_True by done.
  assert (H : ends_with "]" (s +++ "]") = true ∧ drop_last (s +++ "]") = s).
  { induction s as [|a s [IH1 IH2]]; [done|]. cbn [String.append ends_with drop_last].
    destruct (s +++ "]") eqn:Es; [by destruct s|]. split; [done|]. by rewrite IH2. }
  by destruct H as [-> ->].
Qed.
Lemma way_ne l w : way l w -> l ≠ [] -> w ≠ [].
Proof. induction 1; try done. intros _. by apply IHway. Qed.
Lemma way_laid l w : way l w -> "array" ∉ l -> laid false w.
Proof.
  induction 1 as [|k l q Hk H IH|s i l q Hs H IH|s l q Hs Hl H IH]; intros Ha; [constructor| | |].
  - apply not_elem_of_cons in Ha as [Ha1 Ha2]. apply ld_name; [done|by apply IH].
  - apply not_elem_of_cons in Ha as [_ Ha2]. apply ld_array, ld_elem. by apply IH.
  - apply not_elem_of_cons in Ha as [_ Ha2]. by apply IH.
Qed.
Lemma nth_slot a i : nth i (pad_nil a (S i)) WNull = default WNull (slot a i).
Proof.
  unfold slot. destruct (pad_nil a (S i) !! i) as [x|] eqn:E.
  - rewrite (nth_lookup_Some _ _ _ _ E). destruct (pad_back _ _ _ _ E) as [Ea| ->].
    + rewrite Ea. by destruct x.
    + destruct (a !! i) as [z|] eqn:Ez; [|done]. assert (H := pad_same a (S i) i z Ez). rewrite E in H. by injection H as <-.
  - apply lookup_ge_None in E. assert (H := pad_length a i). lia.
Qed.
Lemma build_put v l w : way l w -> "array" ∉ l -> l ≠ [] -> forall m, room (Some (WObj m)) w ->
  exists m', build v l m = Ok m' ∧ put v w (Some (WObj m)) = WObj m'.
Proof.
  induction 1 as [|k l q Hk H IH|s i l q Hs H IH|s l q Hs Hl H IH]; intros Ha Hne m HR; [done| | |].
  - apply not_elem_of_cons in Ha as [_ Ha]. cbn [build]. rewrite bracketed_index by done. cbn [put].
    destruct l as [|k' l].
    + inversion H; subst. cbn [put]. eauto.
    + assert (Hq : q ≠ []) by by eapply way_ne. inversion HR as [|? ? ? HR'|]; subst.
      destruct (alookup k m) as [u|] eqn:Eu; cbn [default].
      * inversion HR' as [|n ? ? HRn|a i ? HRn]; subst.
        -- destruct (IH Ha ltac:(done) n HR') as (n' & E & Ep). cbn [id]. rewrite E. cbn [rbind]. eexists. split; [done|]. by rewrite Ep.
        -- exfalso. assert (L := way_laid _ _ H Ha). inversion L.
      * destruct (IH Ha ltac:(done) []) as (n' & E & Ep).
        { destruct q as [|[k0|i0] q]; [done| |]; [|assert (L := way_laid _ _ H Ha); inversion L]. apply rm_map. constructor. }
        rewrite E. cbn [rbind]. eexists. split; [done|]. do 2 f_equal. rewrite <- Ep. destruct q as [|[k0|i0] q]; [done|done|]. assert (L := way_laid _ _ H Ha); inversion L.
  - apply not_elem_of_cons in Ha as [_ Ha]. apply int_text_parse in Hs. cbn [build]. rewrite bracketed_name, Hs.
    inversion HR as [|? ? ? HR'|]; subst.
    assert (Ea : exists a, default (WArr []) (alookup "array" m) = WArr a ∧
       match alookup "array" m with Some (WArr a) => a | _ => [] end = a ∧ room (slot a i) q).
    { destruct (alookup "array" m) as [u|]; [|exists []; repeat split; constructor].
      inversion HR' as [| |a ? ? HRa]; subst. by exists a. }
    destruct Ea as (a & E0 & E1 & HRa). rewrite E0. assert (Hz : (Z.of_nat i <? 0) = false) by (apply Z.ltb_ge; lia). rewrite Hz, Nat2Z.id.
    cbn [put]. rewrite E1. destruct l as [|k' l].
    + inversion H; subst. cbn [put]. eauto.
    + assert (Hq : q ≠ []) by by eapply way_ne. rewrite nth_slot.
      destruct (slot a i) as [u|] eqn:Eu; cbn [default].
      * inversion HRa as [|n ? ? HRn|a' i' ? HRn]; subst.
        -- destruct (IH Ha ltac:(done) n HRa) as (n' & E & Ep). cbn [id]. rewrite E. cbn [rbind]. eexists. split; [done|]. by rewrite Ep.
        -- exfalso. assert (L := way_laid _ _ H Ha). inversion L.
      * destruct (IH Ha ltac:(done) []) as (n' & E & Ep).
        { destruct q as [|[k0|i0] q]; [done| |]; [|assert (L := way_laid _ _ H Ha); inversion L]. apply rm_map. constructor. }
        rewrite E. cbn [rbind]. eexists. split; [done|]. do 5 f_equal. rewrite <- Ep. destruct q as [|[k0|i0] q]; [done|done|]. assert (L := way_laid _ _ H Ha); inversion L.
  - apply not_elem_of_cons in Ha as [_ Ha]. apply parse_int_none in Hs. cbn [build]. rewrite bracketed_name, Hs. by apply IH.
Qed.

Lemma build_all_put (W : list (list step * wjson)) : forall L m,
  Forall2 (fun pv wv => way (split_on dot (fst pv)) (fst wv) ∧ "array" ∉ split_on dot (fst pv) ∧ split_on dot (fst pv) ≠ [] ∧ snd pv = snd wv) L W ->
  Forall (fun wv => room (Some (WObj m)) (fst wv)) W -> ForallOrdPairs (fun a b => strange (fst a) (fst b)) W ->
  exists m', build_all L m = Ok m' ∧
    (forall w v, (w, v) ∈ W -> found (WObj m') w v) ∧
    (forall q x, found (WObj m) q x -> Forall (fun wv => strange q (fst wv)) W -> found (WObj m') q x) ∧
    (forall q x, found (WObj m') q x -> found (WObj m) q x ∨
       exists w v, (w, v) ∈ W ∧ ((exists r, q = w ++ r ∧ found v r x) ∨ (q `prefix_of` w ∧ q ≠ w) ∨ (x = WNull ∧ gap q w))).
Proof.
  induction W as [|[w v] W IH]; intros L m HL HR HU.
  - inversion HL; subst. exists m. split; [done|]. split; [by intros ? ? ?%elem_of_nil|]. split; [done|]. by left.
  - inversion HL as [|[p v'] ? L' ? (H1 & H2 & H3 & H4) HL']; subst. cbn [fst snd] in *. subst v'.
    inversion HR as [|? ? HR1 HR2]; subst. inversion HU as [|? ? U1 U2]; subst. cbn [fst] in *.
    destruct (build_put v _ _ H1 H2 H3 m HR1) as (m1 & E1 & P1).
    destruct (IH L' m1) as (m' & E & F1 & F2 & F3); [done| |done|].
    { rewrite <- P1. rewrite Forall_forall in HR2, U1 |- *. intros wv Hin.
      assert (Hl : exists pv, pv ∈ L' ∧ way (split_on dot (fst pv)) (fst wv) ∧ "array" ∉ split_on dot (fst pv)).
      { apply elem_of_list_lookup in Hin as [j Hj]. destruct (Forall2_lookup_r _ _ _ _ _ HL' Hj) as (pv & Hpv & Q1 & Q2 & _).
        exists pv. split; [by eapply elem_of_list_lookup_2|done]. }
      destruct Hl as (pv & _ & Q1 & Q2).
      apply room_put with false; [by eapply way_laid|by eapply way_laid|done|by apply HR2|by apply U1]. }
    exists m'. cbn [build_all]. rewrite E1. cbn [rbind]. split; [done|]. split; [|split].
    + intros w0 v0 [[= -> ->]|Hin]%elem_of_cons; [|by apply F1].
      apply F2; [rewrite <- P1; apply put_here|done].
    + intros q x Hq [Hs Hss]%Forall_cons. apply F2; [|done]. rewrite <- P1. by apply put_keeps.
    + intros q x [Hq|(w0 & v0 & Hin & H)]%F3; [|right; exists w0, v0; split; [by right|done]].
      rewrite <- P1 in Hq. destruct (put_only _ _ _ _ _ Hq) as [(d0 & [= <-] & Hd)|Hr]; [by left|].
      right. exists w, v. split; [left|done].
Qed.
Lemma int_text_fun s z z' : int_text s z -> int_text s z' -> z = z'.
Proof. intros H%int_text_parse H'%int_text_parse. congruence. Qed.
Lemma index_inj s s' : "[" +++ s +++ "]" = "[" +++ s' +++ "]" -> s = s'.
Proof. intros E. assert (H := bracketed_name s). rewrite E, bracketed_name in H. by injection H. Qed.
Lemma way_fun l w w' : way l w -> way l w' -> w = w'.
Proof.
  intros H. revert w'. induction H as [|k l q Hk H IH|s i l q Hs H IH|s l q Hs Hl H IH]; intros w' H'.
  - by inversion H'.
  - inversion H' as [|? ? q' ? H2|s' i' ? q' Hs' H2|s' ? q' Hs' ? H2]; subst; [f_equal; by apply IH|destruct Hk; by eexists..].
  - inversion H' as [|? ? q' Hk' H2|s' i' ? q' Hs' H2 Es|s' ? q' Hs' ? H2 Es]; subst; [destruct Hk'; by eexists| |].
    + assert (s' = s) as -> by (apply index_inj; cbn; congruence). f_equal. f_equal; [|by apply IH]. f_equal.
      assert (E := int_text_fun _ _ _ Hs Hs'). lia.
    + assert (s' = s) as -> by (apply index_inj; cbn; congruence). by destruct (Hs' _ Hs).
  - inversion H' as [|? ? q' Hk' H2|s' i' ? q' Hs' H2 Es|s' ? q' Hs' ? H2 Es]; subst; [destruct Hk'; by eexists| |by apply IH].
    assert (s' = s) as -> by (apply index_inj; cbn; congruence). by destruct (Hs _ Hs').
Qed.
Lemma build_indices d : is_map d -> ~ stamped d -> keyed schema_name d ->
  (forall l x, leaf_at d l x -> "array" ∉ l ∧ exists q, way (visible l) q) ->
  (forall l l' x x' q q', leaf_at d l x -> leaf_at d l' x' -> way (visible l) q -> way (visible l') q' -> q `prefix_of` q' -> l = l') ->
  exists r, build_from_leaf_nodes d = Ok r ∧
    (forall l x q, leaf_at d l x -> way (visible l) q -> found r q x) ∧
    (forall q x, found r q x -> q = [] ∨ exists l y w, leaf_at d l y ∧ way (visible l) w ∧
       ((exists q', q = w ++ q' ∧ found y q' x) ∨ (q `prefix_of` w ∧ q ≠ w) ∨ (x = WNull ∧ gap q w))).
Proof.
  intros Dm Do Dk Dw Du.
  assert (Hin : forall p x, (p, x) ∈ leaf_nodes d <-> exists l, leaf_at d l x ∧ p = dotted l).
  { intros p x. apply leaf_nodes_spec; [done|]. by apply schema_nonempty. }
  assert (Hpath : forall l x, leaf_at d l x -> visible l ≠ [] ∧ split_on dot (dotted l) = visible l ∧ "array" ∉ visible l).
  { intros l x Hl. assert (Hne : visible l ≠ []).
    { destruct l; [|done]. inversion Hl as [? Hd|]; subst. by destruct Hd. }
    split; [done|]. split; [|intros Ha%visible_in; by destruct (Dw _ _ Hl)].
    apply split_names; [done|]. apply visible_forall. exact (leaf_at_names _ _ _ _ Dk Hl). }
  assert (HW : exists W, Forall2 (fun pv wv => way (split_on dot (fst pv)) (fst wv) ∧ "array" ∉ split_on dot (fst pv) ∧ split_on dot (fst pv) ≠ [] ∧ snd pv = snd wv) (leaf_nodes d) W).
  { assert (Hall : Forall (fun px => px ∈ leaf_nodes d) (leaf_nodes d)) by by apply Forall_forall.
    revert Hall. generalize (leaf_nodes d) at 2 3. intros L. induction L as [|[p x] L IH]; intros HA.
    - exists []. constructor.
    - inversion HA as [|? ? Hpx HA']; subst. destruct (IH HA') as [W HWs].
      apply Hin in Hpx as (l & Hl & ->). destruct (Dw _ _ Hl) as [_ [q Hq]]. destruct (Hpath _ _ Hl) as (N1 & N2 & N3).
      exists ((q, x) :: W). apply List.Forall2_cons; [|done]. cbn [fst snd]. by rewrite N2. }
  destruct HW as [W HW].
  assert (Hof : forall w v, (w, v) ∈ W <-> exists l, leaf_at d l v ∧ way (visible l) w).
  { intros w v. split.
    - intros [j Hj]%elem_of_list_lookup. destruct (Forall2_lookup_r _ _ _ _ _ HW Hj) as ([p x] & Hpx & Q1 & _ & _ & Q4).
      cbn [fst snd] in *. subst x. apply elem_of_list_lookup_2, Hin in Hpx as (l & Hl & ->).
      destruct (Hpath _ _ Hl) as (_ & N2 & _). rewrite N2 in Q1. by exists l.
    - intros (l & Hl & Hw). assert (Hpx : (dotted l, v) ∈ leaf_nodes d) by (apply Hin; by exists l).
      apply elem_of_list_lookup in Hpx as [j Hj]. destruct (Forall2_lookup_l _ _ _ _ _ HW Hj) as ([w' v'] & Hj' & Q1 & _ & _ & Q4).
      cbn [fst snd] in *. subst v'. destruct (Hpath _ _ Hl) as (_ & N2 & _). rewrite N2 in Q1.
      rewrite (way_fun _ _ _ Hw Q1). by eapply elem_of_list_lookup_2. }
  assert (HU : ForallOrdPairs (fun a b => strange (fst a) (fst b)) W).
  { assert (HD : NoDup (map fst (leaf_nodes d))).
    { apply leaf_nodes_distinct; [done|]. intros l l' x x' Hl Hl' E. destruct (Dw _ _ Hl) as [_ [q Hq]].
      apply (Du l l' x x' q q); [done|done|done|by rewrite <- E|done]. }
    assert (Hall : Forall (fun px => px ∈ leaf_nodes d) (leaf_nodes d)) by by apply Forall_forall.
    assert (HallW : Forall (fun wv => wv ∈ W) W) by by apply Forall_forall.
    revert HD Hall HallW HW. generalize (leaf_nodes d) at 1 3 4. intros L. generalize W at 2 3 4. intros W'. revert L.
    induction W' as [|[w v] W' IH]; intros L HD HA HB HW'; [constructor|].
    inversion HW' as [|[p x] ? L' ? (Q1 & Q2 & Q3 & Q4) HW'']; subst. cbn [map fst snd] in *. subst x.
    inversion HD as [|? ? D1 D2]; subst. inversion HA as [|? ? A1 A2]; subst. inversion HB as [|? ? B1 B2]; subst.
    constructor; [|by apply (IH L')].
    apply Forall_forall. intros [w2 v2] Hin2. cbn [fst].
    apply elem_of_list_lookup in Hin2 as [j Hj]. destruct (Forall2_lookup_r _ _ _ _ _ HW'' Hj) as ([p2 x2] & Hp2 & R1 & _ & _ & R4).
    cbn [fst snd] in *. subst x2. assert (Hne : p ≠ p2).
    { intros <-. apply D1. apply elem_of_list_fmap. exists (p, v2). split; [done|]. by eapply elem_of_list_lookup_2. }
    apply elem_of_list_lookup_2 in Hp2. rewrite Forall_forall in A2. apply A2 in Hp2.
    apply Hin in A1 as (l & Hl & ->), Hp2 as (l2 & Hl2 & ->).
    destruct (Hpath _ _ Hl) as (_ & N2 & _). rewrite N2 in Q1. destruct (Hpath _ _ Hl2) as (_ & N2' & _). rewrite N2' in R1.
    split; intros Hp; apply Hne; f_equal; [|symmetry].
    - exact (Du l l2 v v2 w w2 Hl Hl2 Q1 R1 Hp).
    - exact (Du l2 l v2 v w2 w Hl2 Hl R1 Q1 Hp). }
  assert (HR : Forall (fun wv => room (Some (WObj [])) (fst wv)) W).
  { apply Forall_forall. intros [w v] (l & Hl & Hw)%Hof. cbn [fst]. destruct (Hpath _ _ Hl) as (N1 & _ & N3).
    assert (Hne := way_ne _ _ Hw N1). assert (Hld := way_laid _ _ Hw N3).
    destruct w as [|[k|i] w]; [done| |inversion Hld]. apply rm_map. constructor. }
  destruct (build_all_put W (leaf_nodes d) [] HW HR HU) as (m' & E & F1 & _ & F3).
  exists (WObj m'). unfold build_from_leaf_nodes. rewrite E. cbn [rbind]. split; [done|]. split.
  - intros l x q Hl Hw. apply F1, Hof. by exists l.
  - intros q x [Hq|(w & v & Hwv & H)]%F3.
    + left. inversion Hq as [|? ? ? ? ? Eu| ]; subst; [done|done].
    + right. apply Hof in Hwv as (l & Hl & Hw). by exists l, v, w.
Qed.
