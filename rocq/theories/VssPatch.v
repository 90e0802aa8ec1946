(** Facts about the vehicle data generator: the patch between two data sets. *)
From Verif Require Import Base BaseLemmas BaseSpec BaseSpecLemmas Tjson TjsonSpec TjsonLemmas Tson TsonInd TsonSpec F64 TsonLemmas ConvLemmas ReadLemmas Serial Heap Patch PatchSpec
  PatchLemmas Diff DiffSpec DiffLemmas DiffPaths
  Json JsonSpec Bytes BytesLemmas JsonWrite JsonDiff JsonTson FrameDiff
  Vss VssSpec VssLemmas VssPlace VssFloat VssGen VssData VssNext VssPatchSpec VssTidy VssRead.
From Coq Require Import Lia.

Section kept.
Context (T : textlib) (num : f64 -> string).
Notation cell_writes := (cell_writes T num).
Notation leaf_writes := (leaf_writes T num).
Notation telemetry := (telemetry T num).
Notation pictures := (pictures T num).
Notation shows := (shows T num).

(** ** The order of members does not matter *)
Lemma same_doc_lookup (m m1 m2 : list (string * tson)) : NoDup (akeys m) -> m ≡ₚ m1 ->
  Forall2 (fun a b => fst a = fst b ∧ same_doc (snd a) (snd b)) m1 m2 ->
  NoDup (akeys m2) ∧ (forall k, is_Some (alookup k m) <-> is_Some (alookup k m2)) ∧
  (forall k u', alookup k m2 = Some u' -> exists u, alookup k m = Some u ∧ same_doc u u').
Proof.
  intros HN HP HF.
  assert (HK : akeys m2 = akeys m1).
  { clear -HF. induction HF as [|a b m1 m2 (E & _) HF IH]; [done|]. cbn. rewrite E. by f_equal. }
  assert (HK2 : akeys m2 ≡ₚ akeys m) by (rewrite HK; by apply Permutation_map).
  assert (HN2 : NoDup (akeys m2)) by (by rewrite HK2).
  split; [done|]. split.
  - intros k. destruct (alookup k m) eqn:E1, (alookup k m2) eqn:E2; try done.
    + apply alookup_Some_in, (elem_of_list_fmap_1 fst) in E1. apply alookup_None_iff in E2. rewrite HK2 in E2. done.
    + apply alookup_Some_in, (elem_of_list_fmap_1 fst) in E2. apply alookup_None_iff in E1. rewrite <- HK2 in E1. done.
  - intros k u' E. apply alookup_Some_in, elem_of_list_lookup in E as (i & Hi).
    destruct (Forall2_lookup_r _ _ _ _ _ HF Hi) as ([k' u] & Hu & Ek & Hd). cbn [fst snd] in *. subst k'.
    exists u. split; [|done]. apply alookup_in; [done|]. rewrite HP. by eapply elem_of_list_lookup_2.
Qed.
Lemma same_doc_wf t : forall t', same_doc t t' -> wf t -> wf t'.
Proof.
  induction t as [|p ts|m IH|l IH] using tson_ind'; intros t' HS HW; inversion HS as [| |? l' HF|? m1 m2 HP HF]; subst; try constructor.
  - inversion HW; subst. by destruct (same_doc_lookup m m1 m2) as (? & _).
  - inversion HW as [| |? HN HWm|]; subst. rewrite HP in HWm, IH. clear -HF HWm IH.
    induction HF as [|a b m1 m2 (_ & HD) HF IHF]; [constructor|]. inversion HWm; subst. inversion IH; subst. constructor; auto.
  - inversion HW as [| | |? HWl]; subst. clear HS HW.
    induction HF as [|a b l l' HD HF IHF]; [constructor|]. inversion HWl; subst. inversion IH; subst. constructor; auto.
Qed.
Lemma shows_same x t t' : shows x t -> same_doc t t' -> shows x t'.
Proof. intros (v & ts & z & H1 & H2 & H3 & H4 & ->) HS. inversion HS; subst. by exists v, ts, z. Qed.
Lemma pictures_same d : forall t t', pictures d t -> same_doc t t' -> pictures d t'.
Proof.
  induction d as [|b|f|z|s|l IH|m IH] using wjson_ind'; intros t t' HP HS; inversion HP as [? ? H|? l1 HF|? m1 Ht HN HN1 HK HM]; subst;
    try (apply pi_leaf; by eapply shows_same).
  - inversion HS as [| |? l2 HF2|]; subst. apply pi_arr. clear -HF HF2. revert l2 HF2. induction HF as [|x t l l1 Hx HF IH]; intros l2 HF2.
    + inversion HF2; subst. constructor.
    + inversion HF2; subst. constructor; [by eapply shows_same|auto].
  - inversion HS as [| | |? m2 m3 HP2 HF2]; subst. destruct (same_doc_lookup m1 m2 m3 HN1 HP2 HF2) as (N3 & K3 & L3).
    apply pi_obj; [done|done|done| |].
    + intros k. by rewrite HK, K3.
    + intros k w u Hin Hu. destruct (L3 k u Hu) as (u0 & Hu0 & Hd). rewrite Forall_forall in IH.
      apply (IH (k, w) Hin u0 u); [|done]. by apply (HM k).
Qed.

(** ** Data sets with the same leaves have the same frame *)
Definition filled (d : wjson) : Prop := forall l, l ≠ [] -> ~ item d l (WObj []).
Definition alike (d d' : wjson) : Prop :=
  (forall l, (exists x, leaf_at d l x) <-> exists x', leaf_at d' l x') ∧
  (forall l x x', leaf_at d l x -> leaf_at d' l x' -> same_type x x').
Lemma not_stamped (m : list (string * wjson)) : "timestamp" ∉ map fst m -> ~ stamped (WObj m).
Proof. intros H (m' & [= <-] & ?). done. Qed.
Lemma holds_has x v v' ts : holds x v ts -> has_value x v' -> v' = v.
Proof.
  intros Hh Hv. assert (HN := fun m => holds_keys _ _ _ m Hh). assert (Hv2 := holds_value _ _ _ Hh).
  destruct Hv as (m & -> & Hin). destruct Hv2 as (m' & [= <-] & Hin'). specialize (HN m eq_refl).
  apply alookup_in in Hin, Hin'; [|done..]. rewrite Hin in Hin'. by injection Hin'.
Qed.
Lemma as_prim_frame v z z' : same_frame (TLeaf (as_prim v) z) (TLeaf (as_prim v) z').
Proof. destruct v; constructor. Qed.
Lemma shows_frame x y u w : same_type x y -> shows x u -> shows y w -> same_frame u w.
Proof.
  intros HT (v1 & ts & z & Hx & Hw & _ & _ & ->) (v2 & ts2 & z2 & Hy & Hw2 & _ & _ & ->).
  inversion HT as [? ? ? ? H1 H2|? ? ? ? H1 H2|? ? ? ? H1 H2|? ? ? ? H1 H2|l l' HF]; subst;
    try (apply (holds_has _ _ _ _ Hx) in H1; apply (holds_has _ _ _ _ Hy) in H2; subst v1 v2; cbn; constructor).
  destruct Hx as (? & ? & _). done.
Qed.
Lemma filled_child m k v : filled (WObj m) -> (k, v) ∈ m -> no_empty v.
Proof. intros H Hin l Hi. apply (H (k :: l)); [done|]. by econstructor. Qed.
Lemma no_empty_filled v : no_empty v -> filled v.
Proof. intros H l _. apply H. Qed.
Lemma alike_sym d d' : (forall l, (exists x, leaf_at d l x) <-> exists x', leaf_at d' l x') -> (forall l, (exists x, leaf_at d' l x) <-> exists x', leaf_at d l x').
Proof. intros H l. by rewrite H. Qed.
Lemma leaf_names m m' k : filled (WObj m) -> "timestamp" ∉ map fst m ->
  (forall l, (exists x, leaf_at (WObj m) l x) <-> exists x', leaf_at (WObj m') l x') -> k ∈ map fst m -> k ∈ map fst m'.
Proof.
  intros F Hm HL ([k' v] & -> & Hin)%elem_of_list_fmap. cbn [fst].
  destruct (full_leaf v (or_introl (filled_child _ _ _ F Hin))) as (l & x & Hl).
  destruct (proj1 (HL (k' :: l))) as (x' & Hl'); [exists x; econstructor; [by apply not_stamped|done|done]|].
  inversion Hl' as [|? ? v' ? ? _ Hin' _]; subst. by apply (elem_of_list_fmap_1 fst) in Hin'.
Qed.
Lemma alike_frame d : forall d' a b, filled d -> filled d' -> alike d d' -> pictures d a -> pictures d' b -> same_frame a b.
Proof.
  assert (Hleaf : forall x t, shows x t -> leaf_at x [] x).
  { intros x t (v & ts & z & Hh & _). apply la_here. right. by eapply holds_stamped. }
  assert (Harr : forall l, leaf_at (WArr l) [] (WArr l)) by (intros l; apply la_here; left; by intros [? ?]).
  assert (Hno : forall m x, "timestamp" ∉ map fst m -> ~ leaf_at (WObj m) [] x).
  { intros m x Hm Hl. inversion Hl as [? Hd|]; subst. destruct Hd as [Hd|Hd]; [by destruct Hd; exists m|by destruct (not_stamped m Hm)]. }
  assert (Hhv : forall l v, ~ has_value (WArr l) v) by (intros l v (? & ? & _); done).
  induction d as [|e|f|z|s|l IH|m IH] using wjson_ind'; intros d' a b F F' [HL HT] Pa Pb;
    inversion Pa as [? ? Sa|? l1 Fa|? m1 Ha Na N1 Ka Ma]; subst;
    try (assert (L1 := Hleaf _ _ Sa); destruct (proj1 (HL [])) as (x' & L2); [by eexists|];
         assert (x' = d') by (by inversion L2); subst x'; assert (HTT := HT _ _ _ L1 L2);
         inversion Pb as [? ? Sb|? l2 Fb|? m2 Hb Nb N2 Kb Mb]; subst;
         [ exact (shows_frame _ _ _ _ HTT Sa Sb)
         | inversion HTT as [? ? ? ? _ H2|? ? ? ? _ H2|? ? ? ? _ H2|? ? ? ? _ H2|? ? ?]; subst; try (by destruct (Hhv _ _ H2));
           destruct Sa as (? & ? & ? & (? & ? & _) & _); done
         | by destruct (Hno _ _ Hb L2)]).
  - assert (L1 := Harr l). destruct (proj1 (HL [])) as (x' & L2); [by eexists|].
    assert (x' = d') by (by inversion L2). subst x'. assert (HTT := HT _ _ _ L1 L2).
    inversion HTT as [? ? ? ? H2|? ? ? ? H2|? ? ? ? H2|? ? ? ? H2|? l' FF]; subst; try (by destruct (Hhv _ _ H2)).
    inversion Pb as [? ? Sb|? l2 Fb|]; subst; [destruct Sb as (? & ? & ? & (? & ? & _) & _); done|].
    constructor. clear -Fa FF Fb.
    revert l1 l2 Fa Fb. induction FF as [|x y l l' (v & Hx & Hy) FF IH]; intros l1 l2 Fa Fb; inversion Fa as [|? ? ? ? S1 F1]; inversion Fb as [|? ? ? ? S2 F2]; subst; constructor; [|auto].
    destruct S1 as (v1 & ts1 & z1 & Hx1 & _ & _ & _ & ->). destruct S2 as (v2 & ts2 & z2 & Hy1 & _ & _ & _ & ->).
    apply (holds_has _ _ _ _ Hx1) in Hx. apply (holds_has _ _ _ _ Hy1) in Hy. subst v1 v2. apply as_prim_frame.
  - assert (Hd' : exists m', d' = WObj m' ∧ "timestamp" ∉ map fst m').
    { inversion Pb as [? ? Sb|? l2 Fb|? m2 Hb Nb N2 Kb Mb]; subst.
      - destruct (proj2 (HL [])) as (x & Hx); [by exists d'; eapply Hleaf|]. by destruct (Hno _ _ Ha Hx).
      - destruct (proj2 (HL [])) as (x & Hx); [eexists; apply Harr|]. by destruct (Hno _ _ Ha Hx).
      - by eexists. }
    destruct Hd' as (m' & -> & Hts').
    inversion Pb as [? ? Sb|? l2 Fb|? m2 Hb Nb N2 Kb Mb]; subst.
    { destruct Sb as (? & ? & ? & Hh & _). apply holds_stamped in Hh. by destruct (not_stamped _ Hts'). }
    apply sr_obj.
    + intros k. rewrite <- Ka, <- Kb. split; [by apply leaf_names|]. apply leaf_names; [done|done|]. by apply alike_sym.
    + intros k u v Hu Hv.
      assert (Hk : k ∈ map fst m) by (apply Ka; by eexists). assert (Hk' : k ∈ map fst m') by (apply Kb; by eexists).
      apply elem_of_list_fmap in Hk as ([k1 w] & -> & Hin). cbn [fst] in *. apply elem_of_list_fmap in Hk' as ([k2 w'] & -> & Hin'). cbn [fst] in *.
      rewrite Forall_forall in IH. apply (IH (k2, w) Hin w').
      * exact (no_empty_filled _ (filled_child _ _ _ F Hin)).
      * exact (no_empty_filled _ (filled_child _ _ _ F' Hin')).
      * assert (Hun : forall l x, leaf_at (WObj m) (k2 :: l) x -> leaf_at w l x).
        { intros l x Hl. inversion Hl as [|? ? v0 ? ? _ Hin0 Hl0]; subst. apply alookup_in in Hin, Hin0; [|done..].
          rewrite Hin in Hin0. by injection Hin0 as <-. }
        assert (Hun' : forall l x, leaf_at (WObj m') (k2 :: l) x -> leaf_at w' l x).
        { intros l x Hl. inversion Hl as [|? ? v0 ? ? _ Hin0 Hl0]; subst. apply alookup_in in Hin', Hin0; [|done..].
          rewrite Hin' in Hin0. by injection Hin0 as <-. }
        assert (Hup : forall l x, leaf_at w l x -> leaf_at (WObj m) (k2 :: l) x) by (intros; econstructor; [by apply not_stamped|done|done]).
        assert (Hup' : forall l x, leaf_at w' l x -> leaf_at (WObj m') (k2 :: l) x) by (intros; econstructor; [by apply not_stamped|done|done]).
        split.
        -- intros l. split; intros (x & Hx).
           ++ destruct (proj1 (HL (k2 :: l))) as (x' & Hx'); [exists x; auto|]. exists x'. auto.
           ++ destruct (proj2 (HL (k2 :: l))) as (x' & Hx'); [exists x; auto|]. exists x'. auto.
        -- intros l x x' Hx Hx'. apply (HT (k2 :: l)); auto.
      * by apply (Ma k2).
      * by apply (Mb k2).
Qed.

(** ** Cells are the leaves of the document *)
Lemma cell_leaf x q v ts w t : holds x w t -> cell x q v ts <-> q = [] ∧ holds x v ts.
Proof.
  intros Hh. assert (Hs := holds_stamped _ _ _ Hh). split.
  - intros (l & y & Hl & HC). apply leaf_at_leaf in Hl as [-> ->]; [|by right].
    destruct HC as [[-> ?]|(i & xs & y & _ & -> & _)]; [done|]. by destruct Hh as (? & ? & _).
  - intros [-> Hv]. exists [], x. split; [by apply leaf_at_leaf; [right|]|]. by left.
Qed.
Lemma cell_arr l q v ts : cell (WArr l) q v ts <-> exists i y, q = [Elem i] ∧ l !! i = Some y ∧ holds y v ts.
Proof.
  assert (HA : ~ is_map (WArr l) ∨ stamped (WArr l)) by (left; by intros [? ?]). split.
  - intros (l0 & y & Hl & HC). apply leaf_at_leaf in Hl as [-> ->]; [|done].
    destruct HC as [[_ (? & ? & _)]|(i & xs & y & -> & [= <-] & Hy & Hv)]; [done|]. by exists i, y.
  - intros (i & y & -> & Hy & Hv). exists [], (WArr l). split; [by apply leaf_at_leaf|]. right. by exists i, l, y.
Qed.
Lemma cell_obj m q v ts : "timestamp" ∉ map fst m ->
  cell (WObj m) q v ts <-> exists k w q', (k, w) ∈ m ∧ q = Key k :: q' ∧ cell w q' v ts.
Proof.
  intros Hm. apply not_stamped in Hm as Hs. split.
  - intros (l & x & Hl & HC). inversion Hl as [? Hd|? k w l' ? _ Hin Hl']; subst; [destruct Hd as [Hd|Hd]; [by destruct Hd; exists m|done]|].
    destruct HC as [[-> Hv]|(i & xs & y & -> & -> & Hy & Hv)].
    + exists k, w, (map Key l'). split; [done|]. split; [done|]. exists l', x. split; [done|]. by left.
    + exists k, w, (map Key l' ++ [Elem i]). split; [done|]. split; [done|]. exists l', (WArr xs). split; [done|]. right. by exists i, xs, y.
  - intros (k & w & q' & Hin & -> & l & x & Hl & HC). exists (k :: l), x. split; [by econstructor|].
    destruct HC as [[-> Hv]|(i & xs & y & -> & -> & Hy & Hv)]; [by left|]. right. by exists i, xs, y.
Qed.
Lemma at_cell d : forall t q p z, pictures d t -> at_path t q = Some (TLeaf p z) <->
  exists v ts, cell d q v ts ∧ value_writes T num v ∧ stamp_writes T ts ∧ read_stamp (f64_of_Z ts) z ∧ p = as_prim v.
Proof.
  assert (Hshow : forall x t q p z, shows x t -> at_path t q = Some (TLeaf p z) <->
    exists v ts, (q = [] ∧ holds x v ts) ∧ value_writes T num v ∧ stamp_writes T ts ∧ read_stamp (f64_of_Z ts) z ∧ p = as_prim v).
  { intros x t q p z (v & ts & z0 & Hh & Hv & Hts & Hz & ->). split.
    - intros Hq. destruct q as [|[k|i] q]; try done. injection Hq as <- <-. by exists v, ts.
    - intros (v' & ts' & [-> Hh'] & _ & _ & Hz' & ->). destruct (holds_fun _ _ _ _ _ Hh Hh') as [<- <-].
      cbn. by rewrite (read_stamp_fun _ _ _ Hz Hz'). }
  assert (Hcell : forall x t q p z, shows x t -> at_path t q = Some (TLeaf p z) <->
    exists v ts, cell x q v ts ∧ value_writes T num v ∧ stamp_writes T ts ∧ read_stamp (f64_of_Z ts) z ∧ p = as_prim v).
  { intros x t q p z Hs. rewrite (Hshow x t q p z Hs). destruct Hs as (v0 & ts0 & z0 & Hh & _).
    split; intros (v & ts & H1 & H2); exists v, ts; (split; [|done]); by apply (cell_leaf x q v ts v0 ts0 Hh). }
  induction d as [|e|f|y|s|l IH|m IH] using wjson_ind'; intros t q p z HP; inversion HP as [? ? H|? l1 HF|? m1 Ht HN HN1 HK HM]; subst;
    try (by apply Hcell).
  - split.
    + intros Hq. destruct q as [|[k|i] q]; try done. cbn [at_path] in Hq. destruct (l1 !! i) as [u|] eqn:Ei; [|done]. cbn in Hq.
      destruct (Forall2_lookup_r _ _ _ _ _ HF Ei) as (x & Hx & Hs). destruct (proj1 (Hshow x u q p z Hs) Hq) as (v & ts & (Eq & Hh) & Hr). subst q.
      exists v, ts. split; [|done]. apply cell_arr. by exists i, x.
    + intros (v & ts & HC & Hr). apply cell_arr in HC as (i & x & -> & Hx & Hh).
      assert (HE := Forall2_lookup_l _ _ _ _ _ HF Hx). destruct HE as (u & Hu & Hs).
      cbn [at_path]. rewrite Hu. cbn. apply (Hshow x u [] p z Hs). by exists v, ts.
  - rewrite Forall_forall in IH. split.
    + intros Hq. destruct q as [|[k|i] q]; try done. rewrite at_key in Hq. destruct (alookup k m1) as [u|] eqn:Ek; [|done]. cbn in Hq.
      assert (Hk : k ∈ map fst m) by (apply HK; by eexists). apply elem_of_list_fmap in Hk as ([k' w] & Ekk & Hin). cbn [fst] in Ekk. subst k'. rename k into k'.
      destruct (proj1 (IH (k', w) Hin u q p z (HM k' w u Hin Ek)) Hq) as (v & ts & HC & Hr). exists v, ts. split; [|done].
      apply cell_obj; [done|]. by exists k', w, q.
    + intros (v & ts & HC & Hr). apply cell_obj in HC as (k & w & q' & Hin & -> & HC); [|done]. rewrite at_key.
      assert (Hk : is_Some (alookup k m1)) by (apply HK; by apply (elem_of_list_fmap_1 fst) in Hin). destruct Hk as (u & Hu).
      rewrite Hu. cbn. apply (IH (k, w) Hin u); [by apply (HM k)|]. by exists v, ts.
Qed.
Lemma frame_meets a : forall b q x y, same_frame a b -> at_path a q = Some x -> at_path b q = Some y -> meets a b q x y.
Proof.
  induction a as [|p ts|m IH|l IH] using tson_ind'; intros b q x y HS Ha Hb; destruct q as [|[k|i] q];
    try (injection Ha as <-; injection Hb as <-; constructor); try discriminate Ha.
  - inversion HS as [| | | | |? m' HK HM]; subst. rewrite at_key in Ha, Hb.
    destruct (alookup k m) as [u|] eqn:Eu; [|done]. destruct (alookup k m') as [v|] eqn:Ev; [|done]. cbn in Ha, Hb.
    rewrite Forall_forall in IH. econstructor; [done|done|]. apply alookup_Some_in in Eu as Hin. apply (IH (k, u) Hin); [|done|done].
    by apply (HM k).
  - inversion HS as [| | | |? l' HF|]; subst. cbn [at_path] in Ha, Hb.
    destruct (l !! i) as [u|] eqn:Eu; [|done]. destruct (l' !! i) as [v|] eqn:Ev; [|done]. cbn in Ha, Hb.
    rewrite Forall_forall in IH. econstructor; [by eapply Forall2_length|done|done|].
    apply IH; [by eapply elem_of_list_lookup_2| |done|done]. by apply (Forall2_lookup_lr _ _ _ _ _ _ HF Eu Ev).
Qed.
Lemma meets_both a b q x y : meets a b q x y -> at_path a q = Some x ∧ at_path b q = Some y.
Proof.
  induction 1 as [a b|m m' k u v q x y Hu Hv _ [IH1 IH2]|l l' i u v q x y _ Hu Hv _ [IH1 IH2]]; [done| |].
  - rewrite !at_key, Hu, Hv. done.
  - cbn [at_path]. rewrite Hu, Hv. done.
Qed.
End kept.
