(** [Set], [TestSet] and [TemporalSnapshot] on documents. *)
From Verif Require Import Base BaseSpec BaseSpecLemmas F64 Tson TsonSpec BaseLemmas TsonLemmas Heap HeapSpec Patch Own PatchSpec TreePatch PatchLemmas
  Logument LogSpec LogLemmas ChangeLemmas ReplaySpec ReplayLemmas.
From Coq Require Import Lia.

(** ** Set *)
Lemma set_ignored op st : ~ writes op -> set op st = (st, Ok tt).
Proof.
  intros H. destruct st as [h L]. unfold set. destruct (op_kind op) eqn:E; try done; exfalso; apply H; unfold writes; rewrite E; auto.
Qed.
Lemma set_effect op h L : writes op ->
  match set op (h, L), apply_operation h (l_current L) op with
  | ((h', L'), Ok _), (h1, Ok v) =>
      h' = h1 ∧ l_current L' = v ∧ l_pool L' = Some (pending L ++ [op]) ∧
      l_version L' = l_version L ∧ l_snapshots L' = l_snapshots L ∧ l_patches L' = l_patches L
  | ((h', L'), Panic), (h1, Err) =>
      h' = h1 ∧ l_current L' = VNil ∧ l_pool L' = l_pool L ∧
      l_version L' = l_version L ∧ l_snapshots L' = l_snapshots L ∧ l_patches L' = l_patches L
  | ((h', L'), Panic), (h1, Panic) => h' = h1 ∧ L' = L
  | _, _ => False
  end.
Proof.
  intros Hk. unfold set. rewrite (writes_set _ Hk). cbn [negb].
  destruct (apply_operation h (l_current L) op) as [h1 [v| |]]; done.
Qed.
Lemma set_records op h L ks t p :
  doc_of h (l_current L) t -> spells (op_path op) ks -> free_way t ks -> writes op -> payload (op_value op) p ->
  exists h' L' t', set op (h, L) = ((h', L'), Ok tt) ∧
    pending L' = pending L ++ [op] ∧ l_current L' = l_current L ∧ doc_of h' (l_current L) t' ∧
    at_path t' (keys ks) = Some (TLeaf p (op_ts op)) ∧
    (forall q, apart (keys ks) q -> at_path t' q = at_path t q) ∧
    l_version L' = l_version L ∧ l_snapshots L' = l_snapshots L ∧ l_patches L' = l_patches L.
Proof.
  intros HD Hs Hw Hk Hp. destruct (set_doc _ _ _ _ _ _ HD Hs Hw Hk Hp) as (h' & t' & Ha & HD' & H1 & H2 & _).
  pose proof (set_effect op h L Hk) as HE. rewrite Ha in HE.
  destruct (set op (h, L)) as [[h2 L2] [[]| |]]; try done.
  destruct HE as (-> & E1 & E2 & E3 & E4 & E5). exists h', L2, t'. unfold pending at 1. rewrite E2. done.
Qed.
Lemma set_broken op h L h' L' : writes op -> apply_operation h (l_current L) op = (h', Err) ->
  set op (h, L) = ((h', L'), snd (set op (h, L))) ->
  snd (set op (h, L)) = Panic ∧ pending L' = pending L ∧ l_current L' = VNil ∧
  forall ops, Forall writes ops ->
    Forall (fun op' => snd (set op' (h', L')) = Panic) ops ∧ run (h', L') (map CSet ops) = (h', L').
Proof.
  intros Hk Ha E. pose proof (set_effect op h L Hk) as HE. rewrite Ha, E in HE.
  destruct (snd (set op (h, L))); try done. destruct HE as (_ & E1 & E2 & _).
  split; [done|]. split; [unfold pending; by rewrite E2|]. split; [done|].
  assert (Hone : forall op', writes op' -> set op' (h', L') = ((h', L'), Panic)).
  { intros op' Hk'. unfold set. rewrite (writes_set _ Hk'), E1. cbn [negb].
    unfold apply_operation. destruct (op_parts (op_path op')) eqn:Ep; [by apply op_parts_ne in Ep|]. cbn.
    f_equal. f_equal. destruct L'. cbn in *. by subst. }
  induction ops as [|o ops IH]; intros HF; [done|]. inversion HF as [|? ? H1 H2]; subst. destruct (IH H2) as [I1 I2]. split.
  - constructor; [by rewrite Hone|done].
  - cbn [map run fold_left run_call]. rewrite (Hone o H1). exact I2.
Qed.

(** ** TestSet *)
Lemma leaf_compare_iff c v : leaf_compare_value c v = true <-> leaf_shows v c.
Proof.
  split.
  - destruct c as [|[x|x|x] ts| |], v; try done; cbn; intros H.
    + apply bool_decide_eq_true in H as ->. constructor.
    + by constructor.
    + apply eqb_prop in H as ->. constructor.
  - destruct 1; cbn; [by apply bool_decide_eq_true|done|apply eqb_reflx].
Qed.
Lemma test_set_other op st : ~ writes op -> test_set op st = (st, Ok tt).
Proof.
  intros H. destruct st as [h L]. unfold test_set. destruct (op_kind op) eqn:E; try done; exfalso; apply H; unfold writes; rewrite E; auto.
Qed.
Lemma test_set_add op st : op_kind op = OAdd -> test_set op st = set op st.
Proof. intros H. destruct st. unfold test_set. by rewrite H. Qed.
Lemma test_set_replace op h L n s t : op_kind op = OReplace -> last (l_version L) = Some n ->
  l_snapshots L !! n = Some s -> read h s = Some t ->
  match get_value t (op_path op) with
  | Ok c => (leaf_shows (op_value op) c -> test_set op (h, L) = ((h, L), Ok tt)) ∧
            (~ leaf_shows (op_value op) c -> test_set op (h, L) = set op (h, L))
  | Err => test_set op (h, L) = set (Op OAdd (op_path op) (op_value op) (op_ts op)) (h, L)
  | Panic => test_set op (h, L) = ((h, L), Panic)
  end.
Proof.
  intros Hk Hl Hs Hr. unfold test_set, last_version. rewrite Hk, Hl, Hs. cbn [from_option id].
  rewrite Hr. destruct (get_value t (op_path op)) as [c| |]; [|done|done].
  destruct (leaf_compare_value c (op_value op)) eqn:E; split; intros H; try done.
  - apply leaf_compare_iff in E. done.
  - apply leaf_compare_iff in H. congruence.
Qed.
Lemma test_set_none op h L n : op_kind op = OReplace -> last (l_version L) = Some n ->
  l_snapshots L !! n = None ->
  test_set op (h, L) = set (Op OAdd (op_path op) (op_value op) (op_ts op)) (h, L).
Proof.
  intros Hk Hl Hs. unfold test_set, last_version. rewrite Hk, Hl, Hs. cbn [from_option id].
  replace (read h VNil) with (Some TNil) by (unfold read; by destruct (length h)).
  unfold get_value. destruct (tail _); done.
Qed.

Lemma objects_free ks : forall t, ks <> [] ->
  (forall q, q `prefix_of` keys ks -> q <> keys ks -> exists m, at_path t q = Some (TObj m)) -> free_way t ks.
Proof.
  induction ks as [|k ks IH]; intros t Hne HP; [done|].
  destruct (HP [] (prefix_nil _)) as [m Hm]; [done|]. cbn in Hm. injection Hm as ->.
  destruct ks as [|k2 ks]; [constructor|].
  destruct (HP [Key k]) as [m' Hm']; [apply prefix_cons, prefix_nil|done|]. cbn in Hm'.
  destruct (alookup k m) as [c|] eqn:Hk; [|done]. cbn in Hm'. injection Hm' as ->.
  apply (fw_in _ _ (TObj m')); [done|]. apply IH; [done|]. intros q Hq Hq'.
  destruct (HP (Key k :: q)) as [mq Hmq]; [by apply prefix_cons|intros E; injection E as E; by apply Hq'|].
  rewrite at_key, Hk in Hmq. cbn in Hmq. by exists mq.
Qed.
Lemma spells_pointer ks : ks <> [] -> Forall plain ks -> spells (pointer ks) ("" :: ks).
Proof.
  assert (Hgen : forall k ks, plain k -> Forall plain ks -> spells (escaped k +++ pointer ks) (k :: ks)).
  { intros k ks'. revert k. induction ks' as [|k' ks' IH]; intros k Hk HF.
    - cbn [pointer]. replace (escaped k +++ "") with (escaped k); [by constructor|].
      induction (escaped k) as [|a s IHs]; cbn; congruence.
    - inversion HF; subst. cbn [pointer]. change ("/" +++ escaped k' +++ pointer ks') with (String slash (escaped k' +++ pointer ks')).
      apply sp_more; [done|by left|by apply IH]. }
  intros Hne HF. destruct ks as [|k ks]; [done|]. inversion HF; subst. cbn [pointer].
  change ("/" +++ escaped k +++ pointer ks) with (escaped "" +++ String slash (escaped k +++ pointer ks)).
  apply sp_more; [|by left|by apply Hgen]. split; intros (a & b & E); by destruct a.
Qed.
Lemma get_value_first k ks m m' : plain k -> alookup k m' = alookup k m ->
  get_value (TObj m') (pointer (k :: ks)) = get_value (TObj m) (pointer (k :: ks)).
Proof.
  intros [Hk _] E. rewrite !get_value_pointer by done.
  assert (Ek : key_parts (k :: ks) = k :: key_parts ks).
  { unfold key_parts. cbn [map concat]. by rewrite split_on_none by (by apply has_char_false). }
  rewrite Ek. cbn [get_parts]. by rewrite E.
Qed.

(** Every repetition is recorded again. *)
Lemma test_set_repeats op h L n l t k ks p c m :
  op_kind op = OReplace -> op_path op = pointer (k :: ks) -> Forall plain (k :: ks) -> k <> "" ->
  payload (op_value op) p ->
  last (l_version L) = Some n -> l_snapshots L !! n = Some (VObj l) -> l_current L = VObj l ->
  doc_of h (VObj l) t -> free_way t ("" :: k :: ks) ->
  get_value t (op_path op) = Ok c -> ~ leaf_shows (op_value op) c ->
  pending (snd (run (h, L) (replicate m (CTestSet op)))) = pending L ++ replicate m op.
Proof.
  intros Hk Hp HF Hk0 Hpl. revert h L t. induction m as [|m IH]; intros h L t Hl Hs Hc HD Hw Hg Hns.
  - cbn. by rewrite app_nil_r.
  - cbn [replicate run fold_left run_call].
    pose proof (test_set_replace op h L n (VObj l) t Hk Hl Hs (read_doc _ _ _ HD)) as HT. rewrite Hg in HT.
    destruct HT as [_ HT]. rewrite (HT Hns).
    assert (Hsp : spells (op_path op) ("" :: k :: ks)) by (rewrite Hp; by apply spells_pointer).
    assert (Hwr : writes op) by (by right).
    rewrite <- Hc in HD.
    destruct (set_doc _ _ _ _ _ _ HD Hsp Hw Hwr Hpl) as (h' & t' & Ha & HD' & H1 & H2 & H3).
    pose proof (set_effect op h L Hwr) as HE. rewrite Ha in HE.
    destruct (set op (h, L)) as [[h2 L2] [[]| |]]; try done. destruct HE as (-> & E1 & E2 & E3 & E4 & E5).
    cbn [fst]. unfold run in IH. rewrite (IH h' L2 t').
    + unfold pending at 1. rewrite E2. cbn [default from_option id]. rewrite <- app_assoc. done.
    + by rewrite E3.
    + by rewrite E4.
    + congruence.
    + by rewrite <- Hc.
    + by apply objects_free.
    + rewrite <- Hg, Hp. destruct (free_obj _ _ Hw) as [m0 ->].
      destruct (H3 [] (prefix_nil _) ltac:(done)) as [m1 Hm1]. cbn in Hm1. injection Hm1 as ->.
      inversion HF; subst. apply get_value_first; [done|].
      assert (Hat : at_path (TObj m1) [Key k] = at_path (TObj m0) [Key k]).
      { apply H2. split; intros Hpre.
        - destruct Hpre as [z Hz]. cbn in Hz. by destruct z.
        - destruct Hpre as [z Hz]. cbn in Hz. congruence. }
      rewrite !at_key in Hat. cbn in Hat. destruct (alookup k m1), (alookup k m0); cbn in Hat; congruence.
    + done.
Qed.

(** ** TemporalSnapshot *)
Definition kept_ok (ts : Z) (pre : list operation) (m : list (string * operation)) : Prop :=
  NoDup (akeys m) ∧
  (forall k p, (k, p) ∈ m -> op_path p = k ∧ p ∈ pre ∧ op_ts p <= ts ∧
     forall q, q ∈ pre -> op_path q = k -> op_ts q <= ts -> op_ts q <= op_ts p) ∧
  (forall q, q ∈ pre -> op_ts q <= ts -> op_path q ∈ akeys m).
Lemma keep_latest_ok ts pre m p : kept_ok ts pre m -> kept_ok ts (pre ++ [p]) (keep_latest ts m p).
Proof.
  intros (HN & HM & HC). unfold keep_latest.
  destruct (Z.leb_spec (op_ts p) ts) as [Hle|Hgt].
  - assert (Hins : (forall e, alookup (op_path p) m = Some e -> op_ts e < op_ts p) ->
      kept_ok ts (pre ++ [p]) (ainsert (op_path p) p m)).
    { intros He. pose proof (NoDup_ainsert (op_path p) p m HN) as HN'. split; [done|]. split.
      - intros k x Hx. apply (alookup_in _ _ _ HN') in Hx. rewrite alookup_ainsert in Hx. case_decide as Hk.
        + injection Hx as <-. subst k. split; [done|]. split; [apply elem_of_app; right; apply elem_of_list_here|]. split; [done|].
          intros q Hq Hqp Hqt. apply elem_of_app in Hq as [Hq|Hq].
          * pose proof (HC q Hq Hqt) as Hin. rewrite Hqp in Hin.
            destruct (alookup (op_path p) m) as [e|] eqn:Ee; [|by apply alookup_None_iff in Ee].
            specialize (He e eq_refl). apply alookup_Some_in in Ee. destruct (HM _ _ Ee) as (_ & _ & _ & Hmax).
            specialize (Hmax q Hq Hqp Hqt). lia.
          * apply elem_of_list_singleton in Hq as ->. lia.
        + apply alookup_Some_in in Hx. destruct (HM _ _ Hx) as (H1 & H2 & H3 & H4). split; [done|].
          split; [apply elem_of_app; by left|]. split; [done|]. intros q Hq Hqp Hqt. apply elem_of_app in Hq as [Hq|Hq]; [by apply H4|].
          apply elem_of_list_singleton in Hq as ->. congruence.
      - intros q Hq Hqt. assert (Hd : alookup (op_path q) (ainsert (op_path p) p m) <> None).
        { rewrite alookup_ainsert. case_decide as Hk; [done|]. apply elem_of_app in Hq as [Hq|Hq].
          - intros HX. apply alookup_None_iff in HX. by apply HX, HC.
          - apply elem_of_list_singleton in Hq as ->. done. }
        destruct (decide (op_path q ∈ akeys (ainsert (op_path p) p m))) as [|Hn]; [done|]. by apply alookup_None_iff in Hn. }
    destruct (alookup (op_path p) m) as [e|] eqn:Ee; [|by apply Hins].
    destruct (Z.ltb_spec (op_ts e) (op_ts p)) as [Hlt|Hge]; [apply Hins; by intros e' [= <-]|].
    apply alookup_Some_in in Ee as Hin. split; [done|]. split.
    + intros k x Hx. destruct (HM _ _ Hx) as (H1 & H2 & H3 & H4). split; [done|].
      split; [apply elem_of_app; by left|]. split; [done|]. intros q Hq Hqp Hqt. apply elem_of_app in Hq as [Hq|Hq]; [by apply H4|].
      apply elem_of_list_singleton in Hq as ->. subst k. rewrite <- Hqp in Hx.
      apply (alookup_in _ _ _ HN) in Hx. rewrite Ee in Hx. injection Hx as ->. lia.
    + intros q Hq Hqt. apply elem_of_app in Hq as [Hq|Hq]; [by apply HC|].
      apply elem_of_list_singleton in Hq as ->. apply elem_of_list_fmap. by exists (op_path p, e).
  - split; [done|]. split.
    + intros k x Hx. destruct (HM _ _ Hx) as (H1 & H2 & H3 & H4). split; [done|].
      split; [apply elem_of_app; by left|]. split; [done|]. intros q Hq Hqp Hqt. apply elem_of_app in Hq as [Hq|Hq]; [by apply H4|].
      apply elem_of_list_singleton in Hq as ->. lia.
    + intros q Hq Hqt. apply elem_of_app in Hq as [Hq|Hq]; [by apply HC|].
      apply elem_of_list_singleton in Hq as ->. lia.
Qed.
Lemma keep_latest_fold ts ps : forall pre m, kept_ok ts pre m -> kept_ok ts (pre ++ ps) (fold_left (keep_latest ts) ps m).
Proof.
  induction ps as [|p ps IH]; intros pre m H; cbn [fold_left]; [by rewrite app_nil_r|].
  replace (pre ++ p :: ps) with ((pre ++ [p]) ++ ps) by (by rewrite <- app_assoc). apply IH. by apply keep_latest_ok.
Qed.
Lemma latest_of_kept ts ops ops' m l : ops' ≡ₚ ops -> kept_ok ts ops' m -> l ≡ₚ m -> latest_per_path ts ops (map snd l).
Proof.
  intros HPo (HN & HM & HC) HP.
  assert (Hpath : map op_path (map snd l) = map fst l).
  { rewrite map_map. apply map_ext_in. intros [k p] Hin. cbn. apply (HM k p). rewrite <- HP. by apply elem_of_list_In. }
  split; [rewrite Hpath|split].
  - unfold akeys in HN. eapply NoDup_Permutation_proper; [|exact HN]. by apply fmap_Permutation.
  - intros p Hp. apply elem_of_list_fmap in Hp as ([k p'] & -> & Hin). rewrite HP in Hin. cbn.
    destruct (HM _ _ Hin) as (H1 & H2 & H3 & H4). rewrite HPo in H2. split; [done|]. split; [done|].
    intros q Hq. rewrite H1. apply H4. by rewrite HPo.
  - intros q Hq Hqt. rewrite <- HPo in Hq. specialize (HC q Hq Hqt). apply elem_of_list_fmap in HC as ([k p] & E & Hin). cbn in E.
    destruct (HM _ _ Hin) as (H1 & _). exists p. split; [|congruence]. apply elem_of_list_fmap. exists (k, p). split; [done|]. by rewrite HP.
Qed.

Lemma by_time_iff h L ts u lts : snapped L u -> latest_ts_of h (default VNil (l_snapshots L !! u)) = Ok lts ->
  by_time h L ts u <-> lts <= ts.
Proof.
  intros [s Hs] E. rewrite Hs in E. cbn in E. unfold latest_ts_of in E.
  destruct (read h s) as [t|] eqn:Er; [|done]. split.
  - intros (s' & t' & z & Hs' & Hr & Hz & Hle). rewrite Hs in Hs'. injection Hs' as <-. rewrite Er in Hr. injection Hr as <-.
    rewrite E in Hz. by injection Hz as ->.
  - intros Hle. by exists s, t, lts.
Qed.
Lemma pick_spec h L ts vs : forall acc w, (forall v, v ∈ vs -> snapped L v) -> pick_snapshot h L ts vs acc = Ok w ->
  (w = acc ∧ (forall u vs', vs = u :: vs' -> ¬ by_time h L ts u)) ∨
  (exists a b, vs = a ++ w :: b ∧ Forall (by_time h L ts) (a ++ [w]) ∧ (forall u b', b = u :: b' -> ¬ by_time h L ts u)).
Proof.
  induction vs as [|v vs IH]; intros acc w HS E; cbn in E; [left; by injection E as <-|].
  destruct (latest_ts_of _ _) as [lts| |] eqn:El; try done. cbn in E.
  pose proof (by_time_iff h L ts v lts (HS v (elem_of_list_here _ _)) El) as Hbt.
  destruct (Z.leb_spec lts ts) as [Hle|Hgt].
  - right. destruct (IH v w) as [[-> Hnext]|(a & b & -> & HF & Hnext)]; [intros x Hx; apply HS; by apply elem_of_list_further|done|..].
    + exists [], vs. split; [done|]. split; [constructor; [by apply Hbt|done]|]. by intros u b' ->; eapply Hnext.
    + exists (v :: a), b. split; [done|]. split; [constructor; [by apply Hbt|done]|done].
  - left. injection E as <-. split; [done|]. intros u vs' [= <- _] HB. apply Hbt in HB. lia.
Qed.
Lemma pick_chosen h L ts w : consistent L ->
  pick_snapshot h L ts (sorted_keys (l_snapshots L)) 0 = Ok w -> snapped L w ∧ chosen h L ts w.
Proof.
  intros HC E. pose proof HC as (n & _ & _ & _ & H0).
  pose proof (sorted_keys_sorted (l_snapshots L)) as HSo. pose proof (sorted_keys_nodup (l_snapshots L)) as HN.
  assert (Hel : forall v, v ∈ sorted_keys (l_snapshots L) <-> snapped L v) by (intros v; apply sorted_keys_elem).
  apply pick_spec in E; [|intros v; apply Hel].
  destruct E as [[-> Hnext]|(a & b & Evs & HF & Hnext)].
  - split; [done|]. left. split; [done|].
    destruct (sorted_keys (l_snapshots L)) as [|u vs] eqn:Evs; [by apply Hel, elem_of_nil in H0|].
    assert (u = 0%N) as ->; [|by eapply Hnext].
    inversion HSo as [|? ? _ HF]; subst. apply Hel in H0. apply elem_of_cons in H0 as [->|H0]; [done|].
    rewrite Forall_forall in HF. specialize (HF _ H0). lia.
  - assert (Hw : snapped L w) by (apply Hel; rewrite Evs; apply elem_of_app; right; apply elem_of_list_here).
    split; [done|]. right. split; [done|]. rewrite Evs in HSo, HN. rewrite Forall_forall in HF. split.
    + intros u Hu Hle. apply Hel in Hu. rewrite Evs in Hu.
      apply HF. destruct (decide (u = w)) as [->|Hne]; [apply elem_of_app; right; apply elem_of_list_here|].
      apply elem_of_app. left. apply (CompactLemmas.sorted_split a w b u HSo HN Hu). lia.
    + intros u Hu Hlt. apply Hel in Hu. rewrite Evs in Hu.
      assert (Hub : u ∈ b).
      { apply elem_of_app in Hu as Hu2. destruct Hu2 as [Hu2|Hu2].
        - apply (CompactLemmas.sorted_split a w b u HSo HN Hu) in Hu2. lia.
        - apply elem_of_cons in Hu2 as [->|Hu2]; [lia|done]. }
      destruct b as [|u0 b]; [by apply elem_of_nil in Hub|]. exists u0.
      assert (Hu0 : u0 ∈ a ++ w :: u0 :: b) by (apply elem_of_app; right; apply elem_of_list_further, elem_of_list_here).
      split; [apply Hel; by rewrite Evs|]. split; [|by eapply Hnext]. split.
      * assert (~ (u0 < w)%N).
        { intros Hx. apply (CompactLemmas.sorted_split a w _ u0 HSo HN Hu0) in Hx.
          apply NoDup_app in HN as (_ & HN & _). apply (HN u0 Hx). apply elem_of_list_further, elem_of_list_here. }
        assert (u0 <> w); [|lia]. intros ->. apply NoDup_app in HN as (_ & _ & HN). apply NoDup_cons in HN as [HN _]. apply HN, elem_of_list_here.
      * apply elem_of_cons in Hub as [->|Hub]; [lia|].
        assert (HSb : StronglySorted N.le (u0 :: b)).
        { clear -HSo. induction a as [|x a IH]; cbn in HSo; inversion HSo; subst; [done|auto]. }
        inversion HSb as [|? ? _ HFb]; subst. rewrite Forall_forall in HFb. by apply HFb.
Qed.
Lemma temporal_snapshot_is orc ts h L h' L' r : consistent L -> oracle_ok orc ->
  temporal_snapshot orc ts (h, L) = ((h', L'), Ok r) ->
  exists n w s, last (l_version L) = Some n ∧ chosen h L ts w ∧ l_snapshots L !! w = Some s ∧ l_snapshots L' = l_snapshots L ∧
   ((w = n ∧ l_pool L = None ∧ h' = h ∧ L' = L ∧ r = s) ∨
    (exists ops sel, (if decide (w = n) then l_pool L else l_patches L !! (w + 1)%N) = Some ops ∧
       latest_per_path ts ops sel ∧ apply_patch h s sel = (h', Ok r) ∧
       exists ops', l_patches L' !! (w + 1)%N = Some ops' ∧ ops' ≡ₚ ops)).
Proof.
  intros HC HO E. destruct (temporal_snapshot_snaps orc ts h L HC) as [Hsn _]. rewrite E in Hsn. cbn in Hsn.
  unfold temporal_snapshot in E. pose proof HC as (n & Hv & Hp & Hs & _).
  assert (Hlast : last_version L = Some (N.of_nat n)) by (by apply consistent_last).
  rewrite Hlast, Hv in E. cbn [seq map] in E. change (N.of_nat 0) with 0%N in E.
  destruct (pick_snapshot _ _ _ _ _) as [w| |] eqn:Epk; [|done|done].
  destruct (pick_chosen h L ts w HC Epk) as [[s Hws] Hch]. assert (Hwn : (w <= N.of_nat n)%N) by (apply Hs; by eexists).
  rewrite Hws in E. change (default VNil (Some s)) with s in E.
  exists (N.of_nat n), w, s. split; [done|]. split; [done|]. split; [done|]. split; [done|].
  assert (HG : forall L1 ops, l_patches L1 !! (w + 1)%N = Some ops ->
     match apply_patch h s (map snd (or_ops orc (fold_left (keep_latest ts) (patch_at
        (match l_patches L1 !! (w + 1)%N with
         | Some _ => with_patches L1 (<[(w + 1)%N := or_sort orc (patch_at L1 (w + 1))]> (l_patches L1))
         | None => L1 end) (w + 1)) []))) with
     | (h1, Ok t) => ((h1, match l_patches L1 !! (w + 1)%N with
         | Some _ => with_patches L1 (<[(w + 1)%N := or_sort orc (patch_at L1 (w + 1))]> (l_patches L1))
         | None => L1 end) : state, Ok t)
     | (h1, _) => ((h1, match l_patches L1 !! (w + 1)%N with
         | Some _ => with_patches L1 (<[(w + 1)%N := or_sort orc (patch_at L1 (w + 1))]> (l_patches L1))
         | None => L1 end), Panic)
     end = ((h', L'), Ok r) ->
     exists sel, latest_per_path ts ops sel ∧ apply_patch h s sel = (h', Ok r) ∧
       exists ops', l_patches L' !! (w + 1)%N = Some ops' ∧ ops' ≡ₚ ops).
  { intros L1 ops EL1 E1. rewrite EL1 in E1. unfold patch_at in E1. cbn [l_patches with_patches] in E1.
    rewrite lookup_insert, EL1 in E1. cbn [from_option id default] in E1.
    destruct (proj1 HO ops) as [Hperm _].
    assert (Hko : kept_ok ts (or_sort orc ops) (fold_left (keep_latest ts) (or_sort orc ops) [])).
    { apply (keep_latest_fold ts (or_sort orc ops) []). split; [constructor|]. split; [by intros k p ?%elem_of_nil|by intros q ?%elem_of_nil]. }
    eexists. split; [eapply latest_of_kept; [exact Hperm|exact Hko|apply (proj1 (proj2 HO))]|].
    destruct (apply_patch h s _) as [h1 [t| |]] eqn:Eap in E1; [|done|done]. injection E1 as <- <- <-. split; [exact Eap|].
    exists (or_sort orc ops). split; [|done]. cbn. by rewrite lookup_insert. }
  destruct (N.leb_spec (N.of_nat n) w) as [Hle|Hlt].
  - assert (w = N.of_nat n) as -> by lia. destruct (append_cases h L HC) as [_ HA].
    destruct (l_pool L) as [pp|] eqn:Epool.
    + right. destruct HA as (n' & Hn' & _ & HA). assert (n' = n) as -> by (by eapply version_count).
      destruct (append (h, L)) as [[ha La] ra]. cbn in HA. injection HA as _ ->.
      destruct (HG (Lgm (nats (S (S n))) (l_current L) (l_snapshots L) (<[(N.of_nat n + 1)%N:=pp]> (l_patches L)) None) pp) as (sel & H); [cbn; apply lookup_insert|exact E|].
      exists pp, sel. split; [by rewrite decide_True|done].
    + left. by injection E as <- <- <-.
  - right. destruct (l_patches L !! (w + 1)%N) as [ops|] eqn:Eops.
    + destruct (HG L ops Eops) as (sel & H); [rewrite Eops; exact E|]. exists ops, sel. split; [by rewrite decide_False by lia|done].
    + assert (HI : is_Some (l_patches L !! (w + 1)%N)) by (apply Hp; lia). rewrite Eops in HI. by destruct HI.
Qed.
Lemma temporal_snapshot_null ts ops sel h s h' r : latest_per_path ts ops sel ->
  (forall p, p ∈ ops -> ts < op_ts p) -> apply_patch h s sel = (h', Ok r) -> r = VNil ∧ h' = h.
Proof.
  intros (_ & H & _) Hno E. destruct sel as [|p sel].
  - unfold apply_patch in E. cbn in E. by injection E as <- <-.
  - destruct (H p (elem_of_list_here _ _)) as (H1 & H2 & _). specialize (Hno p H1). lia.
Qed.
Lemma temporal_snapshot_reach orc ts h L h' L' r : reachable (h, L) -> oracle_ok orc ->
  temporal_snapshot orc ts (h, L) = ((h', L'), Ok r) ->
  exists n w s, last (l_version L) = Some n ∧ chosen h L ts w ∧ l_snapshots L !! w = Some s ∧ l_snapshots L' = l_snapshots L ∧
   ((w = n ∧ l_pool L = None ∧ h' = h ∧ L' = L ∧ r = s) ∨
    (exists ops sel, (if decide (w = n) then l_pool L else l_patches L !! (w + 1)%N) = Some ops ∧
       latest_per_path ts ops sel ∧ apply_patch h s sel = (h', Ok r) ∧
       exists ops', l_patches L' !! (w + 1)%N = Some ops' ∧ ops' ≡ₚ ops)).
Proof. intros HR. apply temporal_snapshot_is. by apply (reachable_consistent _ HR). Qed.
Lemma set_pending op h L : writes op ->
  (snd (set op (h, L)) = Ok tt ∧ pending (snd (fst (set op (h, L)))) = pending L ++ [op]) ∨
  (snd (set op (h, L)) = Panic ∧ pending (snd (fst (set op (h, L)))) = pending L).
Proof.
  intros Hk. pose proof (set_effect op h L Hk) as H.
  destruct (apply_operation h (l_current L) op) as [h1 [v| |]];
    destruct (set op (h, L)) as [[h' L'] [[]| |]]; try done; cbn [fst snd].
  - left. split; [done|]. destruct H as (_ & _ & E & _). unfold pending at 1. by rewrite E.
  - right. split; [done|]. destruct H as (_ & _ & E & _). unfold pending. by rewrite E.
  - right. split; [done|]. by destruct H as [_ ->].
Qed.
Lemma test_set_kinds op st :
  (op_kind op = OAdd -> test_set op st = set op st) ∧ (~ writes op -> test_set op st = (st, Ok tt)).
Proof. split; [apply test_set_add|apply test_set_other]. Qed.
