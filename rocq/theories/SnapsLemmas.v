(** The files of the snapshots. *)
From stdpp Require Import pretty.
From Verif Require Import Base BaseSpec BaseSpecLemmas BaseLemmas F64 Tson TsonInd TsonSpec TextSpec F64Lemmas TsonLemmas ConvLemmas Heap HeapSpec Patch Own PatchSpec TreePatch PatchLemmas
  Json Bytes BytesSpec BytesLemmas ReplaySpec SetLemmas CompactReplay Tjson TjsonSpec Initial InitialSpec Query QuerySpec QueryLemmas Sensor Sim SimSpec SimLemmas SimDocs Temporal TemporalSpec TempDocs TempLog
  InitialLemmas VssLemmas TjsonLemmas Snaps SnapsSpec DiffApply.
From Coq Require Import Lia.

(** ** Names *)
Lemma snap_numbered k : snap_name k = numbered k.
Proof. unfold snap_name, numbered. by rewrite pretty_elem. Qed.
Lemma app_str_inj (a b c : string) : a +++ c = b +++ c -> a = b.
Proof.
  intros E. assert (Hl : String.length a = String.length b).
  { apply (f_equal String.length) in E. assert (L : forall x y, String.length (x +++ y) = (String.length x + String.length y)%nat).
    { induction x as [|ch x IH]; intros y; [done|]. cbn. by rewrite <- IH. }
    rewrite !L in E. lia. }
  revert b E Hl. induction a as [|ch a IH]; intros [|ch' b] E Hl; try done. cbn in E. injection E as -> E. f_equal. apply IH; [done|]. cbn in Hl. lia.
Qed.
Lemma numbered_inj i j : numbered i = numbered j -> i = j.
Proof.
  unfold numbered. rewrite !pretty_elem. intros E. change (dec_text (N.of_nat i) +++ ".json" = dec_text (N.of_nat j) +++ ".json") in |- * || idtac.
  assert (E' : dec_text (N.of_nat i) +++ ".json" = dec_text (N.of_nat j) +++ ".json") by (by injection E).
  apply app_str_inj, dec_text_inj in E'. lia.
Qed.

(** ** Encodable documents *)
Lemma finite_insert k c m : finite_nums c -> finite_nums (TObj m) -> finite_nums (TObj (ainsert k c m)).
Proof.
  intros Hc Hm. inversion Hm as [| | | |? HF|]; subst. constructor. clear Hm.
  induction m as [|[k' c'] m IH]; cbn; [constructor; [done|constructor]|].
  inversion HF; subst. case_decide; constructor; try done. by apply IH.
Qed.
Lemma finite_lookup k c m : finite_nums (TObj m) -> alookup k m = Some c -> finite_nums c.
Proof.
  intros Hm Hk. inversion Hm as [| | | |? HF|]; subst. apply alookup_Some_in in Hk. rewrite Forall_forall in HF. exact (HF _ Hk).
Qed.
Lemma finite_put ks : forall t lf, finite_nums t -> finite_nums lf -> finite_nums (put t ks lf).
Proof.
  induction ks as [|k ks IH]; intros t lf Ht Hl; destruct t as [| |m|]; try done.
  destruct ks as [|k2 ks]; [by apply finite_insert|]. rewrite put_more. apply finite_insert; [|done].
  apply IH; [|done]. unfold child_obj. destruct (alookup k m) as [c|] eqn:E; [|repeat constructor].
  pose proof (finite_lookup _ _ _ Ht E) as Hc. destruct c; try done; constructor; constructor.
Qed.

(** ** The loop *)
Section loop.
Context (m : list (string * json)) (us0 : list tpatch).
Context (Hnamed : InitialSpec.named path_name (JObj m)) (Hnull : jnull_free (JObj m) = true).
Context (Hus : forall u, u ∈ us0 -> exists l, updates m u l).
Notation d0 := (stamp_json (JObj m)).
Notation ops := (map operation_of us0).

Lemma after_none : state_after m d0 [] d0.
Proof.
  split; [|done]. intros l v w z Hb Hs HL. inversion HL as [Hn|a u b E]; subst; [|by destruct a].
  rewrite at_stamp, Hb. cbn. destruct (stamp_scalar w Hs) as (x & Ex & Hx); [|rewrite Ex; by exists x].
  intros ->. by apply (below_null _ _ _ Hnull) in Hb.
Qed.
Lemma after_step pre u d l x : state_after m d0 pre d -> good d ops -> u ∈ us0 -> updates m u l ->
  payload (op_value (operation_of u)) x ->
  state_after m d0 (pre ++ [u]) (put d (op_parts (op_path (operation_of u))) (TLeaf x (tp_ts u))).
Proof.
  intros [S1 S2] HG Hu Hl Hx. pose proof HG as [G1 _]. assert (Hop : operation_of u ∈ ops) by (apply elem_of_list_fmap; by exists u).
  destruct (G1 _ Hop) as (Hw & _ & Hf).
  destruct (put_set_at (operation_of u) x d _ Hf (writes_set _ Hw) (payload_scalar _ _ Hx)) as (_ & P1 & P2 & _).
  change (op_ts (operation_of u)) with (tp_ts u) in P1, P2. pose proof (update_parts m Hnamed _ _ Hl) as El. rewrite El in Hf, P1, P2 |- *.
  pose proof Hl as (_ & Ep & _ & _ & v' & Hb' & Hs').
  split.
  - intros l' v w z Hb Hs HL. destruct (decide (l' = l)) as [->|Hne].
    + assert (w = tp_value u ∧ z = tp_ts u) as [-> ->].
      { inversion HL as [Hn|a u' b E Hp Hlast]; subst.
        - exfalso. apply (Hn u); [apply elem_of_app; right; left|done].
        - destruct b as [|u'' b _] using rev_ind; [apply app_inj_tail in E as [_ ->]; done|].
          rewrite app_comm_cons, app_assoc in E. apply app_inj_tail in E as [_ <-]. exfalso. apply (Hlast u); [apply elem_of_app; right; left|done]. }
      exists x. split; [done|]. destruct (update_payload m u l Hl) as (y & Hy & Ey). by rewrite (payload_fun _ _ _ Hx Hy).
    + destruct (below_apart l l' _ v' v Hb' Hs' Hb Hs) as [->|Hap]; [done|].
      rewrite P2 by done. apply (S1 l' v); [done|done|].
      assert (Hnp : tp_path u <> String.concat "." l').
      { intros E. apply Hne. rewrite <- (below_spells m Hnamed _ _ Hb Hs), <- E, Ep. by apply (below_spells m Hnamed l v'). }
      inversion HL as [Hn|a u' b E Hp Hlast]; subst.
      * apply ls_none. intros q Hq. apply Hn. apply elem_of_app. by left.
      * destruct b as [|u'' b _] using rev_ind.
        { apply app_inj_tail in E as [_ ->]. by destruct Hnp. }
        rewrite app_comm_cons, app_assoc in E. apply app_inj_tail in E as [-> <-]. apply (ls_last _ _ _ a u' b); [done|done|].
        intros q Hq. apply Hlast. apply elem_of_app. by left.
  - intros q Hq. rewrite P2; [|apply (Hq u l); [apply elem_of_app; right; left|done]]. apply S2. intros u' l' Hu'. apply Hq. apply elem_of_app. by left.
Qed.
Lemma save_ok name h v d dir : doc_of h v d -> finite_nums d -> save_file name h v dir = ainsert name (json_written d) dir.
Proof. intros HD HF. unfold save_file, to_bytes. rewrite (read_doc _ _ _ HD). by rewrite (proj2 (encodable_finite d) HF). Qed.
Lemma loop_ok rest us : forall done h l d dir, (forall u, u ∈ us -> u ∈ us0) -> doc_of h (VObj l) d -> good d ops -> finite_nums d ->
  Forall (fun u => json_encodable (tp_value u) = true) us -> state_after m d0 done d ->
  exists h' d' dir' ds, snap_loop (length done) (us ++ rest) h (VObj l) dir = snap_loop (length done + length us) rest h' (VObj l) dir' ∧
    doc_of h' (VObj l) d' ∧ good d' ops ∧ length ds = length us ∧
    (forall i e, ds !! i = Some e -> state_after m d0 (done ++ take (S i) us) e) ∧
    filed dir' (S (length done)) ds ∧ else_same dir dir' (S (length done)) (length us).
Proof.
  induction us as [|u us IH]; intros done h l d dir E HD HG HF HE HA.
  - exists h, d, dir, []. rewrite Nat.add_0_r. split; [done|]. split; [done|]. split; [done|]. split; [done|]. split; [done|]. split; done.
  - assert (Hu : u ∈ us0) by (apply E; left). destruct (Hus u Hu) as [lu Hl].
    inversion HE as [|? ? HE1 HE2]; subst x l0. destruct (update_payload m u lu Hl) as (x & Hx & Ex).
    pose proof HG as [G1 _]. assert (Hop : operation_of u ∈ ops) by (apply elem_of_list_fmap; by exists u).
    destruct (G1 _ Hop) as (Hw & _ & Hf).
    pose proof (ptrav_put (operation_of u) x _ d Hf (writes_set _ Hw) (payload_scalar _ _ Hx)) as Ep.
    set (d' := put d (op_parts (op_path (operation_of u))) (TLeaf x (op_ts (operation_of u)))) in *.
    destruct (apply_patch h (VObj l) [operation_of u]) as [h' r] eqn:Ea. pose proof (apply_patch_doc _ _ _ _ _ _ HD Ea) as HX.
    cbn [papply] in HX. rewrite Ep in HX. destruct r as [r| |]; try done. destruct HX as [HD' ->].
    assert (HF' : finite_nums d').
    { apply finite_put; [done|]. destruct x as [s|f|b]; [constructor| |constructor]. rewrite <- Ex in HE1.
      apply (encodable_finite (TLeaf (PNum f) (op_ts (operation_of u)))). exact HE1. }
    destruct (IH (done ++ [u]) h' l d' (ainsert (snap_name (S (length done))) (json_written d') dir)) as (h2 & d2 & dir' & ds & El & HD2 & HG2 & Hlen & HS & HFi & HO).
    + intros u' Hu'. apply E. by right.
    + done.
    + by apply good_put.
    + done.
    + done.
    + by apply (after_step _ _ _ lu).
    + assert (Elen : length (done ++ [u]) = S (length done)) by (rewrite app_length; cbn; lia). rewrite Elen in *.
      exists h2, d2, dir', (d' :: ds). split.
      { cbn [app snap_loop]. rewrite Ea. rewrite decide_False by done. rewrite (save_ok _ _ _ d') by done. rewrite El. cbn [length]. by rewrite Nat.add_succ_r. }
      split; [done|]. split; [done|]. split; [cbn; lia|]. split; [|split].
      * intros [|i] e He; [injection He as <-|].
        -- cbn [take]. by apply (after_step _ _ _ lu).
        -- specialize (HS i e He). rewrite <- app_assoc in HS. exact HS.
      * intros [|i] e He; [injection He as <-|].
        -- rewrite Nat.add_0_r. rewrite HO; [rewrite snap_numbered; by rewrite alookup_ainsert_eq|].
           intros i Hi E'. apply numbered_inj in E'. lia.
        -- specialize (HFi i e He). by rewrite Nat.add_succ_r.
      * intros name Hn. rewrite HO.
        -- rewrite snap_numbered. apply alookup_ainsert_ne. specialize (Hn 0%nat). rewrite Nat.add_0_r in Hn. apply Hn. cbn. lia.
        -- intros i Hi. specialize (Hn (S i)). rewrite Nat.add_succ_r in Hn. apply Hn. cbn. lia.
Qed.
End loop.

Lemma files_start file m us0 us rest h dir : transform file = JObj m -> InitialSpec.named path_name (JObj m) -> json_encodable (JObj m) = true -> jnull_free (JObj m) = true ->
  (forall u, u ∈ us0 -> exists l, updates m u l) -> (forall u, u ∈ us -> u ∈ us0) -> Forall (fun u => json_encodable (tp_value u) = true) us ->
  exists h' l d' dir' ds, create_snapshots file (us ++ rest) h dir = snap_loop (length us) rest h' (VObj l) dir' ∧
    doc_of h' (VObj l) d' ∧ good d' (map operation_of us0) ∧
    length ds = S (length us) ∧ (forall i d, ds !! i = Some d -> state_after m (stamp_json (JObj m)) (take i us) d) ∧ filed dir' 0 ds ∧ else_same dir dir' 0 (S (length us)).
Proof.
  intros Ef Hn He Hf Hus Hin HE. unfold create_snapshots. rewrite Ef, from_json_spec by (done || (left; by eexists)). rewrite Hf.
  destruct (alloc_tree h (stamp_json (JObj m))) as [h' v] eqn:Ea. pose proof (alloc_tree_doc _ _ _ _ Ea) as HD.
  assert (Hv : exists l, v = VObj l).
  { destruct HD as (lt & _ & Hr & Hl). cbn [stamp_json] in Hl. destruct lt; try done. cbn in Hr. by eexists. }
  destruct Hv as [l ->].
  assert (HF : finite_nums (stamp_json (JObj m))) by (apply encodable_finite; by rewrite encodable_stamp).
  rewrite (save_ok _ _ _ _ dir HD HF).
  destruct (loop_ok m us0 Hn Hus rest us [] h' l (stamp_json (JObj m)) (ainsert (snap_name 0) (json_written (stamp_json (JObj m))) dir)) as (h2 & d2 & dir' & ds & El & HD2 & HG2 & Hlen & HS & HFi & HO);
    [done|done|by apply ops_good|done|done|by apply after_none|].
  exists h2, l, d2, dir', (stamp_json (JObj m) :: ds). split; [exact El|]. split; [done|]. split; [done|].
  split; [cbn; lia|]. split; [|split].
  - intros [|i] d Hd; [injection Hd as <-; by apply after_none|]. by apply (HS i).
  - intros [|i] d Hd; [injection Hd as <-|].
    + rewrite HO; [rewrite snap_numbered; by rewrite alookup_ainsert_eq|]. intros i Hi E'. apply numbered_inj in E'. cbn in E'. lia.
    + specialize (HFi i d Hd). exact HFi.
  - intros name Hna. rewrite HO.
    + rewrite snap_numbered. apply alookup_ainsert_ne. apply (Hna 0%nat). lia.
    + intros i Hi. apply (Hna (S i)). lia.
Qed.
Lemma snapshot_files file m us h dir : transform file = JObj m -> InitialSpec.named path_name (JObj m) -> json_encodable (JObj m) = true -> jnull_free (JObj m) = true ->
  (forall u, u ∈ us -> exists l, updates m u l) -> Forall (fun u => json_encodable (tp_value u) = true) us ->
  exists dir' ds d0, create_snapshots file us h dir = (dir', Ok tt) ∧ plain_json d0 = JObj m ∧ every_stamp (fun z => z = -1) d0 ∧
    length ds = S (length us) ∧ (forall i d, ds !! i = Some d -> state_after m d0 (take i us) d) ∧ filed dir' 0 ds ∧ else_same dir dir' 0 (S (length us)).
Proof.
  intros Ef Hn He Hf Hus HE. destruct (files_start file m us us [] h dir Ef Hn He Hf Hus (fun _ H => H) HE) as (h' & l & d' & dir' & ds & E & _ & _ & HR).
  rewrite app_nil_r in E. exists dir', ds, (stamp_json (JObj m)). split; [exact E|]. split; [apply plain_stamp|]. split; [apply stamp_default|]. exact HR.
Qed.
Lemma ptrav_bad op ks : forall t, free_way t ks -> op_kind op <> ORemove -> (is_set (op_kind op) = true -> scalar_of (op_value op) = None) ->
  snd (ptrav op ks t) <> Ok tt.
Proof.
  induction ks as [|k ks IH]; intros t Hw Hk Hp; [inversion Hw|].
  assert (HB : forall t' m', free_way t' ks -> snd (put_back m' k (ptrav op ks t')) <> Ok tt).
  { intros t' m' Hw'. specialize (IH t' Hw' Hk Hp). destruct (ptrav op ks t') as [c [[]| |]]; done. }
  destruct (free_obj _ _ Hw) as [m ->]. destruct ks as [|k2 ks].
  - rewrite ptrav_cons. cbv beta iota. destruct (op_kind op); cbn in *; try done; rewrite Hp by done; done.
  - rewrite ptrav_cons. cbv beta iota. inversion Hw as [|? ? c ? Hc Hw'|? ? ? Hm Hne HF]; subst.
    + rewrite Hc. destruct (free_obj _ _ Hw') as [m' ->]. by apply HB.
    + inversion HF as [|? ? Hk2 _]; subst. apply parse_int_none in Hk2.
      destruct Hm as [Hm|Hm]; rewrite Hm, Hk2; destruct (is_set (op_kind op)); try done; apply HB, free_new; done.
Qed.
Lemma refused_kind u : refused u -> op_kind (operation_of u) <> ORemove ∧ (is_set (op_kind (operation_of u)) = true -> scalar_of (op_value (operation_of u)) = None).
Proof.
  unfold refused, operation_of, Json.op_of_name. cbn [op_kind op_value]. intros [(H1 & H2 & H3)|[H Hv]].
  - repeat (case_decide; [done|]); done.
  - split; [destruct H as [-> | ->]; done|]. intros _. destruct Hv as [-> |Hv]; [done|]. destruct (tp_value u); try done; destruct Hv; intros [[x E]|[x E]]; done.
Qed.
Lemma snapshot_stop file m us u rest l h dir : transform file = JObj m -> InitialSpec.named path_name (JObj m) -> json_encodable (JObj m) = true -> jnull_free (JObj m) = true ->
  (forall u, u ∈ us -> exists l, updates m u l) -> Forall (fun u => json_encodable (tp_value u) = true) us ->
  tp_path u = String.concat "." l -> (exists v, below l (JObj m) = Some v ∧ scalar v) -> refused u ->
  exists dir' ds d0, create_snapshots file (us ++ u :: rest) h dir = (dir', Panic) ∧ plain_json d0 = JObj m ∧ every_stamp (fun z => z = -1) d0 ∧
    length ds = S (length us) ∧ (forall i d, ds !! i = Some d -> state_after m d0 (take i us) d) ∧ filed dir' 0 ds ∧ else_same dir dir' 0 (S (length us)).
Proof.
  intros Ef Hn He Hf Hus HE Hp (v & Hb & Hs) Hr. set (u0 := TPatch "add" (tp_path u) (JBool true) 0).
  assert (Hu0 : updates m u0 l).
  { split; [by left|]. split; [done|]. split; [|split; [done|by exists v]]. intros [[x Ex]|[x Ex]]; done. }
  destruct (files_start file m (u0 :: us) us (u :: rest) h dir Ef Hn He Hf) as (h' & lo & d' & dir' & ds & E & HD & HG & HR); [| |done|].
  - intros u' [-> |Hu']%elem_of_cons; [by exists l|by apply Hus].
  - intros u' Hu'. by right.
  - exists dir', ds, (stamp_json (JObj m)). split; [|split; [apply plain_stamp|split; [apply stamp_default|exact HR]]].
    rewrite E. cbn [snap_loop]. destruct HG as [G1 _]. destruct (G1 (operation_of u0)) as (_ & _ & Hfw); [left|].
    change (op_path (operation_of u0)) with (op_path (operation_of u)) in Hfw. destruct (refused_kind u Hr) as [K1 K2].
    pose proof (ptrav_bad (operation_of u) _ d' Hfw K1 K2) as Hbad.
    destruct (apply_patch h' (VObj lo) [operation_of u]) as [h2 r] eqn:Ea. pose proof (apply_patch_doc _ _ _ _ _ _ HD Ea) as HX.
    cbn [papply] in HX. destruct r as [r| |]; [|done|done]. exfalso. destruct (ptrav (operation_of u) _ d') as [c [[]| |]]; done.
Qed.

(** ** The files of a run *)
Lemma latest_set ps p l v0 x z : dotted p l -> latest ps p v0 (-1) x z -> last_set (map loaded ps) l (json_of_prim v0) (json_of_prim x) z.
Proof.
  intros Hd%dotted_concat HL. inversion HL as [Hn|a q b E Hp Hb]; subst.
  - apply ls_none. intros u Hu. apply loaded_in in Hu as (q & -> & Hq). cbn. by apply Hn.
  - rewrite map_app. cbn [map]. apply (ls_last _ _ _ (map loaded a) (loaded q) (map loaded b)); [done|done|].
    intros u Hu. apply loaded_in in Hu as (q' & -> & Hq'). cbn. by apply Hb.
Qed.
Lemma take_in {A} n (l : list A) x : x ∈ take n l -> x ∈ l.
Proof. intros H. rewrite <- (take_drop n l). apply elem_of_app. by left. Qed.
Lemma after_shows v m file jm d0 n d : files v m file jm -> plain_json d0 = JObj jm ->
  state_after jm d0 (map loaded (take n (m_tpatches m))) d -> shows_after v (take n (m_tpatches m)) d.
Proof.
  intros F E0 [S1 S2]. set (ps := take n (m_tpatches m)) in *.
  assert (G : forall p s l x z, (p, s) ∈ sensors v -> dotted p l -> latest ps p (s_value s) (-1) x z -> at_path d (keys l) = Some (TLeaf x z)).
  { intros p s l x z Hin Hl HK. pose proof (latest_set ps p l (s_value s) x z Hl HK) as HS.
    destruct (S1 l _ _ _ (fi_below _ _ _ _ F p s l Hin Hl) (prim_scalar _) HS) as (y & Hy & Ey). by apply prim_json_inj in Ey as ->. }
  split; [done|]. intros q x z Hq.
  assert (T : (forall u l, u ∈ map loaded ps -> updates jm u l -> PatchSpec.apart (keys l) q) ∨
              exists u l, updates jm u l ∧ (keys l `prefix_of` q ∨ q `prefix_of` keys l)).
  { destruct (decide (Exists (fun u => ~ (~ keys (split_on dot (tp_path u)) `prefix_of` q ∧ ~ q `prefix_of` keys (split_on dot (tp_path u)))) (map loaded ps))) as [E|E].
    - right. apply Exists_exists in E as (u & Hu & C).
      assert (Hu' : u ∈ map loaded (m_tpatches m)). { apply loaded_in in Hu as (q' & -> & Hq'). apply elem_of_list_fmap. exists q'. split; [done|]. by eapply take_in. }
      destruct (fi_us _ _ _ _ F u Hu') as [l Hl]. exists u, l. pose proof (files_names v m file jm u l F Hl) as Hd. apply names_split in Hd. fold dot in Hd. rewrite Hd in C.
      split; [done|]. destruct (apart_dec (keys l) q) as [A|A]; [|done]. by destruct C.
    - left. intros u l Hu Hl. destruct (apart_dec (keys l) q) as [A|A]; [done|]. exfalso. apply E, Exists_exists. exists u. split; [done|].
      pose proof (files_names v m file jm u l F Hl) as Hd. apply names_split in Hd. fold dot in Hd. rewrite Hd. intros [N1 N2]. by destruct A. }
  destruct T as [HU|(u & l & Hl & C)].
  - rewrite (S2 q HU) in Hq. destruct (fi_flat _ _ _ _ F q d0 x z E0 Hq) as (l & -> & Hl).
    destruct (fi_only _ _ _ _ F l _ Hl (prim_scalar x)) as (p & s & Hin & Hd). by exists p, s, l.
  - pose proof Hl as (_ & _ & _ & _ & y & Hy & Sy). destruct (fi_only _ _ _ _ F l y Hy Sy) as (p & s & Hin & Hd).
    exists p, s, l. split; [done|]. split; [done|]. destruct (latest_total ps p (s_value s) (-1)) as (x' & z' & HK).
    pose proof (G p s l x' z' Hin Hd HK) as Hp. destruct C as [[r C]|[r C]].
    + rewrite C in Hq. pose proof (leaf_below _ _ _ _ _ _ _ Hp Hq) as ->. by rewrite app_nil_r in C.
    + rewrite C in Hp. pose proof (leaf_below _ _ _ _ _ _ _ Hq Hp) as ->. by rewrite app_nil_r in C.
Qed.
Lemma finite_loaded v m : writable v m -> Forall (fun u => json_encodable (tp_value u) = true) (map loaded (m_tpatches m)).
Proof.
  intros [_ H]. apply List.Forall_forall. intros u Hu%elem_of_list_In. apply loaded_in in Hu as (q & -> & Hq). specialize (H q Hq). cbn. by destruct (sp_value q).
Qed.
Lemma run_snapshots w v sc sec inc m m0 file h dir : simulate w v sc sec inc = Ok m -> start w v sc = Ok m0 -> orders_ok w -> separate v -> 0 < inc ->
  plain_paths v -> writable v m -> decoded (WObj (m_json m0)) file ->
  exists dir' ds, create_snapshots file (map loaded (m_tpatches m)) h dir = (dir', Ok tt) ∧ length ds = S (length (m_tpatches m)) ∧
    (forall i d, ds !! i = Some d -> shows_after v (take i (m_tpatches m)) d) ∧ filed dir' 0 ds ∧ else_same dir dir' 0 (S (length (m_tpatches m))).
Proof.
  intros H H0 Ho Hs Hi HP HW HD. destruct (run_files w v sc sec inc m m0 file H H0 Ho Hs Hi HP HW HD) as [jm F].
  destruct (snapshot_files file jm (map loaded (m_tpatches m)) h dir (fi_file _ _ _ _ F) (files_named _ _ _ _ F) (fi_enc _ _ _ _ F) (fi_full _ _ _ _ F) (fi_us _ _ _ _ F) (finite_loaded v m HW))
    as (dir' & ds & d0 & E & E0 & _ & Hl & HS & HF & HO). rewrite map_length in *. exists dir', ds. split; [done|]. split; [done|]. split; [|done].
  intros i d Hd. apply (after_shows v m file jm d0); [done|done|]. specialize (HS i d Hd). by rewrite firstn_map in HS.
Qed.
(** The patches up to a time come first. *)
Lemma sorted_take t (ps : list spatch) : StronglySorted Z.le (map sp_ts ps) -> let ps' := filter (fun q => sp_ts q <= t) ps in take (length ps') ps = ps'.
Proof.
  induction ps as [|q ps IH]; intros HS; [done|]. cbn [map] in HS. inversion HS as [|? ? HS1 HS2]; subst. cbn zeta in *.
  destruct (decide (sp_ts q <= t)) as [Hq|Hq].
  - rewrite filter_cons_True by done. cbn [length take]. f_equal. by apply IH.
  - rewrite filter_cons_False by done. assert (E : filter (fun q => sp_ts q <= t) ps = []).
    { destruct (filter _ ps) as [|q' l] eqn:E; [done|]. assert (Hin : q' ∈ filter (fun q => sp_ts q <= t) ps) by (rewrite E; left).
      apply elem_of_list_filter in Hin as [Ht Hin]. rewrite List.Forall_forall in HS2. specialize (HS2 (sp_ts q')). exfalso.
      assert (sp_ts q <= sp_ts q'); [|lia]. apply HS2, elem_of_list_In, elem_of_list_fmap. by exists q'. }
    by rewrite E.
Qed.
Lemma run_moment w v sc sec inc m m0 file h dir t : simulate w v sc sec inc = Ok m -> start w v sc = Ok m0 -> orders_ok w -> separate v -> 0 < inc ->
  plain_paths v -> writable v m -> decoded (WObj (m_json m0)) file ->
  exists d, shows_run v m t d ∧
    alookup (numbered (length (filter (fun q => sp_ts q <= t) (m_tpatches m)))) (fst (create_snapshots file (map loaded (m_tpatches m)) h dir)) = Some (json_written d).
Proof.
  intros H H0 Ho Hs Hi HP HW HD. destruct (run_snapshots w v sc sec inc m m0 file h dir H H0 Ho Hs Hi HP HW HD) as (dir' & ds & E & Hl & HS & HF & _).
  destruct (separate_apart v Hs) as [Hnd _]. destruct (run_patches w v sc sec inc m H Ho Hnd Hi) as (_ & Hso & _).
  set (k := length (filter (fun q => sp_ts q <= t) (m_tpatches m))).
  assert (Hk : (k < length ds)%nat). { rewrite Hl. pose proof (sorted_take t _ Hso) as Et. cbn zeta in Et. fold k in Et. apply (f_equal length) in Et. rewrite take_length in Et. fold k in Et. lia. }
  destruct (lookup_lt_is_Some_2 ds k Hk) as [d Hd]. exists d. rewrite E. cbn [fst]. split; [|by apply HF].
  specialize (HS k d Hd). unfold k in HS. rewrite (sorted_take t _ Hso) in HS. exact HS.
Qed.
(** Files of an earlier call. *)
Lemma save_other name h v dir n : n <> name -> alookup n (save_file name h v dir) = alookup n dir.
Proof. intros Hn. unfold save_file. destruct (read h v) as [d|]; [|done]. destruct (to_bytes d); [by apply alookup_ainsert_ne|done|done]. Qed.
Lemma loop_other n us : forall k h v dir, (k + length us < n)%nat -> alookup (numbered n) (fst (snap_loop k us h v dir)) = alookup (numbered n) dir.
Proof.
  induction us as [|u us IH]; intros k h v dir Hk; [done|]. cbn [snap_loop length] in *. destruct (apply_patch h v [operation_of u]) as [h' [v'| |]]; [|done|done].
  rewrite IH by lia. apply save_other. rewrite snap_numbered. intros E%numbered_inj. lia.
Qed.
Lemma earlier_files file us h dir n : (length us < n)%nat -> alookup (numbered n) (fst (create_snapshots file us h dir)) = alookup (numbered n) dir.
Proof.
  intros Hn. unfold create_snapshots. destruct (snd (from_json (transform file))) as [t| |]; [|done|done]. destruct (alloc_tree h t) as [h' v].
  rewrite loop_other by lia. apply save_other. rewrite snap_numbered. intros E%numbered_inj. lia.
Qed.
