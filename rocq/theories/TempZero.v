(** A sensor patched at time 0: the temporal JSON document cannot show both its values there. *)
From Verif Require Import Base BaseSpec BaseLemmas F64 Tson TsonSpec Heap Patch PatchSpec PatchLemmas Logument LogSpec LogLemmas ReplaySpec Bytes TjsonSpec TjsonLemmas Tjson Initial
  InitialSpec InitialLemmas Json Query QuerySpec QueryLemmas QueryTrack QueryAgree Sensor Scenario Sim SimSpec SimTrace SimLemmas SimTimes SimDocs SimFinal VssLemmas Temporal TemporalSpec TempDocs TempLog TempTrack TempRun.

From Verif Require DiffLemmas.

(** ** The versions at one path *)
Notation vers_state := (list (string * json) * option (Z * json))%type.
Definition key_step (st : vers_state) (p : tpatch) : vers_state :=
  match snd st with
  | Some (t0, v0) => if json_deep_eq v0 (tp_value p) then st else (fst st ++ [(range_text t0 (tp_ts p - 1), v0)], Some (tp_ts p, tp_value p))
  | None => (fst st, Some (tp_ts p, tp_value p))
  end.
Definition on_key (key : string) (ps : list tpatch) : list tpatch := filter (fun p => tj_path (tp_path p) = key) ps.
Lemma fold_key key ps : (2 <= length (split_on dot key))%nat -> (forall p, p ∈ ps -> tj_path (tp_path p) = key -> is_setp p = true) -> forall st,
  let st' := fold_left tj_step ps st in
  (vers (fst st') (split_on dot key), alookup key (snd st')) = fold_left key_step (on_key key ps) (vers (fst st) (split_on dot key), alookup key (snd st)).
Proof.
  intros Hl. induction ps as [|p ps IH]; intros Hset st; [done|]. cbv zeta in *. cbn [fold_left].
  rewrite IH by (intros q Hq; apply Hset; by right). destruct st as [d last]. unfold on_key. destruct (decide (tj_path (tp_path p) = key)) as [Hk|Hk].
  - rewrite filter_cons_True by done. cbn [fold_left]. f_equal. specialize (Hset p ltac:(by left) Hk). unfold is_setp in Hset.
    unfold tj_step. rewrite Hset, Hk. unfold key_step. cbn [fst snd]. destruct (alookup key last) as [[t0 v0]|] eqn:E.
    + destruct (json_deep_eq v0 (tp_value p)); cbn [fst snd].
      * by rewrite E.
      * by rewrite (vers_add_eq key Hl), alookup_ainsert_eq.
    + cbn [fst snd]. by rewrite alookup_ainsert_eq.
  - rewrite filter_cons_False by done. f_equal. unfold tj_step. destruct (_ || _).
    + destruct (alookup _ last) as [[t0 v0]|]; [destruct (json_deep_eq _ _)|]; cbn [fst snd]; [done| |].
      * by rewrite (vers_add_ne key Hl) by done; rewrite alookup_ainsert_ne by done.
      * by rewrite alookup_ainsert_ne by done.
    + case_decide; [|done]. destruct (alookup _ last) as [[t0 v0]|]; [|done]. cbn [fst snd].
      by rewrite (vers_add_ne key Hl) by done; rewrite alookup_adelete_ne by done.
Qed.
Lemma doc_versions srt ord now ps key : (2 <= length (split_on dot key))%nat -> (forall m, Permutation (ord m) m) ->
  (forall p, p ∈ srt ps -> tj_path (tp_path p) = key -> is_setp p = true) ->
  let st := fold_left key_step (on_key key (srt ps)) ([], None) in
  vers (from_patches srt ord now ps) (split_on dot key) = fst st ++ match snd st with Some (a, v) => [(range_text a now, v)] | None => [] end.
Proof.
  intros Hl Ho Hset. cbv zeta. pose proof (fold_key key (srt ps) Hl Hset ([], [])) as E. cbv zeta in E. cbn [fst snd alookup] in E.
  assert (E0 : vers [] (split_on dot key) = []) by (by destruct (split_on dot key)). rewrite E0 in E. rewrite <- E. clear E E0.
  unfold from_patches. pose proof (last_nodup (srt ps) ([], []) ltac:(constructor)) as Hn.
  destruct (fold_left tj_step (srt ps) ([], [])) as [d last]. cbn [fst snd] in *.
  assert (Hno : NoDup (akeys (ord last))) by (unfold akeys; by rewrite (Ho last)).
  by rewrite (close_vers key Hl now (ord last) Hno d), (alookup_perm last (ord last) key Hn (Ho last)).
Qed.
(** A version begun at time 0 stays until a different value comes. *)
Lemma version_kept X v lo qs : forall st,
  (st = (X, Some (0, v)) ∨ exists e r, fst st = X ++ (range_text 0 e, v) :: r ∧ lo <= e < 2 ^ 63) ->
  Forall (fun p => json_deep_eq v (tp_value p) = true ∨ lo + 1 <= tp_ts p < 2 ^ 63) qs ->
  let st' := fold_left key_step qs st in st' = (X, Some (0, v)) ∨ exists e r, fst st' = X ++ (range_text 0 e, v) :: r ∧ lo <= e < 2 ^ 63.
Proof.
  induction qs as [|p qs IH]; intros st Hst HF; [done|]. inversion HF as [|? ? Hp HF']; subst. cbv zeta in *. cbn [fold_left]. apply IH; [|done]. clear IH HF HF'.
  destruct Hst as [->|(e & r & E & He)].
  - unfold key_step. cbn [fst snd]. destruct (json_deep_eq v (tp_value p)) eqn:Ev; [by left|]. destruct Hp as [Hp|Hp]; [congruence|].
    right. exists (tp_ts p - 1), []. split; [done|lia].
  - right. unfold key_step. destruct (snd st) as [[t0 v0]|]; [destruct (json_deep_eq v0 (tp_value p))|]; cbn [fst].
    + by exists e, r.
    + exists e, (r ++ [(range_text t0 (tp_ts p - 1), v0)]). split; [|done]. by rewrite E, <- app_assoc.
    + by exists e, r.
Qed.
Lemma version_final X v lo qs st now : st = (X, Some (0, v)) -> Forall (fun p => json_deep_eq v (tp_value p) = true ∨ lo + 1 <= tp_ts p < 2 ^ 63) qs ->
  lo <= now < 2 ^ 63 -> exists e r, lo <= e < 2 ^ 63 ∧
  let st' := fold_left key_step qs st in fst st' ++ match snd st' with Some (a, v) => [(range_text a now, v)] | None => [] end = X ++ (range_text 0 e, v) :: r.
Proof.
  intros E HF Hnow. destruct (version_kept X v lo qs st (or_introl E) HF) as [E'|(e & r & E' & He)].
  - exists now, []. split; [done|]. cbv zeta. by rewrite E'.
  - exists e. eexists. split; [done|]. cbv zeta. rewrite E', <- app_assoc. cbn [app]. reflexivity.
Qed.
Lemma zero_in e : -1 <= e < 2 ^ 63 -> in_range 0 (range_text 0 e) = true.
Proof.
  intros He. destruct (decide (e = -1)) as [->|Hn].
  - apply range_negative; [by right|done].
  - apply range_ok; lia.
Qed.
Lemma one_out : in_range 1 (range_text 0 (-1)) = false.
Proof. destruct (in_range 1 (range_text 0 (-1))) eqn:E; [|done]. apply range_negative in E; [lia|by right]. Qed.

Lemma sorted_filter {A} (R : A -> A -> Prop) (P : A -> Prop) `{!forall x, Decision (P x)} l : StronglySorted R l -> StronglySorted R (filter P l).
Proof.
  induction 1 as [|x l HS IH HF]; [constructor|]. destruct (decide (P x)).
  - rewrite filter_cons_True by done. constructor; [done|]. rewrite List.Forall_forall in *. intros y Hy. apply elem_of_list_In, elem_of_list_filter in Hy as [_ Hy].
    by apply HF, elem_of_list_In.
  - by rewrite filter_cons_False.
Qed.

(** ** The document of a file and of updates *)
Section zero.
Context (m : list (string * json)) (us : list tpatch).
Hypothesis Hj : named simple_name (JObj m).
Hypothesis He : json_encodable (JObj m) = true.
Hypothesis Hu : forall u, u ∈ us -> 0 <= tp_ts u < 2 ^ 63 ∧ exists l v, place (JObj m) l v ∧ scalar v ∧ sets u l.
Let ps := gen_initial "" (JObj m) ++ us.
Lemma zero_shown srt ord now l v t x r : sorting tp_ts srt -> (forall m, Permutation (ord m) m) -> place (JObj m) l v -> scalar v -> v <> JNull -> (2 <= length l)%nat ->
  vers (from_patches srt ord now ps) l = x -> choose_version t x None = r -> r = Some v ->
  below l (JObj (tj_snapshot (from_patches srt ord now ps) t)) = Some v.
Proof.
  intros Hsrt Hord Hl Hv Hnn Hlen Ex Er ->. assert (Hne : l ≠ []) by (intros ->; simpl in Hlen; lia). set (d := from_patches srt ord now ps) in *.
  unfold vers in Ex. destruct (find_item d l) as [j|] eqn:Hf; [|subst x; done].
  assert (Hsnap : snapshot_item t j = v).
  { destruct j as [p vs cs]. rewrite snapshot_item_eq. cbn [ti_versions] in Ex. subst vs.
    destruct x as [|x0 x]; [done|]. rewrite Er. destruct cs, v; try done; exfalso; apply Hv; first [left; by eexists|right; by eexists]. }
  rewrite <- Hsnap. apply doc_below; [apply from_patches_wf|done|done|by rewrite Hsnap|].
  intros pre k r x0 v' Hpre E Hx. unfold d in Hx.
  destruct (vers_src srt ord now ps pre x0 v' Hsrt Hord Hpre Hx) as (p & Hp & Hsp & Hsr & Hpv). subst l. destruct (place_split _ _ _ _ Hl) as (c & Hc & Hr2).
  destruct (ps_on m us Hj Hu p pre c Hp Hc Hpre) as [_ [[_ Hcc]|[_ [_ Hsc]]]].
  - by apply route_split.
  - inversion Hcc as [? Hsc|]; subst; [|eauto]. exfalso. by eapply place_deeper.
  - exfalso. by eapply place_deeper.
Qed.
Lemma zero_first srt ord now l v u0 a c : sorting tp_ts srt -> (forall m, Permutation (ord m) m) -> 1 <= now < 2 ^ 63 ->
  place (JObj m) l v -> scalar v -> v <> JNull -> (2 <= length l)%nat ->
  us = a ++ u0 :: c -> sets u0 l -> tp_ts u0 = 0 -> ~ alike (tp_value u0) v -> (forall u, u ∈ a ++ c -> sets u l -> 2 <= tp_ts u) ->
  below l (JObj (tj_snapshot (from_patches srt ord now ps) 0)) = Some v ∨
  below l (JObj (tj_snapshot (from_patches srt ord now ps) 1)) = Some v.
Proof.
  intros Hsrt Hord Hnow Hl Hv Hnn Hlen Eus Hset0 H0 Hna Hlate.
  assert (Hne : l ≠ []) by (intros ->; simpl in Hlen; lia).
  destruct (place_names _ _ _ Hj Hl) as [Hs _]. destruct (names_concat l Hne Hs) as [_ Hq]. set (key := String.concat "." l) in *.
  pose proof (names_key _ _ Hq) as Ekey.
  assert (Hroute : forall s, tj_path s = key <-> route s l) by (intros s; symmetry; by apply route_key).
  assert (Hon : forall p, p ∈ ps -> tj_path (tp_path p) = key -> is_setp p = true).
  { intros p Hp Hk. apply Hroute in Hk. destruct (ps_on m us Hj Hu p l v Hp Hl Hne Hk) as [Hset _]. by apply sets_setp in Hset as [? _]. }
  assert (Hkind : forall p, p ∈ gen_initial "" (JObj m) ++ a ++ c -> tj_path (tp_path p) = key -> tp_ts p = 0 ∧ tp_value p = v ∨ 2 <= tp_ts p < 2 ^ 63).
  { intros p Hp Hk. apply Hroute in Hk. apply elem_of_app in Hp as [Hp|Hp].
    - left. destruct (gen_on m Hj p l v Hp Hl Hne Hk) as (_ & Hz & Hc). split; [done|]. by apply content_scalar in Hc.
    - right. assert (Hp' : p ∈ us) by (rewrite Eus; set_solver). destruct (Hu p Hp') as [Hb _].
      assert (Hset : sets p l) by (destruct (ps_on m us Hj Hu p l v ltac:(apply elem_of_app; by right) Hl Hne Hk); done).
      specialize (Hlate p Hp Hset). lia. }
  set (L := on_key key (srt ps)). destruct (Hsrt ps) as [HP HS].
  assert (HLp : Permutation L (u0 :: on_key key (gen_initial "" (JObj m) ++ a ++ c))).
  { unfold L, on_key. rewrite HP. unfold ps. rewrite Eus. rewrite app_assoc, <- Permutation_middle.
    rewrite filter_cons_True by (apply Hroute; by destruct Hset0). by rewrite <- app_assoc. }
  assert (HLs : StronglySorted (fun x y => tp_ts x <= tp_ts y) L) by (by apply sorted_filter).
  assert (Hfirst : TPatch "add" key v 0 ∈ on_key key (gen_initial "" (JObj m) ++ a ++ c)).
  { apply elem_of_list_filter. split; [apply Hroute; by apply route_concat|]. apply elem_of_app. left. apply (gen_in m Hj). exists l, v, v.
    split; [done|]. split; [by constructor|done]. }
  assert (Hsame : json_deep_eq v v = true).
  { apply json_deep_eq_spec, scalar_same; [done|]. by eapply encodable_place. }
  pose proof (doc_versions srt ord now ps key) as Hvers. rewrite Ekey in Hvers. specialize (Hvers Hlen Hord).
  specialize (Hvers ltac:(intros p Hp; apply Hon; by apply (sorted_all srt ps p Hsrt))). cbv zeta in Hvers. fold L in Hvers.
  assert (Hin : forall p, p ∈ L -> p = u0 ∨ p ∈ on_key key (gen_initial "" (JObj m) ++ a ++ c)).
  { intros p Hp. rewrite HLp in Hp. by apply elem_of_cons in Hp. }
  destruct L as [|p rest]. { by apply Permutation_nil_cons in HLp. }
  apply StronglySorted_inv in HLs as [HLs' HLf]. rewrite List.Forall_forall in HLf.
  destruct (Hin p ltac:(by left)) as [->|Hp].
  - (* the update first *)
    right. apply Permutation_cons_inv in HLp. destruct rest as [|p2 rest]. { apply Permutation_nil in HLp. rewrite HLp in Hfirst. by apply elem_of_nil in Hfirst. }
    assert (Hk2 : forall p, p ∈ p2 :: rest -> tp_ts p = 0 ∧ tp_value p = v ∨ 2 <= tp_ts p < 2 ^ 63).
    { intros p Hp. rewrite HLp in Hp. apply elem_of_list_filter in Hp as [Hk Hp]. by apply Hkind. }
    assert (Hz2 : tp_ts p2 = 0 ∧ tp_value p2 = v).
    { destruct (Hk2 p2 ltac:(by left)) as [?|Hge]; [done|]. exfalso. rewrite <- HLp in Hfirst. apply StronglySorted_inv in HLs' as [_ HLf2].
      apply elem_of_cons in Hfirst as [E|Hf]; [rewrite <- E in Hge; cbn in Hge; lia|]. rewrite List.Forall_forall in HLf2.
      apply elem_of_list_In in Hf. specialize (HLf2 _ Hf). cbn in HLf2. lia. }
    destruct Hz2 as [Hz2 Hv2].
    assert (Hd : json_deep_eq (tp_value u0) v = false).
    { destruct (json_deep_eq (tp_value u0) v) eqn:E; [|done]. exfalso. apply Hna. right. by apply json_deep_eq_spec. }
    cbn [fold_left] in Hvers.
    destruct (version_final [(range_text 0 (-1), tp_value u0)] v 1 rest (key_step (key_step ([], None) u0) p2) now) as (e & r & Hee & E2).
    + unfold key_step at 2. cbn [fst snd]. unfold key_step. cbn [fst snd]. rewrite Hv2, Hd, H0, Hz2. done.
    + apply List.Forall_forall. intros p Hp. apply elem_of_list_In in Hp. destruct (Hk2 p ltac:(by right)) as [[_ ->]|?]; [by left|right; lia].
    + lia.
    + cbv zeta in E2. rewrite E2 in Hvers. eapply zero_shown; try done. cbn [app choose_version]. rewrite one_out.
      assert (E1 : in_range 1 (range_text 0 e) = true) by (apply range_ok; lia). by rewrite E1.
  - (* an initial patch first *)
    left. apply elem_of_list_filter in Hp as [Hk Hp].
    assert (Hp0 : tp_ts p = 0 ∧ tp_value p = v).
    { destruct (Hkind p Hp Hk) as [?|Hge]; [done|]. exfalso.
      assert (Hf : TPatch "add" key v 0 ∈ p :: rest) by (rewrite HLp; by right).
      apply elem_of_cons in Hf as [E|Hf]; [rewrite <- E in Hge; cbn in Hge; lia|]. apply elem_of_list_In in Hf. specialize (HLf _ Hf). cbn in HLf. lia. }
    destruct Hp0 as [Hp0 Hpv]. cbn [fold_left] in Hvers.
    destruct (version_final [] v (-1) rest (key_step ([], None) p) now) as (e & r & Hee & E2).
    + unfold key_step. cbn [fst snd]. by rewrite Hp0, Hpv.
    + apply List.Forall_forall. intros q Hq'. pose proof (HLf q Hq') as Hge. right.
      destruct (Hin q ltac:(right; by apply elem_of_list_In)) as [->|Hq2]; [lia|]. apply elem_of_list_filter in Hq2 as [Hk2 Hq2].
      destruct (Hkind q Hq2 Hk2) as [[? _]|?]; lia.
    + lia.
    + cbv zeta in E2. rewrite E2 in Hvers. eapply zero_shown; try done. cbn [app choose_version]. by rewrite (zero_in e Hee).
Qed.
End zero.

(** ** The document of a run *)
Lemma zero_split v m file jm p q0 : files v m file jm -> moving v m -> q0 ∈ m_tpatches m -> sp_path q0 = p -> sp_ts q0 = 0 ->
  (forall q, q ∈ m_tpatches m -> sp_path q = p -> sp_ts q <> 1) ->
  exists a c, m_tpatches m = a ++ q0 :: c ∧ (forall q, q ∈ a -> sp_path q <> p) ∧ (forall q, q ∈ c -> sp_path q = p -> 2 <= sp_ts q).
Proof.
  intros F M Hq Hp H0 H1. apply elem_of_list_split in Hq as (a & c & E). exists a, c. split; [done|].
  pose proof (fi_strict _ _ _ _ F p) as HT. rewrite E, filter_app, filter_cons_True, map_app in HT by done. cbn [map] in HT.
  apply sorted_around in HT as [HT1 HT2]. split.
  - intros q Hq Hpq. assert (Hin : q ∈ m_tpatches m) by (rewrite E; apply elem_of_app; by left). destruct (mv_path _ _ M q Hin) as [_ Hz].
    assert (sp_ts q < sp_ts q0); [|lia]. apply HT1. apply elem_of_list_fmap. exists q. split; [done|]. by apply elem_of_list_filter.
  - intros q Hq Hpq. assert (Hin : q ∈ m_tpatches m) by (rewrite E; apply elem_of_app; right; by right). specialize (H1 q Hin Hpq).
    assert (sp_ts q0 < sp_ts q); [|lia]. apply HT2. apply elem_of_list_fmap. exists q. split; [done|]. by apply elem_of_list_filter.
Qed.
Lemma run_zero v m file jm b p s l q0 : files v m file jm -> moving v m -> lab_ok b -> (p, s) ∈ sensors v -> dotted p l -> (2 <= length l)%nat ->
  q0 ∈ m_tpatches m -> sp_path q0 = p -> sp_ts q0 = 0 -> (forall q, q ∈ m_tpatches m -> sp_path q = p -> sp_ts q <> 1) ->
  (forall q, q ∈ m_tpatches m -> sp_ts q < 2 ^ 63) -> 1 <= lb_now b < 2 ^ 63 ->
  exists t w x z, 0 <= t <= 1 ∧ known m t p (s_value s) x z ∧
    below l (JObj (tj_snapshot (temporal_doc b file (map loaded (m_tpatches m))) t)) = Some w ∧ ~ alike w (json_of_prim x).
Proof.
  intros F M B Hin Hd Hlen Hq Hp H0 H1 Hmax Hnow. destruct (zero_split v m file jm p q0 F M Hq Hp H0 H1) as (a & c & E & Ha & Hc).
  assert (Hk : forall t, 0 <= t <= 1 -> known m t p (s_value s) (sp_value q0) 0).
  { intros t Ht. unfold known. rewrite E, filter_app, filter_cons_True by lia. rewrite <- H0. eapply lt_last; [done|done|].
    intros q [Hqt Hq']%elem_of_list_filter Hpq. specialize (Hc q Hq' Hpq). lia. }
  assert (Hch : is_equal (s_value s) (sp_value q0) = false).
  { pose proof (mv_chain _ _ M p s Hin) as HC. rewrite E, filter_app, filter_cons_True in HC by done.
    assert (Ea : filter (fun q => sp_path q = p) a = []).
    { destruct (filter (fun q => sp_path q = p) a) as [|x r] eqn:Ex; [done|]. exfalso. assert (Hx : x ∈ filter (fun q => sp_path q = p) a) by (rewrite Ex; by left).
      apply elem_of_list_filter in Hx as [Hpx Hx]. by apply (Ha x Hx). }
    rewrite Ea in HC. cbn [app map chain] in HC. by destruct HC. }
  assert (Hna : ~ alike (json_of_prim (s_value s)) (json_of_prim (sp_value q0))).
  { intros Hal. rewrite is_equal_alike in Hch; [done|by apply (mv_start _ _ M p)|done]. }
  pose proof (fi_below _ _ _ _ F p s l Hin Hd) as Hb.
  assert (Hns : named simple_name (JObj jm)) by (eapply named_impl; [|exact (fi_named _ _ _ _ F)]; by intros k [? _]).
  assert (Hus := us_ok v m file jm F M Hmax).
  assert (Hset : forall u, u ∈ map loaded (m_tpatches m) -> sets u l <-> tp_path u = p).
  { intros u Hu. rewrite <- (dotted_concat p l Hd). apply (sets_path jm _ (fi_named _ _ _ _ F) Hus u l (json_of_prim (s_value s))); [done|done|apply prim_scalar]. }
  destruct (zero_first jm (map loaded (m_tpatches m)) Hns (fi_enc _ _ _ _ F) (updates_simple jm _ (fi_named _ _ _ _ F) Hus)
    (fun x => lb_sort2 b (lb_sort1 b x)) (lb_values b) (lb_now b) l (json_of_prim (s_value s)) (loaded q0) (map loaded a) (map loaded c)
    (lab_sorting b B) (lk_values b B) Hnow) as [Hw|Hw].
  - by apply below_place.
  - apply prim_scalar.
  - by destruct (s_value s).
  - done.
  - by rewrite E, map_app.
  - apply Hset; [rewrite E, map_app; apply elem_of_app; right; by left|done].
  - done.
  - cbn [tp_value loaded]. intros Hal. apply Hna. destruct Hal as [Eq|Hal]; [left; by rewrite Eq|]. right.
    inversion Hal; subst; constructor; try done; [by apply DiffLemmas.f64_eq_sym|..]; by destruct (s_value s).
  - intros u Hu Hs. assert (Hu' : u ∈ map loaded (m_tpatches m)).
    { rewrite E, map_app. cbn [map]. apply elem_of_app in Hu as [Hu|Hu]; apply elem_of_app; [by left|right; by right]. }
    apply Hset in Hs; [|done]. apply elem_of_app in Hu as [Hu|Hu]; apply loaded_in in Hu as (q & -> & Hq'); cbn in *.
    + by apply Ha in Hq'.
    + by apply Hc.
  - exists 0, (json_of_prim (s_value s)), (sp_value q0), 0. split; [lia|]. split; [apply Hk; lia|]. split; [|done].
    unfold temporal_doc, initial_patches. rewrite (fi_file _ _ _ _ F). exact Hw.
  - exists 1, (json_of_prim (s_value s)), (sp_value q0), 0. split; [lia|]. split; [apply Hk; lia|]. split; [|done].
    unfold temporal_doc, initial_patches. rewrite (fi_file _ _ _ _ F). exact Hw.
Qed.
Lemma zero_file srt ord now file m us l v u0 a c : transform file = JObj m -> named simple_name (JObj m) -> json_encodable (JObj m) = true ->
  (forall u, u ∈ us -> 0 <= tp_ts u < 2 ^ 63 ∧ exists l' v', place (JObj m) l' v' ∧ scalar v' ∧ sets u l') ->
  sorting tp_ts srt -> (forall x, Permutation (ord x) x) -> 1 <= now < 2 ^ 63 ->
  place (JObj m) l v -> scalar v -> v <> JNull -> (2 <= length l)%nat ->
  us = a ++ u0 :: c -> sets u0 l -> tp_ts u0 = 0 -> ~ alike (tp_value u0) v -> (forall u, u ∈ a ++ c -> sets u l -> 2 <= tp_ts u) ->
  below l (JObj (tj_snapshot (from_patches srt ord now (initial_patches file ++ us)) 0)) = Some v ∨
  below l (JObj (tj_snapshot (from_patches srt ord now (initial_patches file ++ us)) 1)) = Some v.
Proof. intros Ht ? ? ? ? ? ? ? ? ? ? ? ? ? ? ?. unfold initial_patches. rewrite Ht. by eapply zero_first. Qed.
