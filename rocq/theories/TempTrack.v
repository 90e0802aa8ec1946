(** The tracks and events of the log made of a run's files. *)
From Verif Require Import Base BaseSpec BaseLemmas F64 Tson TsonSpec Heap Patch PatchSpec PatchLemmas Logument LogSpec LogLemmas ChangeLemmas CompactLemmas ReplaySpec Bytes TjsonSpec TjsonLemmas Tjson Initial
  InitialSpec Json Query QuerySpec QueryLemmas QueryTrack Sensor Scenario Sim SimSpec SimTrace SimLemmas SimTimes SimDocs SimFinal VssLemmas Temporal TemporalSpec TempDocs TempLog.

(** ** Consecutive patches on a sensor have different values *)
Fixpoint chain (v : prim) (l : list prim) : Prop :=
  match l with [] => True | x :: l' => is_equal v x = false ∧ chain x l' end.
Lemma evolves_chain v us v' : evolves v us v' -> chain v (map u_value (changed_only us)).
Proof.
  unfold changed_only. induction 1 as [v|v u us v' Hc _ IH]; [done|]. cbn [List.filter]. destruct (u_changed u); [|done].
  cbn [map chain]. split; [|done]. symmetry in Hc. by apply negb_true_iff in Hc.
Qed.
Lemma patches_chain w v sec inc m p s : simulate w v None sec inc = Ok m -> orders_ok w -> NoDup (akeys (sensors v)) -> (p, s) ∈ sensors v ->
  chain (s_value s) (map sp_value (filter (fun q => sp_path q = p) (m_tpatches m))).
Proof.
  intros (m0 & H0 & H)%simulate_inv [Ho _] Hnd Hin. apply start_zero in H0 as (V & Sc & _ & _ & T & _).
  apply run_times_solo in H as (uss & A & _ & _ & _ & _ & P); [|done|done|by rewrite V]. rewrite V in P.
  destruct (P p s Hin) as (s' & E & _). destruct A. rewrite af_tp, T. cbn [app].
  apply solo_times_facts in E as (_ & _ & _ & _ & _ & _ & _ & E & _). apply evolves_chain in E.
  rewrite filter_map_path, map_map. change (fun x => sp_value (set_of x)) with u_value. unfold changed_only in *. by rewrite filter_comm.
Qed.
Lemma sub_self x y : f64_finite x = true -> SFeqb x y = true -> SFsub f64_prec f64_emax x y = S754_zero false ∨ exists s, SFsub f64_prec f64_emax x y = S754_zero s.
Proof.
  intros Hx E. destruct x as [sx|sx| |sx mx ex]; [|done|done|].
  - destruct y as [sy|sy| |sy my ey].
    + right. destruct sx, sy; by eexists.
    + destruct sy; discriminate E.
    + discriminate E.
    + destruct sy; discriminate E.
  - destruct y as [sy|sy| |sy my ey].
    + destruct sx; discriminate E.
    + destruct sy; discriminate E.
    + discriminate E.
    + assert (E' : sx = sy ∧ mx = my ∧ ex = ey).
      { unfold SFeqb, SFcompare in E. destruct sx, sy; try discriminate E;
        destruct (Z.compare_spec ex ey) as [->|?|?]; try discriminate E;
        change (Pos.compare_cont Eq mx my) with (Pos.compare mx my) in E; destruct (Pos.compare_spec mx my) as [->|?|?]; try discriminate E; done. }
      destruct E' as (-> & -> & ->). left. unfold SFsub. rewrite Z.min_id.
      rewrite Z.sub_diag. done.
Qed.
Lemma equal_is_equal x y : finite x = true -> go_equal (any_of_json (json_of_prim x)) (any_of_json (json_of_prim y)) -> is_equal x y = true.
Proof.
  intros Hx H. apply any_eq_true in H. destruct x as [a|a|a], y as [b|b|b]; try done.
  - cbn in *. injection H as H. done.
  - cbn in H. injection H as H. cbn [is_equal]. unfold f64_sub, f64_abs.
    destruct (sub_self a b Hx H) as [E|[s E]]; rewrite E; done.
  - cbn in *. injection H as H. done.
Qed.
(** ** The window *)
Notation in_window s e := (fun q : spatch => s <= sp_ts q <= e).
Lemma window_none s e (l : list spatch) : (forall q, q ∈ l -> e < sp_ts q) -> filter (in_window s e) l = [].
Proof.
  intros H. destruct (filter _ l) as [|q r] eqn:E; [done|]. assert (Hq : q ∈ filter (in_window s e) l) by (rewrite E; by left).
  apply elem_of_list_filter in Hq as [Hq Hin]. specialize (H q Hin). cbv beta in Hq. lia.
Qed.
Lemma window_prefix s e x l : s <= sp_ts x -> StronglySorted Z.lt (map sp_ts (x :: l)) -> chain (sp_value x) (map sp_value l) ->
  chain (sp_value x) (map sp_value (filter (in_window s e) l)).
Proof.
  revert x. induction l as [|y l IH]; intros x Hx HS HC; [done|]. cbn [map] in HS. inversion HS as [|? ? HS' HF]; subst.
  pose proof (Forall_inv HF) as Hxy. cbn [map chain] in HC. destruct HC as [HC1 HC2].
  rewrite filter_cons. case_decide as Hy.
  - cbn [map chain]. split; [done|]. apply IH; [lia|done|done].
  - rewrite window_none; [done|]. intros q Hq. inversion HS' as [|? ? _ HF']; subst. rewrite List.Forall_forall in HF'.
    assert (sp_ts y < sp_ts q); [|lia]. apply HF', in_map_iff. exists q. split; [done|]. by apply elem_of_list_In.
Qed.
Lemma window_chain s e l v : StronglySorted Z.lt (map sp_ts l) -> chain v (map sp_value l) ->
  exists v', chain v' (map sp_value (filter (in_window s e) l)).
Proof.
  revert v. induction l as [|x l IH]; intros v HS HC; [by exists v|]. cbn [map chain] in HC. destruct HC as [HC1 HC2].
  rewrite filter_cons. case_decide as Hx.
  - exists v. cbn [map chain]. split; [done|]. apply window_prefix; [lia|done|done].
  - cbn [map] in HS. inversion HS; subst. by apply (IH (sp_value x)).
Qed.
Lemma window_filter m p s e : window m p s e = filter (in_window s e) (filter (fun q => sp_path q = p) (m_tpatches m)).
Proof. unfold window. rewrite list_filter_filter. apply list_filter_iff. intros q. tauto. Qed.

(** ** The operations *)
Lemma loaded_operation q : operation_of (loaded q) = as_operation q.
Proof. unfold operation_of, loaded, as_operation. cbn. f_equal. by destruct (sp_value q). Qed.
Lemma operations_of ps : map operation_of (map loaded ps) = map as_operation ps.
Proof. rewrite map_map. apply map_ext, loaded_operation. Qed.
Lemma as_value q : op_value (as_operation q) = any_of_json (json_of_prim (sp_value q)).
Proof. unfold as_operation. cbn. by destruct (sp_value q). Qed.
Lemma filter_operations p s e ps : filter (on_path p s e) (map as_operation ps) = map as_operation (filter (fun q => sp_path q = p ∧ s <= sp_ts q <= e) ps).
Proof.
  induction ps as [|q ps IH]; [done|]. cbn [map]. rewrite !filter_cons, IH. unfold on_path. cbn [op_path op_ts as_operation].
  by case_decide; case_decide.
Qed.
Lemma changes_chain p l : Forall (fun q => sp_path q = p ∧ finite (sp_value q) = true) l -> forall seen v,
  (forall x, x ∈ seen -> op_path x = p) -> finite v = true ->
  match last seen with Some x => op_value x = any_of_json (json_of_prim v) | None => True end ->
  (seen = [] ∧ (exists v', chain v' (map sp_value l)) ∨ chain v (map sp_value l)) ->
  changes seen (map as_operation l) = map as_operation l.
Proof.
  induction 1 as [|q l [Hp Hf] HF IH]; intros seen v Hs Hv Hl HC; [done|]. cbn [map changes].
  rewrite decide_True.
  - cbn [app]. f_equal. apply (IH _ (sp_value q)).
    + intros x [Hx|Hx%elem_of_list_singleton]%elem_of_app; [by apply Hs|]. by subst x.
    + done.
    + by rewrite last_snoc, as_value.
    + right. destruct HC as [[_ [v' HC]]|HC]; cbn [map chain] in HC; apply HC.
  - unfold changed. assert (E : last_on (op_path (as_operation q)) seen = last seen).
    { unfold last_on. cbn [op_path as_operation]. rewrite Hp. f_equal. by apply filter_true. }
    rewrite E. destruct (last seen) as [x|] eqn:El; [|done]. rewrite Hl, as_value. intros Hgo.
    apply equal_is_equal in Hgo; [|done]. destruct HC as [[-> _]|HC]; [done|]. cbn [map chain] in HC. destruct HC as [HC _]. congruence.
Qed.
Lemma sorted_unique (l l' : list operation) : StronglySorted (fun p q => op_ts p < op_ts q) l -> StronglySorted (fun p q => op_ts p < op_ts q) l' ->
  l ≡ₚ l' -> l = l'.
Proof.
  intros H H'. assert (HA : AntiSymm (=) (fun p q => op_ts p < op_ts q)) by (intros x y Hx Hy; cbv beta in *; lia).
  by apply (StronglySorted_unique (fun p q => op_ts p < op_ts q)).
Qed.
(** The operations of the log on a path in the window. *)
Lemma staged_window v m file jm ps p s e : files v m file jm -> ps ≡ₚ map as_operation (m_tpatches m) ->
  StronglySorted (fun p q => op_ts p <= op_ts q) ps -> filter (on_path p s e) ps = map as_operation (window m p s e).
Proof.
  intros F HP HS.
  assert (HW : StronglySorted (fun p q => op_ts p < op_ts q) (map as_operation (window m p s e))).
  { pose proof (fi_strict _ _ _ _ F p) as H. rewrite window_filter.
    assert (H' : StronglySorted Z.lt (map sp_ts (filter (in_window s e) (filter (fun q => sp_path q = p) (m_tpatches m))))).
    { eapply sorted_sublist; [apply map_sublist, filter_sublist|exact H]. }
    revert H'. generalize (filter (in_window s e) (filter (fun q => sp_path q = p) (m_tpatches m))). intros l. clear.
    induction l as [|x l IH]; [constructor|]. cbn [map]. intros H. inversion H as [|? ? H1 H2]; subst. constructor; [by apply IH|].
    rewrite List.Forall_forall in *. intros y Hy. apply in_map_iff in Hy as (z & <- & Hz). cbn. apply H2. apply in_map_iff. by exists z. }
  assert (HPW : filter (on_path p s e) ps ≡ₚ map as_operation (window m p s e)) by (rewrite HP, filter_operations; done).
  apply sorted_unique; [|done|done]. apply sorted_strict.
  - eapply sorted_sublist; [apply filter_sublist|done].
  - rewrite HPW. clear -HW. induction HW as [|x l _ IH HF]; [constructor|]. cbn [map]. constructor; [|done]. intros Hx.
    apply elem_of_list_fmap in Hx as (y & E & Hy). rewrite List.Forall_forall in HF. apply elem_of_list_In in Hy. specialize (HF y Hy). lia.
Qed.
(** ** The searches *)
Lemma filter_map_ops (thr : f64) l : filter (over thr) (map as_operation l) = map as_operation (filter (above thr) l).
Proof.
  induction l as [|q l IH]; [done|]. cbn [map]. rewrite !filter_cons, IH.
  assert (H : over thr (as_operation q) <-> above thr q) by (unfold over, above; cbn [op_value as_operation]; by destruct (sp_value q)).
  case_decide as H1; case_decide as H2; try done; tauto.
Qed.
Record moving (v : vehicle) (m : run_state) : Prop := {
  mv_start : forall p s, (p, s) ∈ sensors v -> finite (s_value s) = true;
  mv_patch : forall q, q ∈ m_tpatches m -> finite (sp_value q) = true;
  mv_path : forall q, q ∈ m_tpatches m -> sp_path q ∈ akeys (sensors v) ∧ 0 <= sp_ts q;
  mv_chain : forall p s, (p, s) ∈ sensors v -> chain (s_value s) (map sp_value (filter (fun q => sp_path q = p) (m_tpatches m))) }.
Lemma moving_chain v m p : moving v m -> exists v0, chain v0 (map sp_value (filter (fun q => sp_path q = p) (m_tpatches m))).
Proof.
  intros HM. destruct (filter (fun q => sp_path q = p) (m_tpatches m)) as [|q l] eqn:E; [by exists (PBool true)|].
  assert (Hq : q ∈ filter (fun q => sp_path q = p) (m_tpatches m)) by (rewrite E; by left). apply elem_of_list_filter in Hq as [Hp Hq].
  apply (mv_path _ _ HM) in Hq as [Hq _]. apply elem_of_list_fmap in Hq as ([p' s] & Ep & Hin). cbn [fst] in Ep. subst p'. rewrite Hp in Hin.
  exists (s_value s). rewrite <- E. by apply (mv_chain _ _ HM).
Qed.
Lemma run_moving w v sec inc m : simulate w v None sec inc = Ok m -> orders_ok w -> NoDup (akeys (sensors v)) -> 0 < inc -> writable v m -> moving v m.
Proof.
  intros H Ho Hnd Hi [HV HT]. destruct (run_patches w v None sec inc m H Ho Hnd Hi) as (A & _ & _). split; [done|done| |].
  - intros q Hq. destruct (A q Hq) as [Hp [Ht _]]. split; [done|lia].
  - intros p s Hin. by apply (patches_chain w v sec inc).
Qed.
Lemma moving_window v m file jm p s e : files v m file jm -> moving v m ->
  changes [] (map as_operation (window m p s e)) = map as_operation (window m p s e).
Proof.
  intros F HM. destruct (moving_chain v m p HM) as [v0 HC]. destruct (window_chain s e _ v0 (fi_strict _ _ _ _ F p) HC) as [v' HC'].
  rewrite <- window_filter in HC'. apply (changes_chain p _) with (v := PBool true).
  - apply Forall_forall. intros q Hq. unfold window in Hq. apply elem_of_list_filter in Hq as [[Hp _] Hq]. split; [done|by apply (mv_patch _ _ HM)].
  - by intros x ?%elem_of_nil.
  - done.
  - done.
  - left. split; [done|]. by exists v'.
Qed.
Lemma staged_search v m file jm h L l s e : files v m file jm -> moving v m -> s <= e ->
  l_snapshots L = {[ 0%N := VObj l ]} -> staged (map operation_of (map loaded (m_tpatches m))) L -> l_version L = [0%N; 1%N] ->
  exists mm, temporal_track s e (h, L) = ((h, L), Ok mm) ∧ (forall p, track_ok m p s e (filter_track mm p)) ∧
    forall ord p thr, (forall x, ord x ≡ₚ x) ->
      find_events ord p s e thr (h, L) = ((h, L), Ok (map sp_ts (filter (above thr) (window m p s e)))).
Proof.
  intros F HM Hse HS HG EV. pose proof (staged_consistent _ _ _ HS HG) as HC.
  destruct HG as [(EV' & _)|(_ & _ & ps & EP & HP & Hsort)]; [congruence|].
  pose proof (all_staged _ _ EV EP) as Eall.
  destruct (track_total h L s e HC Hse) as [mm Em].
  { rewrite Eall. intros p Hp. rewrite HP in Hp. by apply (ops_payload jm _ (fi_us _ _ _ _ F)). }
  rewrite operations_of in HP.
  assert (E1 : patch_at L 1 = ps) by (unfold patch_at; by rewrite EP, lookup_singleton).
  assert (E0 : ops_between L 0 1 = []).
  { unfold ops_between. change (N.to_nat (1 - 0)) with 1%nat. cbn [seq map concat]. unfold patch_at. by rewrite EP, lookup_singleton_ne. }
  assert (EN : forall v, v <> 1%N -> patch_at L v = []) by (intros v' Hv; unfold patch_at; by rewrite EP, lookup_singleton_ne).
  assert (EW : forall p, changes [] (filter (on_path p s e) ps) = map as_operation (window m p s e)).
  { intros p. rewrite (staged_window v m file jm) by done. by apply (moving_window v m file jm). }
  exists mm. split; [done|]. split.
  - intros p v' ops. rewrite (filter_track_spec s e p h L _ mm HC Em). destruct (decide (v' = 1%N)) as [->|Hv].
    + rewrite E1, E0. change (filter (on_path p s e) []) with (@nil operation). rewrite EW.
      destruct (map as_operation (window m p s e)) as [|x r]; [split; [done|by intros (_ & -> & ?)]|]. split; [by intros [= <-]|by intros (_ & -> & _)].
    + rewrite (EN v' Hv). change (filter (on_path p s e) []) with (@nil operation). cbn [changes]. split; [done|]. by intros (? & _).
  - intros ord p thr HO.
    destruct (temporal_track_spec s e h L HC) as [_ Hm]. rewrite Em in Hm. cbn [snd] in Hm. destruct Hm as [_ Hm].
    set (c := changes [] (filter (LogSpec.in_range s e) ps)).
    assert (Emm : map_to_list mm = match c with [] => [] | _ => [(1%N, c)] end).
    { assert (EX : mm = match c with [] => ∅ | _ => {[ 1%N := c ]} end).
      { apply map_eq. intros v'. rewrite Hm. destruct (decide (v' = 1%N)) as [->|Hv].
        - rewrite E1, E0. change (filter (LogSpec.in_range s e) []) with (@nil operation). fold c. destruct c; [by rewrite lookup_empty|by rewrite lookup_singleton].
        - rewrite (EN v' Hv). cbn. destruct c; [by rewrite lookup_empty|by rewrite lookup_singleton_ne]. }
      rewrite EX. destruct c; [apply map_to_list_empty|apply map_to_list_singleton]. }
    unfold find_events. rewrite Em. do 2 f_equal.
    transitivity (map op_ts (filter (over thr) (changes [] (filter (on_path p s e) ps)))).
    + rewrite <- QueryTrack.filter_on, <- (changes_filter p _ []). fold c. rewrite <- events_of_filter, Emm. destruct c as [|x c'].
      * pose proof (HO []) as HN. symmetry in HN. apply Permutation_nil in HN. by rewrite HN.
      * pose proof (HO [(1%N, x :: c')]) as HN. symmetry in HN. apply Permutation_singleton_l in HN. rewrite <- HN. cbn [map concat snd]. by rewrite app_nil_r.
    + rewrite EW, filter_map_ops, map_map. done.
Qed.
(** The log after the snapshot queries. *)
Lemma log_searches T v m file jm h qs : files v m file jm -> moving v m -> Forall (fun q => oracle_ok (fst q)) qs -> StronglySorted Z.le (map snd qs) -> qs <> [] ->
  exists h' L st ds, create_logument T file (map loaded (m_tpatches m)) h = (h', Ok L) ∧ snapshot_run qs (h', L) = (st, Ok ds) ∧
    Forall2 (fun q => answer_ok v m (snd q)) qs ds ∧
    forall s e, s <= e -> exists mm, temporal_track s e st = (st, Ok mm) ∧ (forall p, track_ok m p s e (filter_track mm p)) ∧
      forall ord p thr, (forall x, ord x ≡ₚ x) -> find_events ord p s e thr st = (st, Ok (map sp_ts (filter (above thr) (window m p s e)))).
Proof.
  intros F HM HO HS Hqs. destruct (log_answers T v m file jm h qs F HO HS) as (h' & L & st & ds & E & Er & HA).
  exists h', L, st, ds. split; [done|]. split; [done|]. split; [done|].
  destruct (create_ok jm _ (files_named _ _ _ _ F) (fi_full _ _ _ _ F) (fi_us _ _ _ _ F) T file h (fi_file _ _ _ _ F) (fi_enc _ _ _ _ F)) as (h1 & L1 & l & E' & HQ).
  rewrite E in E'. injection E' as <- <-.
  assert (HS' : exists t0, StronglySorted Z.le (t0 :: map snd qs)).
  { destruct qs as [|[o t] qs]; [done|]. exists t. cbn [map snd] in *. inversion HS; subst. constructor; [done|]. constructor; [lia|done]. }
  destruct HS' as [t0 HS']. destruct (run_ok _ _ _ _ _ _ _ (HQ t0) HO HS') as (st2 & ds2 & Er' & _ & (t & d' & HQ') & HV).
  rewrite Er in Er'. injection Er' as <- <-. destruct st as [h2 L2]. intros s e Hse.
  apply (staged_search v m file jm h2 L2 l); [done|done|done|apply HQ'|apply HQ'|]. apply HV. by left.
Qed.
