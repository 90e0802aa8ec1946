(** The log made of a run's files answers with what the run's patches say. *)
From Verif Require Import Base BaseSpec BaseLemmas F64 Tson TsonSpec Heap Patch PatchSpec PatchLemmas Logument LogSpec ReplaySpec Bytes TjsonSpec TjsonLemmas Tjson Initial
  InitialSpec InitialLemmas Query QuerySpec QueryLemmas QueryTrack Sensor Scenario Sim SimSpec SimTrace SimLemmas SimTimes SimDocs VssLemmas Temporal TemporalSpec TempDocs.

(** ** The patches of a run *)
Lemma filter_map_path (us : list upd) p : filter (fun q => sp_path q = p) (map set_of us) = map set_of (List.filter (on p) us).
Proof.
  induction us as [|u us IH]; [done|]. cbn [map List.filter]. rewrite filter_cons. unfold on at 1. cbn [sp_path set_of].
  destruct (decide (u_path u = p)) as [E|E].
  - rewrite bool_decide_eq_true_2 by done. cbn [map]. by rewrite IH.
  - rewrite bool_decide_eq_false_2 by done. done.
Qed.
Lemma lfilter_sublist {A} (f : A -> bool) (l : list A) : List.filter f l `sublist_of` l.
Proof. induction l as [|x l IH]; [done|]. cbn. destruct (f x); by constructor. Qed.
Lemma lfilter_sub {A} (f g : A -> bool) (l : list A) : List.filter f (List.filter g l) `sublist_of` List.filter f l.
Proof.
  induction l as [|x l IH]; [done|]. cbn. destruct (g x); cbn; destruct (f x); try (by constructor); done.
Qed.
Lemma map_sublist {A B} (f : A -> B) (l l' : list A) : l `sublist_of` l' -> map f l `sublist_of` map f l'.
Proof. induction 1; cbn; by constructor. Qed.
Lemma lfilter_sorted (f : Z -> bool) ts : StronglySorted Z.lt ts -> StronglySorted Z.lt (List.filter f ts).
Proof. apply sorted_sublist, lfilter_sublist. Qed.
Lemma sensor_shape p v : p ∈ akeys (sensors v) -> exists i, (p, i) ∈ shape (concat v).
Proof.
  intros Hp. apply elem_of_list_fmap in Hp as ([q s] & -> & Hin). exists (s_interval s). unfold shape. apply elem_of_list_fmap. by exists (q, s).
Qed.
Lemma run_patches w v sc sec inc m : simulate w v sc sec inc = Ok m -> orders_ok w -> NoDup (akeys (sensors v)) -> 0 < inc ->
  (forall q, q ∈ m_tpatches m -> sp_path q ∈ akeys (sensors v) ∧ time_step (sec * 1000) inc (sp_ts q)) ∧
  StronglySorted Z.le (map sp_ts (m_tpatches m)) ∧
  (forall p, StronglySorted Z.lt (map sp_ts (filter (fun q => sp_path q = p) (m_tpatches m)))).
Proof.
  intros (m0 & H0 & H)%simulate_inv Ho Hnd Hi. apply start_zero in H0 as (V & _ & _ & _ & T & _).
  apply run_times_times in H as (us & A & _ & F & P & S & _); [|apply Ho|by rewrite V|by apply loop_times_sorted].
  rewrite V in F, P. destruct A. rewrite af_tp, T. cbn [app]. rewrite Forall_forall in F.
  assert (Hall : forall q, q ∈ map set_of (changed_only us) -> sp_path q ∈ akeys (sensors v) ∧ time_step (sec * 1000) inc (sp_ts q)).
  { intros q Hq. apply elem_of_list_fmap in Hq as (u & -> & Hu). apply elem_of_list_In, filter_In in Hu as [Hu _]. apply elem_of_list_In in Hu.
    destruct (F u Hu) as [Ht Hp]. split; [done|]. by apply loop_times_spec in Ht. }
  split; [done|]. split.
  - rewrite map_map. change (fun x => sp_ts (set_of x)) with u_time. eapply sorted_sublist; [|exact S]. apply map_sublist, lfilter_sublist.
  - intros p. destruct (decide (p ∈ akeys (sensors v))) as [Hp|Hp].
    + destruct (sensor_shape p v Hp) as [i Hi']. destruct (P p i Hi') as [_ E].
      rewrite filter_map_path, map_map. change (fun x => sp_ts (set_of x)) with u_time.
      apply (sorted_sublist _ _ (map u_time (List.filter (on p) us))); [apply map_sublist, lfilter_sub|].
      rewrite E. by apply lfilter_sorted, loop_times_sorted.
    + assert (E : filter (fun q => sp_path q = p) (map set_of (changed_only us)) = []).
      { destruct (filter _ _) as [|q l] eqn:E; [done|]. assert (Hq : q ∈ filter (fun q => sp_path q = p) (map set_of (changed_only us))) by (rewrite E; by left).
        apply elem_of_list_filter in Hq as [<- Hq]. by destruct (Hall q Hq). }
      rewrite E. constructor.
Qed.

Lemma filter_sub {A} (P Q : A -> Prop) `{!forall x, Decision (P x)} `{!forall x, Decision (Q x)} (l : list A) : filter P (filter Q l) `sublist_of` filter P l.
Proof.
  induction l as [|x l IH]; [done|]. rewrite !filter_cons. destruct (decide (Q x)).
  - rewrite filter_cons. destruct (decide (P x)); [by constructor|done].
  - destruct (decide (P x)); [by constructor|done].
Qed.

(** ** Paths and values *)
Lemma dotted_concat p l : dotted p l -> String.concat "." l = p.
Proof.
  unfold dotted. induction 1 as [s Hs|s c r l Hs Hc Hr IH]; [done|]. cbn in Hc. destruct Hc as [<-|[]]. rewrite <- IH.
  destruct l; [inversion Hr|done].
Qed.
Lemma prim_json_inj x y : json_of_prim x = json_of_prim y -> x = y.
Proof. destruct x, y; cbn; intros E; by inversion E. Qed.
Lemma loaded_in u ps : u ∈ map loaded ps -> exists q, u = loaded q ∧ q ∈ ps.
Proof. intros H. apply elem_of_list_fmap in H as (q & -> & Hq). by exists q. Qed.
(** What the patches say is what stands after the updates loaded from them. *)
Lemma known_stands m t p l v0 x z : StronglySorted Z.le (map sp_ts (m_tpatches m)) ->
  StronglySorted Z.lt (map sp_ts (filter (fun q => sp_path q = p) (m_tpatches m))) -> dotted p l ->
  known m t p v0 x z -> stands (map loaded (m_tpatches m)) l (json_of_prim v0) t (json_of_prim x) z.
Proof.
  intros HS HL Hd HK. pose proof (dotted_concat p l Hd) as Ec. unfold known in HK.
  inversion HK as [Hno E1 E2|a q b E Hq Hb E1 E2]; subst x z.
  - apply std_initial. intros u Hu Hp. apply loaded_in in Hu as (q & -> & Hq). cbn [tp_path loaded tp_ts] in *.
    destruct (Z.le_gt_cases (sp_ts q) t); [|lia]. exfalso. apply (Hno q); [by apply elem_of_list_filter|congruence].
  - assert (Hin : q ∈ filter (fun q => sp_ts q <= t) (m_tpatches m)) by (rewrite E; apply elem_of_app; right; left).
    apply elem_of_list_filter in Hin as [Hqt Hin].
    apply (std_update _ _ _ _ (loaded q)); cbn [tp_path loaded tp_ts].
    + apply elem_of_list_fmap. by exists q.
    + congruence.
    + done.
    + intros u' Hu' Hp' Ht'. apply loaded_in in Hu' as (q' & -> & Hq'). cbn [tp_path loaded tp_ts] in *.
      assert (Hin' : q' ∈ a ++ q :: b) by (rewrite <- E; by apply elem_of_list_filter).
      apply elem_of_app in Hin' as [Hin'|[->|Hin']%elem_of_cons]; [right|by left|exfalso; apply (Hb q'); [done|congruence]].
      assert (HL' : StronglySorted Z.lt (map sp_ts (filter (fun q => sp_path q = p) (a ++ q :: b)))).
      { rewrite <- E. eapply sorted_sublist; [|exact HL]. apply map_sublist, filter_sub. }
      rewrite filter_app, filter_cons_True, map_app in HL' by done. cbn [map] in HL'. apply sorted_around in HL' as [HL' _].
      apply HL'. apply elem_of_list_fmap. exists q'. split; [done|]. apply elem_of_list_filter. split; [congruence|done].
Qed.

(** ** The hypotheses of the queries *)
Lemma leaf_alone r stamp v t v' t' : wbelow r (leaf_obj stamp v t) = Some (leaf_obj "timestamp" v' t') -> r = [].
Proof.
  destruct r as [|k r]; [done|]. unfold leaf_obj. rewrite wbelow_cons. cbn [alookup]. destruct (decide (k = "value")).
  - destruct v, r; done.
  - destruct (decide (k = stamp)); [|done]. by destruct r.
Qed.
Lemma wbelow_app l r w : wbelow (l ++ r) w = wbelow l w ≫= wbelow r.
Proof.
  revert w. induction l as [|k l IH]; intros w; [done|]. cbn [app wbelow]. destruct w; try done. destruct (alookup k m); [apply IH|done].
Qed.
Record files (v : vehicle) (m : run_state) (file : json) (jm : list (string * json)) : Prop := {
  fi_file : transform file = JObj jm; fi_named : named both_name (JObj jm);
  fi_enc : json_encodable (JObj jm) = true; fi_full : jnull_free (JObj jm) = true;
  fi_us : forall u, u ∈ map loaded (m_tpatches m) -> exists l, updates jm u l;
  fi_below : forall p s l, (p, s) ∈ sensors v -> dotted p l -> below l (JObj jm) = Some (json_of_prim (s_value s));
  fi_only : forall l x, below l (JObj jm) = Some x -> scalar x -> exists p s, (p, s) ∈ sensors v ∧ dotted p l;
  fi_flat : forall q d x z, plain_json d = JObj jm -> at_path d q = Some (TLeaf x z) -> exists l, q = keys l ∧ below l (JObj jm) = Some (json_of_prim x);
  fi_sorted : StronglySorted Z.le (map sp_ts (m_tpatches m));
  fi_strict : forall p, StronglySorted Z.lt (map sp_ts (filter (fun q => sp_path q = p) (m_tpatches m))) }.
Lemma files_named v m file jm : files v m file jm -> named path_name (JObj jm).
Proof. intros F. eapply named_impl; [|exact (fi_named _ _ _ _ F)]. by intros k [_ ?]. Qed.
Lemma run_files w v sc sec inc m m0 file : simulate w v sc sec inc = Ok m -> start w v sc = Ok m0 -> orders_ok w -> separate v -> 0 < inc ->
  plain_paths v -> writable v m -> decoded (WObj (m_json m0)) file -> exists jm, files v m file jm.
Proof.
  intros H H0 Ho Hs Hi HP [HV HT] HD. destruct (separate_apart v Hs) as [Hnd Ha].
  destruct (start_restored w v sc m0 file H0 Ho Hs HP HV HD) as ([jm Ej] & R & Lj). rewrite Ej in R. exists jm.
  destruct (run_patches w v sc sec inc m H Ho Hnd Hi) as (A & S & St).
  assert (B : forall p s l, (p, s) ∈ sensors v -> dotted p l -> below l (JObj jm) = Some (json_of_prim (s_value s))).
  { intros p s l Hin Hl. apply (rs_down _ _ R l (s_value s) (s_stamp s)). apply (proj1 Lj). exists p. apply names_split in Hl as <-.
    split; [apply elem_of_list_fmap; by exists (p, s)|]. split; [done|]. unfold init_of. by rewrite (alookup_in p s). }
  split; try done; try apply R.
  - intros u Hu. apply loaded_in in Hu as (q & -> & Hq). destruct (A q Hq) as [Hp _]. apply elem_of_list_fmap in Hp as ([p s] & Ep & Hin). cbn [fst] in Ep.
    exists (split_on dot p). assert (Hl : dotted p (split_on dot p)) by (by apply names_split).
    split; [by right|]. split; [cbn [tp_path loaded]; rewrite Ep; symmetry; by apply dotted_concat|]. cbn [tp_value loaded].
    split; [apply prim_scalar|]. split; [by destruct (sp_value q)|]. exists (json_of_prim (s_value s)). split; [by apply (B p)|apply prim_scalar].
  - intros l x Hx Sx. destruct (rs_up _ _ R l x Hx Sx) as (y & t & Hw & ->).
    assert (Hl : l ≠ []). { intros ->. cbn in Hx. injection Hx as Hx. by destruct y. }
    destruct (proj2 Lj l _ Hw Hl) as (l0 & n & Hn & C). pose proof (proj1 Lj _ _ Hn) as Hb. destruct Hn as (p & Hp & El & En). subst l0 n.
    assert (l = split_on dot p) as ->.
    { destruct C as [[[r E] _]|[r E]].
      - rewrite E, wbelow_app, Hw in Hb. cbn in Hb.
        destruct r as [|k r]; [by rewrite app_nil_r in E|]. exfalso.
        assert (Hr : k :: r = []) by (by eapply leaf_alone; exact Hb). done.
      - rewrite E, wbelow_app, Hb in Hw. cbn in Hw. destruct r as [|k r]; [by rewrite app_nil_r in E|]. exfalso.
        assert (Hr : k :: r = []) by (by eapply leaf_alone; exact Hw). done. }
    apply elem_of_list_fmap in Hp as ([p' s] & -> & Hin). exists p', s. split; [done|]. by apply names_split.
Qed.

(** ** The answers *)
Lemma apart_dec p q : PatchSpec.apart p q ∨ (p `prefix_of` q ∨ q `prefix_of` p).
Proof.
  destruct (decide (p `prefix_of` q)); [by right; left|]. destruct (decide (q `prefix_of` p)); [by right; right|]. left. by split.
Qed.
Lemma latest_total ps p v0 z0 : exists x z, latest ps p v0 z0 x z.
Proof.
  induction ps as [|q ps IH] using rev_ind; [exists v0, z0; constructor; by intros q ?%elem_of_nil|].
  destruct (decide (sp_path q = p)) as [E|E].
  - exists (sp_value q), (sp_ts q). apply (lt_last _ _ _ _ ps q []); [done|done|]. by intros q' ?%elem_of_nil.
  - destruct IH as (x & z & [Hno|a q1 b -> Hq1 Hb]).
    + exists v0, z0. constructor. intros q' [Hq'|Hq'%elem_of_list_singleton]%elem_of_app; [by apply Hno|congruence].
    + exists (sp_value q1), (sp_ts q1). apply (lt_last _ _ _ _ a q1 (b ++ [q])); [by rewrite <- app_assoc|done|].
      intros q' [Hq'|Hq'%elem_of_list_singleton]%elem_of_app; [by apply Hb|congruence].
Qed.
Lemma files_names v m file jm u l : files v m file jm -> updates jm u l -> dotted (tp_path u) l.
Proof.
  intros F (_ & Ep & _ & _ & x & Hx & Sx). destruct (fi_only _ _ _ _ F l x Hx Sx) as (p & s & _ & Hl). by rewrite Ep, (dotted_concat p l).
Qed.
Lemma touched_dec v m file jm t q : files v m file jm -> let us := map loaded (m_tpatches m) in
  untouched us jm t q ∨ exists u l, u ∈ us ∧ tp_ts u <= t ∧ updates jm u l ∧ (keys l `prefix_of` q ∨ q `prefix_of` keys l).
Proof.
  intros F us.
  destruct (decide (Exists (fun u => tp_ts u <= t ∧ ~ (~ keys (split_on dot (tp_path u)) `prefix_of` q ∧ ~ q `prefix_of` keys (split_on dot (tp_path u)))) us)) as [E|E].
  - right. apply Exists_exists in E as (u & Hu & Ht & C). destruct (fi_us _ _ _ _ F u Hu) as [l Hl]. exists u, l.
    pose proof (files_names v m file jm u l F Hl) as Hd. apply names_split in Hd. fold dot in Hd. rewrite Hd in C. split; [done|]. split; [done|]. split; [done|].
    destruct (apart_dec (keys l) q) as [A|A]; [|done]. by destruct C.
  - left. intros u l Hu Ht Hl. destruct (apart_dec (keys l) q) as [A|A]; [done|]. exfalso. apply E, Exists_exists. exists u. split; [done|]. split; [done|].
    pose proof (files_names v m file jm u l F Hl) as Hd. apply names_split in Hd. fold dot in Hd. rewrite Hd. intros [N1 N2]. by destruct A.
Qed.
Lemma leaf_below d q r x z x' z' : at_path d q = Some (TLeaf x z) -> at_path d (q ++ r) = Some (TLeaf x' z') -> r = [].
Proof. intros H H'. rewrite at_path_app, H in H'. cbn in H'. destruct r as [|[|] r]; done. Qed.
Lemma state_shows v m file jm d0 t d : files v m file jm -> plain_json d0 = JObj jm ->
  state_at jm d0 (map loaded (m_tpatches m)) t d -> shows_run v m t d.
Proof.
  intros F E0 [S1 S2].
  assert (G : forall p s l x z, (p, s) ∈ sensors v -> dotted p l -> known m t p (s_value s) x z -> at_path d (keys l) = Some (TLeaf x z)).
  { intros p s l x z Hin Hl HK.
    pose proof (known_stands m t p l (s_value s) x z (fi_sorted _ _ _ _ F) (fi_strict _ _ _ _ F p) Hl HK) as HS.
    destruct (S1 l _ _ _ (fi_below _ _ _ _ F p s l Hin Hl) (prim_scalar _) HS) as (y & Hy & Ey). by apply prim_json_inj in Ey as ->. }
  split; [done|]. intros q x z Hq. destruct (touched_dec v m file jm t q F) as [HU|(u & l & Hu & Ht & Hl & C)].
  - rewrite (S2 q HU) in Hq. destruct (fi_flat _ _ _ _ F q d0 x z E0 Hq) as (l & -> & Hl).
    destruct (fi_only _ _ _ _ F l _ Hl (prim_scalar x)) as (p & s & Hin & Hd). by exists p, s, l.
  - pose proof Hl as (_ & _ & _ & _ & y & Hy & Sy). destruct (fi_only _ _ _ _ F l y Hy Sy) as (p & s & Hin & Hd).
    exists p, s, l. split; [done|]. split; [done|].
    destruct (latest_total (filter (fun q => sp_ts q <= t) (m_tpatches m)) p (s_value s) (-1)) as (x' & z' & HK).
    pose proof (G p s l x' z' Hin Hd HK) as Hp. destruct C as [[r C]|[r C]].
    + rewrite C in Hq. pose proof (leaf_below _ _ _ _ _ _ _ Hp Hq) as ->. by rewrite app_nil_r in C.
    + rewrite C in Hp. pose proof (leaf_below _ _ _ _ _ _ _ Hq Hp) as ->. by rewrite app_nil_r in C.
Qed.
Lemma log_answers T v m file jm h qs : files v m file jm -> Forall (fun q => oracle_ok (fst q)) qs -> StronglySorted Z.le (map snd qs) ->
  exists h' L st ds, create_logument T file (map loaded (m_tpatches m)) h = (h', Ok L) ∧ snapshot_run qs (h', L) = (st, Ok ds) ∧
    Forall2 (fun q => answer_ok v m (snd q)) qs ds.
Proof.
  intros F HO HS. destruct (snapshot_log_run T file jm (map loaded (m_tpatches m)) h qs (fi_file _ _ _ _ F) (files_named _ _ _ _ F)
    (fi_enc _ _ _ _ F) (fi_full _ _ _ _ F) (fi_us _ _ _ _ F) HO HS) as (h' & L & d0 & st & ds & E & E0 & _ & Er & HF).
  exists h', L, st, ds. split; [done|]. split; [done|]. eapply Forall2_impl; [exact HF|]. intros q d [H1 H2]. split.
  - intros Hq. apply H1. intros u Hu. apply loaded_in in Hu as (q' & -> & Hq'). by apply Hq.
  - intros (q' & Hq' & Ht). apply (state_shows v m file jm d0); [done|done|]. apply H2. exists (loaded q'). split; [|done].
    apply elem_of_list_fmap. by exists q'.
Qed.
