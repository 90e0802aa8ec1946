(** The temporal experiment on the files of a run. *)
From Verif Require Import Base BaseSpec BaseLemmas F64 Tson TsonSpec Heap Patch PatchSpec PatchLemmas Logument LogSpec LogLemmas ChangeLemmas CompactLemmas ReplaySpec Bytes TjsonSpec TjsonLemmas Tjson Initial
  InitialSpec InitialLemmas Json Query QuerySpec QueryLemmas QueryTrack QueryAgree Sensor Scenario Sim SimSpec SimTrace SimLemmas SimTimes SimDocs SimFinal VssLemmas Temporal TemporalSpec TempDocs TempLog TempTrack.
From Verif Require TempTimes.

(** ** Times *)
Lemma range_fold us : forall lo hi, lo <= hi ->
  let r := fold_left (fun r u => (if tp_ts u <? fst r then tp_ts u else fst r, if snd r <? tp_ts u then tp_ts u else snd r)) us (lo, hi) in
  fst r <= lo ∧ hi <= snd r ∧ (forall u, u ∈ us -> fst r <= tp_ts u <= snd r) ∧
  (fst r = lo ∨ exists u, u ∈ us ∧ tp_ts u = fst r) ∧ (snd r = hi ∨ exists u, u ∈ us ∧ tp_ts u = snd r).
Proof.
  induction us as [|u us IH]; intros lo hi Hle; cbn [fold_left].
  - cbn. split; [lia|]. split; [lia|]. split; [by intros u ?%elem_of_nil|]. by split; left.
  - set (lo' := if tp_ts u <? lo then tp_ts u else lo). set (hi' := if hi <? tp_ts u then tp_ts u else hi).
    cbn [fst snd]. fold lo' hi'.
    assert (H : lo' <= lo ∧ hi <= hi' ∧ lo' <= tp_ts u <= hi' ∧ (lo' = lo ∨ lo' = tp_ts u) ∧ (hi' = hi ∨ hi' = tp_ts u)).
    { unfold lo', hi'. destruct (Z.ltb_spec (tp_ts u) lo), (Z.ltb_spec hi (tp_ts u)); lia. }
    destruct H as (H1 & H2 & H3 & H4 & H5). destruct (IH lo' hi' ltac:(lia)) as (I1 & I2 & I3 & I4 & I5).
    split; [lia|]. split; [lia|]. split; [|split].
    + intros x [->|Hx]%elem_of_cons; [lia|by apply I3].
    + destruct I4 as [->|(x & Hx & E)]; [|right; exists x; split; [by right|done]]. destruct H4 as [->| ->]; [by left|right; exists u; split; [by left|done]].
    + destruct I5 as [->|(x & Hx & E)]; [|right; exists x; split; [by right|done]]. destruct H5 as [->| ->]; [by left|right; exists u; split; [by left|done]].
Qed.
Lemma range_spec now m lo hi : time_range now (map loaded (m_tpatches m)) = (lo, hi) -> m_tpatches m <> [] -> spans m lo hi.
Proof.
  intros E Hne. destruct (m_tpatches m) as [|q0 l] eqn:Em; [done|]. cbn [map time_range] in E.
  destruct (range_fold (loaded q0 :: map loaded l) (sp_ts q0) (sp_ts q0) ltac:(lia)) as (_ & _ & I3 & I4 & I5).
  change (tp_ts (loaded q0)) with (sp_ts q0) in E. rewrite E in I3, I4, I5. cbn [fst snd] in *. unfold spans. rewrite Em.
  change (loaded q0 :: map loaded l) with (map loaded (q0 :: l)) in *. split; [|split].
  - destruct I4 as [->|(u & Hu & Eu)]; [exists q0; split; [by left|done]|]. apply loaded_in in Hu as (q & -> & Hq). by exists q.
  - destruct I5 as [->|(u & Hu & Eu)]; [exists q0; split; [by left|done]|]. apply loaded_in in Hu as (q & -> & Hq). by exists q.
  - intros q Hq. apply (I3 (loaded q)). apply elem_of_list_fmap. by exists q.
Qed.
Lemma spans_fun m lo hi lo' hi' : spans m lo hi -> spans m lo' hi' -> lo = lo' ∧ hi = hi'.
Proof.
  intros ((a & Ha & Ea) & (b & Hb & Eb) & H) ((a' & Ha' & Ea') & (b' & Hb' & Eb') & H').
  pose proof (H a' Ha'). pose proof (H' a Ha). pose proof (H b' Hb'). pose proof (H' b Hb). lia.
Qed.
Lemma time_at_place lo hi count i : time_at lo hi count i = lo + f64_to_int64 (TempTimes.place_of (Z.of_nat count - 1) (hi - lo) (Z.of_nat i)).
Proof. done. Qed.
Lemma sorted_seq (f : nat -> Z) k n : (forall i j, (k <= i <= j)%nat -> (j < k + n)%nat -> f i <= f j) -> StronglySorted Z.le (map f (seq k n)).
Proof.
  revert k. induction n as [|n IH]; intros k H; cbn [seq map]; constructor.
  - apply IH. intros i j Hi Hj. apply H; lia.
  - apply List.Forall_forall. intros y Hy. apply in_map_iff in Hy as (i & <- & Hi). apply in_seq in Hi. apply H; lia.
Qed.
Lemma times_spread now us count lo hi : time_range now us = (lo, hi) -> (2 <= count)%nat -> Z.of_nat count < 2 ^ 53 -> 0 <= hi - lo < 2 ^ 53 ->
  (Z.of_nat count - 1) * (hi - lo) < 2 ^ 52 -> spread_times lo hi count (generate_timestamps now us count).
Proof.
  intros E Hc Hc' Hr Hs. unfold generate_timestamps. rewrite E.
  assert (Hn : 0 < Z.of_nat count - 1 < 2 ^ 53) by lia.
  assert (H0 : time_at lo hi count 0 = lo) by (rewrite time_at_place; change (Z.of_nat 0) with 0; rewrite TempTimes.place_first by done; lia).
  assert (H1 : time_at lo hi count (count - 1) = hi).
  { rewrite time_at_place. replace (Z.of_nat (count - 1)) with (Z.of_nat count - 1) by lia. rewrite TempTimes.place_last by done. lia. }
  assert (Hle : forall i j, (i <= j < count)%nat -> time_at lo hi count i <= time_at lo hi count j).
  { intros i j Hij. rewrite !time_at_place. apply Z.add_le_mono_l. apply TempTimes.place_le; lia. }
  split; [by rewrite map_length, seq_length|]. split; [apply sorted_seq; intros; apply Hle; lia|]. split; [|split].
  - destruct count as [|count]; [lia|]. cbn [seq map head]. by rewrite H0.
  - assert (Es : seq 0 count = seq 0 (count - 1) ++ [(count - 1)%nat]).
    { replace count with (S (count - 1)) at 1 by lia. by rewrite seq_S. }
    rewrite Es, map_app. cbn [map]. rewrite last_snoc. by rewrite H1.
  - intros i t Hi. rewrite list_lookup_fmap in Hi. apply fmap_Some in Hi as (i' & Hi & ->). apply lookup_seq in Hi as [-> Hi].
    split; [split; [rewrite <- H0 at 1; apply Hle; lia|rewrite <- H1 at 2; apply Hle; lia]|].
    cbv zeta. rewrite time_at_place, Z.add_simpl_l. cbn [Nat.add]. apply TempTimes.place_near; [lia|lia|lia|lia].
Qed.

(** ** The document *)
Lemma lab_sorting b : lab_ok b -> sorting tp_ts (fun x => lb_sort2 b (lb_sort1 b x)).
Proof. intros H l. destruct (lk_sort2 b H (lb_sort1 b l)) as [P S]. split; [|done]. by rewrite P, (lk_sort1 b H). Qed.
Section run.
Context (v : vehicle) (m : run_state) (file : json) (jm : list (string * json)).
Context (F : files v m file jm) (M : moving v m).
Notation us := (map loaded (m_tpatches m)).
Lemma us_ok : (forall q, q ∈ m_tpatches m -> sp_ts q < 2 ^ 63) -> forall u, u ∈ us -> 0 <= tp_ts u < 2 ^ 63 ∧ exists l, updates jm u l.
Proof.
  intros Hb u Hu. split; [|by apply (fi_us _ _ _ _ F)]. apply loaded_in in Hu as (q & -> & Hq). cbn [tp_ts loaded].
  destruct (mv_path _ _ M q Hq) as [_ ?]. specialize (Hb q Hq). lia.
Qed.
Lemma us_late p : later m p -> forall u, u ∈ us -> tp_path u = p -> 1 <= tp_ts u.
Proof.
  intros HL u Hu Hp. apply loaded_in in Hu as (q & -> & Hq). cbn [tp_path tp_ts loaded] in *.
  destruct (mv_path _ _ M q Hq) as [_ ?]. specialize (HL q Hq Hp). lia.
Qed.
Lemma us_distinct p : distinct_times us p.
Proof.
  intros a u b u' c E Hp Hp'. pose proof (fi_strict _ _ _ _ F p) as H.
  apply map_eq_app in E as (a1 & r1 & Em & _ & E). destruct r1 as [|q r1]; [done|]. cbn [map] in E. injection E as Eu E.
  apply map_eq_app in E as (b1 & r2 & -> & _ & E). destruct r2 as [|q' r2]; [done|]. cbn [map] in E. injection E as Eu' E.
  subst u u'. cbn [tp_path tp_ts loaded] in *. rewrite Em in H. rewrite !filter_app, filter_cons_True, !filter_app, filter_cons_True in H by done.
  rewrite !map_app in H. cbn [map] in H. apply sorted_around in H as [_ H]. specialize (H (sp_ts q')). rewrite map_app in H. cbn [map] in H.
  assert (sp_ts q < sp_ts q'); [|lia]. apply H. apply elem_of_app. right. by left.
Qed.
Lemma is_equal_alike x y : finite x = true -> alike (json_of_prim x) (json_of_prim y) -> is_equal x y = true.
Proof.
  intros Hx [E|H].
  - apply prim_json_inj in E as <-. destruct x as [a|a|a]; cbn [is_equal].
    + by apply bool_decide_eq_true.
    + unfold f64_sub, f64_abs. assert (E : SFeqb a a = true).
      { destruct a as [s|s| |s mm e]; [done|done|done|]. unfold SFeqb, SFcompare. rewrite Z.compare_refl, Pos.compare_cont_refl. by destruct s. }
      destruct (sub_self a a Hx E) as [E'|[s E']]; rewrite E'; done.
    + by destruct a.
  - apply equal_is_equal; [done|]. apply go_json; [apply prim_scalar|apply prim_scalar|by destruct x|done].
Qed.
Lemma last_any {A} (a : list A) x d d' : List.last (x :: a) d = List.last (x :: a) d'.
Proof. revert x. induction a as [|y a IH]; intros x; [done|]. exact (IH y). Qed.
Lemma chain_app a x : forall v0 b, chain v0 (a ++ x :: b) -> is_equal (List.last a v0) x = false.
Proof.
  induction a as [|y a IH]; intros v0 b; cbn [app chain]; [by intros [? _]|]. intros [_ H]. apply IH in H.
  destruct a as [|z a]; [done|]. rewrite (last_any a z y v0) in H. exact H.
Qed.
Lemma us_changing p s l : (p, s) ∈ sensors v -> dotted p l -> changing us l (json_of_prim (s_value s)).
Proof.
  intros Hin Hd u w z Hu Hp HS Ha. apply loaded_in in Hu as (q & -> & Hq). rewrite (dotted_concat p l Hd) in Hp. cbn [tp_path tp_value tp_ts loaded] in *.
  pose proof (mv_chain _ _ M p s Hin) as HC. pose proof (fi_strict _ _ _ _ F p) as HT.
  assert (HqF : q ∈ filter (fun q => sp_path q = p) (m_tpatches m)) by (by apply elem_of_list_filter).
  apply elem_of_list_split in HqF as (a & b & EF). rewrite EF in HC, HT. rewrite map_app in HC, HT. cbn [map] in HC, HT.
  apply chain_app in HC. pose proof (sorted_around _ _ _ _ HT) as [HT1 HT2].
  destruct a as [|q' a _] using rev_ind.
  - cbn [map List.last] in HC. inversion HS as [Hno|u' Hu' Hp' Ht' Hm]; subst w z.
    + rewrite is_equal_alike in HC; [done|by apply (mv_start _ _ M p)|done].
    + apply loaded_in in Hu' as (x & -> & Hx). cbn [tp_path tp_ts loaded] in *. rewrite (dotted_concat p l Hd) in Hp'.
      assert (HxF : x ∈ filter (fun q => sp_path q = p) (m_tpatches m)) by (by apply elem_of_list_filter). rewrite EF in HxF. cbn [app] in HxF.
      apply elem_of_cons in HxF as [->|HxF]; [lia|]. assert (sp_ts q < sp_ts x); [|lia]. apply HT2. apply elem_of_list_fmap. by exists x.
  - rewrite map_app in HC. cbn [map] in HC. rewrite List.last_last in HC. rewrite map_app in HT1. cbn [map] in HT1.
    assert (Hq' : q' ∈ filter (fun q => sp_path q = p) (m_tpatches m)) by (rewrite EF; apply elem_of_app; left; apply elem_of_app; right; by left).
    apply elem_of_list_filter in Hq' as [Hp' Hq'].
    assert (Ht' : sp_ts q' < sp_ts q) by (apply HT1, elem_of_app; right; by left).
    inversion HS as [Hno|u' Hu' Hpu Htu Hm]; subst w z.
    + specialize (Hno (loaded q')). cbn [tp_path tp_ts loaded] in Hno. rewrite (dotted_concat p l Hd) in Hno.
      assert (sp_ts q - 1 < sp_ts q'); [|lia]. apply Hno; [|done]. apply elem_of_list_fmap. by exists q'.
    + apply loaded_in in Hu' as (x & -> & Hx). cbn [tp_path tp_ts tp_value loaded] in *. rewrite (dotted_concat p l Hd) in Hpu, Hm.
      assert (HxF : x ∈ filter (fun q => sp_path q = p) (m_tpatches m)) by (by apply elem_of_list_filter). rewrite EF in HxF.
      assert (E : x = q').
      { apply elem_of_app in HxF as [HxF|HxF].
        - apply elem_of_app in HxF as [HxF|HxF%elem_of_list_singleton]; [|done]. exfalso.
          rewrite map_app in HT. cbn [map] in HT. rewrite <- app_assoc in HT. cbn [app] in HT. apply sorted_around in HT as [HT3 _].
          assert (sp_ts x < sp_ts q') by (apply HT3, elem_of_list_fmap; by exists x).
          destruct (Hm (loaded q')) as [E|E]; [apply elem_of_list_fmap; by exists q'|done|cbn; lia| |].
          + injection E as E1 E2 E3. lia.
          + cbn in E. lia.
        - exfalso. apply elem_of_cons in HxF as [->|HxF]; [lia|]. assert (sp_ts q < sp_ts x); [|lia]. apply HT2, elem_of_list_fmap. by exists x. }
      subst x. rewrite is_equal_alike in HC; [done|by apply (mv_patch _ _ M)|done].
Qed.
Context (b : lab) (B : lab_ok b).
Notation doc := (temporal_doc b file us).
Lemma doc_track p s l x e : (p, s) ∈ sensors v -> dotted p l -> exists rs, tj_track (lb_periods b) doc p x e = Ok rs.
Proof.
  intros Hin Hd. pose proof (fi_below _ _ _ _ F p s l Hin Hd) as Hb. pose proof (below_place _ _ _ Hb) as Hpl.
  assert (Hns : named simple_name (JObj jm)) by (eapply named_impl; [|exact (fi_named _ _ _ _ F)]; by intros k [? _]).
  destruct (tj_track (lb_periods b) doc p x e) as [rs| |] eqn:E; [by exists rs|exfalso|exfalso].
  - unfold temporal_doc in E. apply (track_err _ _ _ _ _ p l x e (lab_sorting b B) (lk_values b B) Hd) in E. apply E.
    exists (TPatch "add" p (json_of_prim (s_value s)) 0), []. rewrite app_nil_r. split.
    + apply elem_of_app. left. unfold initial_patches. rewrite (fi_file _ _ _ _ F). apply (gen_in jm Hns). exists l, (json_of_prim (s_value s)), (json_of_prim (s_value s)).
      split; [done|]. split; [constructor; apply prim_scalar|]. by rewrite (dotted_concat p l Hd).
    + split; [by left|]. cbn [tp_path]. rewrite <- (dotted_concat p l Hd).
      assert (Hne : l <> []) by (intros ->; inversion Hd). apply route_concat; [done|]. by destruct (place_names _ _ _ Hns Hpl).
  - unfold tj_track in E. by destruct (find_item _ _).
Qed.
Lemma doc_agrees t d hi : (forall q, q ∈ m_tpatches m -> sp_ts q <= hi) -> hi <= lb_now b < 2 ^ 63 -> 0 <= t <= hi -> shows_run v m t d -> agrees v m d (tj_snapshot doc t).
Proof.
  intros Hhi Hnow Ht [HS _] p s l Hin Hd Hlen HL.
  destruct (latest_total (filter (fun q => sp_ts q <= t) (m_tpatches m)) p (s_value s) (-1)) as (x & z & HK).
  pose proof (HS p s l x z Hin Hd HK) as Hx.
  pose proof (known_stands m t p l (s_value s) x z (fi_sorted _ _ _ _ F) (fi_strict _ _ _ _ F p) Hd HK) as Hst.
  pose proof (fi_below _ _ _ _ F p s l Hin Hd) as Hb.
  assert (Hus : forall u, u ∈ us -> 0 <= tp_ts u < 2 ^ 63 ∧ exists l, updates jm u l).
  { apply us_ok. intros q Hq. specialize (Hhi q Hq). lia. }
  assert (Hset : forall u, u ∈ us -> sets u l <-> tp_path u = String.concat "." l).
  { intros u Hu. apply (sets_path jm us (fi_named _ _ _ _ F) Hus u l (json_of_prim (s_value s))); [done|done|apply prim_scalar]. }
  assert (Hsh : shown us l (json_of_prim (s_value s)) t (json_of_prim x)).
  { inversion Hst as [Hno Ew|u Hu Hp Htu Hm Ew].
    - apply sh_initial. intros u Hu Hs. apply Hno; [done|]. by apply Hset.
    - apply sh_update; [done|by apply Hset|done|]. intros u' Hu' Hs' Ht'. apply Hm; [done|by apply Hset|done]. }
  assert (Hns : named simple_name (JObj jm)) by (eapply named_impl; [|exact (fi_named _ _ _ _ F)]; by intros k [? _]).
  destruct (shown_file (fun x => lb_sort2 b (lb_sort1 b x)) (lb_values b) (lb_now b) file jm us l (json_of_prim (s_value s)) t (json_of_prim x)
    (fi_file _ _ _ _ F) Hns (fi_enc _ _ _ _ F) (updates_simple jm us (fi_named _ _ _ _ F) Hus) (lab_sorting b B) (lk_values b B)) as (w & Hw & Ha); try done.
  - lia.
  - by apply below_place.
  - apply prim_scalar.
  - lia.
  - intros u Hu Hs. apply Hset in Hs; [|done]. rewrite (dotted_concat p l Hd) in Hs. by apply (us_late p).
  - by destruct x.
  - by destruct x.
  - by exists x, z, w.
Qed.
Lemma doc_events p s l x e thr : (p, s) ∈ sensors v -> dotted p l -> exists xs, tj_events (lb_periods b) doc p x e (over_threshold thr) = Ok xs.
Proof. intros Hin Hd. destruct (doc_track p s l x e Hin Hd) as [rs E]. unfold tj_events. rewrite E. by eexists. Qed.
End run.

(** ** The experiment *)
Lemma track_run_ok v m file jm b s e st mm paths : files v m file jm -> lab_ok b ->
  temporal_track s e st = (st, Ok mm) -> (forall p, track_ok m p s e (filter_track mm p)) -> (forall p, p ∈ paths -> p ∈ akeys (sensors v)) ->
  exists ts, track_run b (temporal_doc b file (map loaded (m_tpatches m))) paths s e st = (st, Ok ts) ∧
    Forall2 (fun p t => track_ok m p s e (fst t)) paths ts.
Proof.
  intros F B E T. induction paths as [|p paths IH]; intros Hp; [by exists []|]. cbn [track_run]. rewrite E.
  destruct (proj1 (elem_of_list_fmap _ _ _) (Hp p ltac:(by left))) as ([p' x] & Ep & Hin). cbn [fst] in Ep. subst p'.
  assert (Hd : dotted p (split_on dot p)) by (by apply names_split).
  destruct (doc_track v m file jm F b B p x _ s e Hin Hd) as [rs Er]. rewrite Er.
  destruct IH as (ts & Et & HF); [intros q Hq; apply Hp; by right|]. rewrite Et. exists ((filter_track mm p, rs) :: ts). split; [done|].
  constructor; [apply T|done].
Qed.
Lemma event_run_ok v m file jm b s e st p x thrs : files v m file jm -> lab_ok b -> (p, x) ∈ sensors v ->
  (forall ord p thr, (forall x, ord x ≡ₚ x) -> find_events ord p s e thr st = (st, Ok (map sp_ts (filter (above thr) (window m p s e))))) ->
  exists es, event_run b (temporal_doc b file (map loaded (m_tpatches m))) p s e thrs st = (st, Ok es) ∧
    Forall2 (fun thr z => fst z = map sp_ts (filter (above thr) (window m p s e)) ∧
      tj_events (lb_periods b) (temporal_doc b file (map loaded (m_tpatches m))) p s e (over_threshold thr) = Ok (snd z)) thrs es.
Proof.
  intros F B Hin E. assert (Hd : dotted p (split_on dot p)) by (by apply names_split).
  induction thrs as [|thr thrs IH]; [by exists []|]. cbn [event_run]. rewrite (E (lb_track b) p thr (lk_track b B)).
  destruct (doc_events v m file jm F b B p x _ s e thr Hin Hd) as [xs Ex]. rewrite Ex.
  destruct IH as (es & Ee & HF). rewrite Ee. exists ((map sp_ts (filter (above thr) (window m p s e)), xs) :: es). split; [done|].
  by constructor.
Qed.
Lemma imap_snd {A} (f : nat -> A) (l : list Z) : map snd (imap (fun i t => (f i, t)) l) = l.
Proof. revert f. induction l as [|t l IH]; intros f; [done|]. cbn. f_equal. apply (IH (fun i => f (S i))). Qed.
Lemma imap_all {A} (f : nat -> A) (P : A -> Prop) (l : list Z) : (forall i, P (f i)) -> Forall (fun q => P (fst q)) (imap (fun i t => (f i, t)) l).
Proof. revert f. induction l as [|t l IH]; intros f H; [constructor|]. cbn. constructor; [apply H|]. by apply (IH (fun i => f (S i))). Qed.
Lemma dotted_two p l : dotted p l -> p = "Vehicle.Speed" -> (2 <= length l)%nat.
Proof. intros Hd ->. apply names_split in Hd. subst l. vm_compute. lia. Qed.
Lemma event_window m p s e thr z : z ∈ map sp_ts (filter (above thr) (window m p s e)) <->
  s <= z <= e ∧ exists u f, u ∈ map loaded (m_tpatches m) ∧ tp_path u = p ∧ tp_ts u = z ∧ tp_value u = JNum f ∧ SFltb thr f = true.
Proof.
  rewrite elem_of_list_fmap. split.
  - intros (q & -> & Hq). apply elem_of_list_filter in Hq as [Ha Hq]. unfold window in Hq. apply elem_of_list_filter in Hq as [[Hp Ht] Hq].
    split; [done|]. unfold above in Ha. destruct (sp_value q) as [|f|] eqn:Ev; try done. exists (loaded q), f. unfold loaded. cbn. rewrite Ev.
    split; [|done]. apply elem_of_list_fmap. exists q. split; [|done]. unfold loaded. by rewrite Ev.
  - intros (Ht & u & f & Hu & Hp & Ez & Ev & Hf). apply loaded_in in Hu as (q & -> & Hq). cbn in Hp, Ez, Ev. exists q. split; [done|].
    apply elem_of_list_filter. split.
    + unfold above. destruct (sp_value q); try done. cbn in Ev. by injection Ev as ->.
    + unfold window. apply elem_of_list_filter. split; [|done]. split; [done|lia].
Qed.
Lemma experiment_correct w v sec inc m m0 file file' b h lo hi : simulate w v None sec inc = Ok m -> start w v None = Ok m0 -> orders_ok w -> separate v -> 0 < inc ->
  plain_paths v -> writable v m -> decoded (WObj (m_json m0)) file -> decoded (WObj (m_json m0)) file' -> lab_ok b ->
  (forall p, p ∈ watched -> p ∈ akeys (sensors v)) -> spans m lo hi -> 10000 <= hi - lo -> 60 * (hi - lo) < 2 ^ 52 ->
  exists a, temporal_experiment b file file' (map loaded (m_tpatches m)) h = Ok a ∧ correct v m (lb_now b) lo hi a.
Proof.
  intros H H0 Ho Hs Hi HP HW HD HD' B Htr Hsp Hgap Hsmall. destruct (separate_apart v Hs) as [Hnd _].
  destruct (run_files w v None sec inc m m0 file H H0 Ho Hs Hi HP HW HD) as [jm F].
  destruct (run_files w v None sec inc m m0 file' H H0 Ho Hs Hi HP HW HD') as [jm' F'].
  pose proof (run_moving w v sec inc m H Ho Hnd Hi HW) as M.
  set (us := map loaded (m_tpatches m)) in *.
  assert (Hne : m_tpatches m <> []). { destruct Hsp as ((q & Hq & _) & _). intros E. rewrite E in Hq. by apply elem_of_nil in Hq. }
  destruct (time_range (lb_now b) us) as [lo' hi'] eqn:Er. pose proof (range_spec _ _ _ _ Er Hne) as Hsp'.
  destruct (spans_fun _ _ _ _ _ Hsp Hsp') as [<- <-]. clear Hsp'.
  pose proof (times_spread _ _ 61 _ _ Er ltac:(lia) ltac:(lia) ltac:(lia) ltac:(lia)) as HT.
  set (times := generate_timestamps (lb_now b) us 61) in *. destruct HT as (T1 & T2 & T3 & T4 & T5).
  set (qs := imap (fun i t => (lb_oracle b i, t)) times).
  assert (Hqs : qs <> []). { intros E. apply (f_equal (map snd)) in E. unfold qs in E. rewrite imap_snd in E. rewrite E in T3. done. }
  destruct (log_searches (lb_text b) v m file' jm' h qs F' M) as (h' & L & st & ds & Ec & Es & HA & HQ).
  { unfold qs. apply imap_all, (lk_oracle b B). }
  { unfold qs. by rewrite imap_snd. }
  { done. }
  destruct (HQ lo hi ltac:(lia)) as (mm & Et & Ht & _).
  destruct (track_run_ok v m file jm b lo hi st mm tracked_paths F B Et Ht Htr) as (ts & Ets & HTs).
  set (s := lb_draw b (hi - search_gap - lo + 1) + lo).
  assert (Hdr : lo <= s ∧ s + search_gap <= hi).
  { unfold s. pose proof (lk_draw b B (hi - search_gap - lo + 1) ltac:(unfold search_gap; lia)). lia. }
  destruct (HQ s (s + search_gap) ltac:(unfold search_gap; lia)) as (_ & _ & _ & HE).
  assert (Hspeed : "Vehicle.Speed" ∈ akeys (sensors v)) by (apply Htr; by left).
  apply elem_of_list_fmap in Hspeed as ([p0 x0] & Ep0 & Hin0). cbn [fst] in Ep0. subst p0.
  destruct (event_run_ok v m file jm b s (s + search_gap) st "Vehicle.Speed" x0 thresholds F B Hin0 HE) as (es & Ees & HEs).
  exists (Answers times ds (map (tj_snapshot (temporal_doc b file us)) times) (Ok ts) (s, s + search_gap) (Ok es)).
  assert (Hlog : Forall2 (shows_run v m) times ds).
  { rewrite <- (imap_snd (lb_oracle b) times). fold qs. apply Forall2_fmap_l. eapply Forall2_impl; [|intros q d Hqd; exact Hqd].
    assert (Hall : Forall (fun q => lo <= snd q) qs).
    { apply Forall_forall. intros q Hq. assert (Hqt : snd q ∈ times) by (rewrite <- (imap_snd (lb_oracle b) times); apply elem_of_list_fmap; by exists q).
      apply elem_of_list_lookup in Hqt as [i Hi']. apply T5 in Hi'. lia. }
    clear -HA Hall Hsp. induction HA as [|q d qs' ds' Hqd HA IH]; [constructor|]. inversion Hall; subst. constructor; [|by apply IH].
    cbv beta. apply Hqd. destruct Hsp as ((q0 & Hq0 & E0) & _). exists q0. split; [done|]. lia. }
  split.
  - fold us in Ec, Ets. unfold temporal_experiment. rewrite Ec. fold times. fold qs. rewrite Es, Er, Ets.
    rewrite (proj2 (Z.ltb_ge (hi - lo) search_gap)) by (unfold search_gap; lia).
    rewrite (proj2 (Z.leb_gt (hi - search_gap - lo + 1) 0)) by (unfold search_gap; lia). cbv zeta. fold s. fold us in Ees. rewrite Ees. done.
  - split; cbn [an_times an_log an_doc an_tracks an_window an_events].
    + done.
    + done.
    + intros Hnow. assert (Hin : Forall (fun t => lo <= t <= hi) times).
      { apply Forall_forall. intros t [i Hi']%elem_of_list_lookup. pose proof (T5 i t Hi'). lia. }
      assert (Hlo : 0 <= lo). { destruct Hsp as ((q & Hq & <-) & _). by destruct (mv_path _ _ M q Hq). }
      clear -Hlog Hin Hnow Hsp F M B Hlo. induction Hlog as [|t d times ds Htd Hlog IH]; [constructor|]. inversion Hin; subst. cbn [map]. constructor; [|by apply IH].
      apply (doc_agrees v m file jm F M b B t d hi); [|done|lia|done]. intros q Hq. destruct Hsp as (_ & _ & Hsp). specialize (Hsp q Hq). lia.
    + by exists ts.
    + exists s. split; [done|]. split; [lia|]. split; [unfold search_gap in Hdr; lia|]. exists es. split; [done|].
      eapply Forall2_impl; [exact HEs|]. intros thr [zs xs] [E1 E2]. cbn [fst snd] in *. split; [done|]. intros Hnow HL H1 z.
      set (l := split_on dot "Vehicle.Speed"). assert (Hd : dotted "Vehicle.Speed" l) by (by apply names_split).
      assert (Hus : forall u, u ∈ us -> 0 <= tp_ts u < 2 ^ 63 ∧ exists l, updates jm u l).
      { apply (us_ok v m file jm F M). intros q Hq. destruct Hsp as (_ & _ & Hsp). specialize (Hsp q Hq). lia. }
      destruct (agree_events file jm us (fi_file _ _ _ _ F) (fi_named _ _ _ _ F) (fi_enc _ _ _ _ F) (fi_full _ _ _ _ F) Hus
        (fun x => lb_sort2 b (lb_sort1 b x)) (lb_values b) (lb_periods b) (lb_now b) "Vehicle.Speed" l (json_of_prim (s_value x0)) s (s + search_gap) thr
        (lab_sorting b B) (lk_values b B) (lk_periods b B)) as (xs' & Ex & HX).
      * by apply (fi_below _ _ _ _ F "Vehicle.Speed").
      * apply prim_scalar.
      * by apply (dotted_two "Vehicle.Speed").
      * symmetry. by apply dotted_concat.
      * apply (us_distinct v m file jm F).
      * by apply (us_changing v m file jm F M "Vehicle.Speed").
      * by apply (us_late v m M).
      * done.
      * unfold search_gap in *. lia.
      * lia.
      * unfold temporal_doc in E2. fold us in E2. rewrite Ex in E2. injection E2 as ->. rewrite E1. fold us.
        assert (HW2 : z ∈ map sp_ts (filter (above thr) (window m "Vehicle.Speed" s (s + search_gap))) <-> event us "Vehicle.Speed" s (s + search_gap) thr z).
        { rewrite event_window. symmetry. apply (event_changing us l (json_of_prim (s_value x0))); [symmetry; by apply dotted_concat|apply (us_distinct v m file jm F)|].
          by apply (us_changing v m file jm F M "Vehicle.Speed"). }
        rewrite HW2. split.
        -- intros Hev. assert (s <= z) by (by destruct Hev as (u & f & _ & _ & _ & [? _] & _)). split; [|done]. by apply HX.
        -- intros [Hx Hz]. by apply HX.
Qed.
Lemma experiment_still b file file' h : temporal_experiment b file file' [] h = Panic.
Proof.
  unfold temporal_experiment. destruct (create_logument _ _ _ _) as [h1 [L| |]]; [|done|done]. cbv zeta.
  destruct (snapshot_run _ _) as [st1 [ds| |]]; [|done|done]. cbn [time_range].
  destruct (track_run _ _ _ _ _ _) as [st2 [x| |]]; try done;
    replace (lb_now b - (lb_now b - 3600) <? search_gap) with true by (symmetry; apply Z.ltb_lt; unfold search_gap; lia); done.
Qed.
Lemma experiment_short m file file' b h lo hi : spans m lo hi -> hi - lo < 10000 ->
  temporal_experiment b file file' (map loaded (m_tpatches m)) h = Panic.
Proof.
  intros Hsp Hg. assert (Hne : m_tpatches m <> []). { destruct Hsp as ((q & Hq & _) & _). intros E. rewrite E in Hq. by apply elem_of_nil in Hq. }
  destruct (time_range (lb_now b) (map loaded (m_tpatches m))) as [lo' hi'] eqn:Er. pose proof (range_spec _ _ _ _ Er Hne) as Hsp'.
  assert (E : lo' = lo ∧ hi' = hi).
  { destruct Hsp as ((q & Hq & <-) & (q' & Hq' & <-) & HA), Hsp' as ((r & Hr & <-) & (r' & Hr' & <-) & HA').
    pose proof (HA r Hr). pose proof (HA r' Hr'). pose proof (HA' q Hq). pose proof (HA' q' Hq'). lia. }
  destruct E as [-> ->]. unfold temporal_experiment. destruct (create_logument _ _ _ _) as [h1 [L| |]]; [|done|done]. cbv zeta.
  destruct (snapshot_run _ _) as [st1 [ds| |]]; [|done|done]. rewrite Er.
  destruct (track_run _ _ _ _ _ _) as [st2 [x| |]]; try done; by rewrite (proj2 (Z.ltb_lt (hi - lo) search_gap) Hg).
Qed.
