(** Groups of logs: one document each. *)
From Verif Require Import Base BaseSpec BaseSpecLemmas F64 Tson BaseLemmas Serial Heap HeapSpec Patch Own PatchSpec TreePatch PatchLemmas
  Logument LogSpec LogLemmas ReplaySpec ReplayLemmas Family FamilySpec.
From Coq Require Import Lia.

(** ** Documents and patches *)
Lemma docs_perm h ds ds' : ds ≡ₚ ds' -> docs_of h ds -> docs_of h ds'.
Proof.
  intros HP (lts & HF & HN & E). rewrite <- E in HP. apply Permutation_sym, Permutation_map_inv in HP as (lts' & -> & HP).
  exists lts'. split; [|split; [|done]].
  - by rewrite <- HP.
  - assert (Hc : concat (map locs lts) ≡ₚ concat (map locs lts')); [|by rewrite <- Hc].
    rewrite <- !flat_map_concat_map. by rewrite HP.
Qed.
Lemma obj_content h l t ds : docs_of h ((VObj l, t) :: ds) -> exists m, t = TObj m.
Proof.
  intros (lts & _ & _ & E). destruct lts as [|lt lts]; [done|]. injection E as E1 E2 _.
  destruct lt; try done. cbn in E2. subst t. by eexists.
Qed.

(** The object stays, its content changes, the others keep theirs. *)
Definition only_doc (l : loc) (h h' : heap) : Prop :=
  forall t ds, docs_of h ((VObj l, t) :: ds) -> exists t', docs_of h' ((VObj l, t') :: ds).
Lemma only_refl l h : only_doc l h h.
Proof. intros t ds H. by exists t. Qed.
Lemma only_trans l h1 h2 h3 : only_doc l h1 h2 -> only_doc l h2 h3 -> only_doc l h1 h3.
Proof. intros H1 H2 t ds HD. apply H1 in HD as [t1 HD]. by apply H2 in HD. Qed.
Lemma nil_operation h op : apply_operation h VNil op = (h, Err).
Proof. unfold apply_operation. destruct (op_parts (op_path op)) eqn:E; [by apply op_parts_ne in E|]. done. Qed.
Lemma operation_only l h s op : one l s -> only_doc l h (fst (apply_operation h s op)).
Proof.
  intros [-> | ->]; [|rewrite nil_operation; apply only_refl].
  intros t ds HD. destruct (apply_operation h (VObj l) op) as [h' r] eqn:Ea.
  destruct (obj_content _ _ _ _ HD) as [m ->].
  destruct (apply_operation_docs _ _ _ _ _ _ _ HD Ea) as (v' & t' & H1 & _ & _ & ->). by exists t'.
Qed.
Lemma ops_only l h s t p : one l s -> only_doc l h (fst (apply_ops h s t p)).
Proof.
  intros Hs. revert h t. induction p as [|op p IH]; intros h t; [apply only_refl|]. cbn [apply_ops].
  pose proof (operation_only l h s op Hs) as H. destruct (apply_operation h s op) as [h1 [v| |]]; cbn [fst] in H; [|done|done].
  eapply only_trans; [exact H|apply IH].
Qed.
Lemma replay_only l h s t ps : one l s -> only_doc l h (fst (replay_versions h s t ps)).
Proof.
  intros Hs. revert h t. induction ps as [|p ps IH]; intros h t; [apply only_refl|]. cbn [replay_versions].
  pose proof (ops_only l h s VNil p Hs) as H. unfold apply_patch. destruct (apply_ops h s VNil p) as [h1 [v| |]]; cbn [fst] in H; [|done|done].
  eapply only_trans; [exact H|apply IH].
Qed.

(** ** Any log, whatever its versions *)
Definition same_docs (L L' : logument) : Prop := l_snapshots L' = l_snapshots L ∧ l_current L' = l_current L.
Lemma same_root l L L' : same_docs L L' -> shared_root l L -> shared_root l L'.
Proof. intros [E1 E2] [H1 H2]. split; [by rewrite E1|by rewrite E2]. Qed.
Lemma continuous_docs L : same_docs L (fst (is_continuous L)).
Proof. unfold is_continuous. by destruct (l_version L) as [|v [|w vs]]. Qed.
Lemma append_docs h L : same_docs L (snd (fst (append (h, L)))) ∧ fst (fst (append (h, L))) = h.
Proof.
  unfold append. destruct (is_grown L); [|done]. cbn [negb]. destruct (l_pool L) as [ps|]; [|done].
  destruct (last_version L); [|done]. by destruct (l_patches L !! _).
Qed.
Lemma latest_docs L v : same_docs L (fst (find_latest L v)).
Proof.
  unfold find_latest. pose proof (continuous_docs L) as H. destruct (is_continuous L) as [L1 b]. cbn [fst] in H.
  destruct b; [|done]. cbn [negb]. destruct (last_version L1); [|done]. destruct (_ <? _)%N; [done|]. by destruct (last _).
Qed.
Lemma latest_kept L v L1 w s : find_latest L v = (L1, Ok (w, s)) -> s = default VNil (l_snapshots L !! w).
Proof.
  intros E. pose proof (latest_docs L v) as [Hd _]. rewrite E in Hd. cbn in Hd. revert E. unfold find_latest.
  destruct (is_continuous L) as [L2 b]. destruct b; [|done]. cbn [negb]. destruct (last_version L2); [|done].
  destruct (_ <? _)%N; [done|]. destruct (last _); [|done]. intros [= -> <- <-]. by rewrite Hd.
Qed.
Lemma default_one l L v : shared_root l L -> one l (default VNil (l_snapshots L !! v)).
Proof. intros [H _]. destruct (l_snapshots L !! v) eqn:E; [by eapply H|by right]. Qed.
Lemma root_insert l L v t : shared_root l L -> one l t -> shared_root l (with_snapshots L (<[v := t]> (l_snapshots L))).
Proof. intros [H1 H2] Ht. split; [|done]. cbn. intros w s Hw. apply lookup_insert_Some in Hw as [[_ <-]|[_ Hw]]; [done|by eapply H1]. Qed.

(** What every call does: the log keeps to its document and changes no other. *)
Definition tame (l : loc) (h : heap) (L : logument) (st : state) : Prop :=
  only_doc l h (fst st) ∧ shared_root l (snd st) ∧ (l_current L = VNil -> l_current (snd st) = VNil).
Lemma tame_same l h L L' : shared_root l L -> same_docs L L' -> tame l h L (h, L').
Proof. intros HR HS. split; [apply only_refl|]. split; [by eapply same_root|]. destruct HS as [_ E]. cbn. by rewrite E. Qed.
Lemma tame_trans l h L h1 L1 st : tame l h L (h1, L1) -> tame l h1 L1 st -> tame l h L st.
Proof. intros (A1 & A2 & A3) (B1 & B2 & B3). split; [by eapply only_trans|]. split; [done|]. auto. Qed.

Lemma snapshot_tame l v h L : shared_root l L ->
  tame l h L (fst (snapshot v (h, L))) ∧ (forall s, snd (snapshot v (h, L)) = Ok s -> one l s).
Proof.
  intros HR. unfold snapshot. pose proof (latest_docs L v) as HD. destruct (find_latest L v) as [L1 r] eqn:EF. cbn [fst] in HD.
  pose proof (same_root _ _ _ HD HR) as HR1. pose proof (tame_same l h L L1 HR HD) as HT.
  destruct r as [[w s]| |]; [|by split|by split].
  pose proof (latest_kept _ _ _ _ _ EF) as ->. pose proof (default_one l L w HR) as Hs.
  set (s := default VNil (l_snapshots L !! w)) in *.
  assert (HX : forall h1 (r1 : res val), only_doc l h h1 -> (forall t, r1 = Ok t -> one l t) ->
    tame l h L (fst (match r1 with Ok t => match l_snapshots L1 !! v with Some _ => ((h1, L1), Ok t)
       | None => ((h1, with_snapshots L1 (<[v := t]> (l_snapshots L1))), Ok t) end | _ => ((h1, L1), Panic) end)) ∧
    (forall t, snd (match r1 with Ok t => match l_snapshots L1 !! v with Some _ => ((h1, L1), Ok t)
       | None => ((h1, with_snapshots L1 (<[v := t]> (l_snapshots L1))), Ok t) end | _ => ((h1, L1) : state, Panic) end) = Ok t -> one l t)).
  { intros h1 r1 Ho Hr. destruct HT as (_ & _ & Hc). assert (HT1 : tame l h L (h1, L1)) by exact (conj Ho (conj HR1 Hc)).
    destruct r1 as [t| |]; [|split; [exact HT1|by intros t E]|split; [exact HT1|by intros t E]].
    specialize (Hr t eq_refl). destruct (l_snapshots L1 !! v); cbn [fst snd].
    - split; [exact HT1|]. by intros u [= <-].
    - split; [|by intros u [= <-]]. split; [done|]. split; [by apply root_insert|done]. }
  destruct (w =? v)%N.
  - apply (HX h (Ok s)); [apply only_refl|]. by intros t [= <-].
  - pose proof (replay_only l h s VNil (map (patch_at L1) (seqN (w + 1) (N.to_nat (v - w)))) Hs) as Ho.
    destruct (replay_versions _ _ _ _) as [h1 r1] eqn:Er. cbn [fst] in Ho. apply (HX h1 r1); [done|].
    intros t ->. eapply replay_one; [exact Hs|by right|exact Er].
Qed.

Lemma temporal_tame l orc ts h L : shared_root l L ->
  tame l h L (fst (temporal_snapshot orc ts (h, L))) ∧ (forall s, snd (temporal_snapshot orc ts (h, L)) = Ok s -> one l s).
Proof.
  intros HR. pose proof (tame_same l h L L HR (conj eq_refl eq_refl)) as HT.
  split; [|intros s E; destruct (temporal_snapshot orc ts (h, L)) as [st' r] eqn:Et; cbn in E; subst r;
    by eapply temporal_snapshot_one; [exact (proj1 HR)|exact Et]].
  unfold temporal_snapshot.
  destruct (l_version L) as [|v0 vs]; [done|]. destruct (last_version L) as [vl|]; [|done].
  destruct (pick_snapshot _ _ _ _ _) as [v| |]; [|done|done].
  pose proof (default_one l L v HR) as Hs.
  assert (HG : forall L2 s p, one l s -> same_docs L L2 ->
    tame l h L (fst (match apply_patch h s p with (h1, Ok t) => (((h1, L2) : state), Ok t) | (h1, _) => ((h1, L2), Panic) end))).
  { intros L2 s p Hs2 HD. pose proof (ops_only l h s VNil p Hs2) as Ho. unfold apply_patch.
    pose proof (tame_same l h L L2 HR HD) as (_ & A & B).
    destruct (apply_ops h s VNil p) as [h1 [t| |]]; exact (conj Ho (conj A B)). }
  assert (HC : forall L1 m, same_docs L L1 -> same_docs L (match l_patches L1 !! (v + 1)%N with
    | Some _ => with_patches L1 (<[(v + 1)%N := m]> (l_patches L1)) | None => L1 end)).
  { intros L1 m [A B]. by destruct (l_patches L1 !! _). }
  destruct (vl <=? v)%N.
  - destruct (l_pool L); [|done].
    pose proof (append_docs h L) as [HA _]. destruct (append (h, L)) as [[ha La] ra]. apply HG; [done|]. by apply HC.
  - apply HG; [done|]. by apply HC.
Qed.

Lemma slice_tame l vi vj h L : shared_root l L ->
  tame l h L (fst (slice vi vj (h, L))) ∧ (forall R, snd (slice vi vj (h, L)) = Ok R -> shared_root l R ∧ l_current R = VNil).
Proof.
  intros HR. unfold slice. pose proof (continuous_docs L) as HD. destruct (is_continuous L) as [L1 b]. cbn [fst] in HD.
  pose proof (same_root _ _ _ HD HR) as HR1. pose proof (tame_same l h L L1 HR HD) as HT.
  destruct b; [|by split]. cbn [negb]. destruct (_ <? _)%N; [by split|]. destruct (last_version L1); [|by split].
  destruct (_ || _); [by split|]. destruct (decide _).
  - destruct (snapshot_tame l vi h L1 HR1) as [HS HO]. destruct (snapshot vi (h, L1)) as [[h2 L2] r]. cbn [fst snd] in *.
    assert (HT2 : tame l h L (h2, L2)) by (by eapply tame_trans).
    destruct r as [s| |]; [|by split|by split]. split; [done|]. intros R [= <-]. split; [|done]. split; [|by right].
    cbn. intros v s' Hv. apply lookup_singleton_Some in Hv as [_ <-]. by apply HO.
  - split; [done|]. intros R [= <-]. split; [|done]. split; [|by right]. cbn. intros v s Hv.
    unfold keys_in in Hv. apply map_filter_lookup_Some in Hv as [Hv _]. by eapply HR1.
Qed.
Lemma tslice_kept l h L tsi tsj vs m : shared_root l L -> tslice_snapshots h L tsi tsj vs = Ok m ->
  forall v s, m !! v = Some s -> one l s.
Proof.
  intros HR. revert m. induction vs as [|w vs IH]; intros m E v s Hv; cbn in E; [injection E as <-; done|].
  destruct (latest_ts_of h _); [|done|done]. cbn in E. destruct (tslice_snapshots h L tsi tsj vs) as [m1| |]; [|done|done].
  cbn in E. injection E as <-. destruct (in_time _ _ _); [|by eapply IH].
  apply lookup_insert_Some in Hv as [[_ <-]|[_ Hv]]; [by apply default_one|by eapply IH].
Qed.
Lemma temporal_slice_tame l orc tsi tsj h L : shared_root l L ->
  tame l h L (fst (temporal_slice orc tsi tsj (h, L))) ∧
  (forall R, snd (temporal_slice orc tsi tsj (h, L)) = Ok R -> shared_root l R ∧ l_current R = VNil).
Proof.
  intros HR. unfold temporal_slice. pose proof (continuous_docs L) as HD. destruct (is_continuous L) as [L1 b]. cbn [fst] in HD.
  pose proof (same_root _ _ _ HD HR) as HR1. pose proof (tame_same l h L L1 HR HD) as HT.
  destruct b; [|by split]. cbn [negb]. destruct (_ <? _); [by split|].
  destruct (tslice_snapshots _ _ _ _ _) as [m| |] eqn:Em; [|by split|by split].
  pose proof (tslice_kept l _ _ _ _ _ _ HR1 Em) as Hm.
  destruct (tslice_patches _ _ _ _) as [vers patches]. destruct (decide _).
  - destruct vers as [|v0 vers]; [by split|].
    destruct (temporal_tame l orc tsi h L1 HR1) as [HS HO]. destruct (temporal_snapshot orc tsi (h, L1)) as [[h2 L2] r]. cbn [fst snd] in *.
    assert (HT2 : tame l h L (h2, L2)) by (by eapply tame_trans).
    destruct r as [s| |]; [|by split|by split]. split; [done|]. intros R [= <-]. split; [|done]. split; [|by right].
    cbn. intros v s' Hv. apply lookup_singleton_Some in Hv as [_ <-]. by apply HO.
  - split; [done|]. intros R [= <-]. split; [|done]. split; [|by right]. exact Hm.
Qed.

Lemma compact_docs sel latest L vs : same_docs L (fst (compact_versions sel latest L vs)).
Proof.
  revert latest L. induction vs as [|v vs IH]; intros latest L; [done|]. cbn [compact_versions].
  destruct (change_filter _ _ _ _) as [[la ps]| |]; [|done|done].
  destruct (IH la (with_patches L (<[v:=ps]> (l_patches L)))) as [A B]. split; [by rewrite A|by rewrite B].
Qed.
Lemma same_trans L L1 L2 : same_docs L L1 -> same_docs L1 L2 -> same_docs L L2.
Proof. intros [A B] [C D]. split; congruence. Qed.
Lemma store_docs p h L : exists L', fst (store p (h, L)) = (h, L') ∧ same_docs L L'.
Proof. unfold store. destruct (store_arg p); by eexists. Qed.
Lemma track_docs vi vj h L : exists L', fst (track vi vj (h, L)) = (h, L') ∧ same_docs L L'.
Proof.
  unfold track. pose proof (continuous_docs L) as HD. destruct (is_continuous L) as [L1 b]. cbn [fst] in HD.
  destruct b; [|by eexists]. cbn [negb]. destruct (last_version L1); [|by eexists]. destruct (_ || _); [by eexists|].
  destruct (_ <? _)%N; [by eexists|].
  match goal with |- context [compact_versions ?a ?b ?c ?d] => pose proof (compact_docs a b c d) as HC; destruct (compact_versions a b c d) as [L2 r] end.
  cbn [fst] in *. exists L2. split; [done|by eapply same_trans].
Qed.
Lemma compact_call_docs t h L : exists L', fst (compact t (h, L)) = (h, L') ∧ same_docs L L'.
Proof.
  unfold compact. pose proof (continuous_docs L) as HD. destruct (is_continuous L) as [L1 b]. cbn [fst] in HD.
  destruct b; [|by eexists]. cbn [negb].
  match goal with |- context [compact_versions ?a ?b ?c ?d] => pose proof (compact_docs a b c d) as HC; destruct (compact_versions a b c d) as [L2 r] end.
  cbn [fst] in *. exists L2. split; [done|by eapply same_trans].
Qed.
Lemma history_docs orc t h L : exists L', fst (history orc t (h, L)) = (h, L') ∧ same_docs L L'.
Proof.
  unfold history. pose proof (continuous_docs L) as HD. destruct (is_continuous L) as [L1 b]. cbn [fst] in HD.
  destruct b; [|by eexists]. cbn [negb]. destruct (compact_call_docs t h L1) as (L2 & E2 & H2).
  destruct (compact t (h, L1)) as [[h2 L2'] r]. cbn in E2. injection E2 as -> ->.
  pose proof (same_trans _ _ _ HD H2) as HS.
  destruct r; [|by eexists|by eexists]. destruct (read _ _); by eexists.
Qed.
Lemma set_tame l op h L : shared_root l L -> tame l h L (fst (set op (h, L))).
Proof.
  intros HR. pose proof (set_root l op h L HR) as H1. split; [|split; [done|]].
  - unfold set. destruct (is_set _); [|apply only_refl]. cbn [negb].
    pose proof (operation_only l h _ op (proj2 HR)) as H. by destruct (apply_operation _ _ _) as [h1 [v| |]].
  - intros E. unfold set. destruct (is_set _); [|done]. cbn [negb]. by rewrite E, nil_operation.
Qed.

Lemma call_tame l c h L : shared_root l L -> tame l h L (run_call (h, L) c).
Proof.
  intros HR. pose proof (tame_same l h L L HR (conj eq_refl eq_refl)) as HT.
  destruct c; cbn [run_call].
  - destruct (store_docs p h L) as (L' & -> & H). by apply tame_same.
  - destruct (append_docs h L) as [A B]. destruct (append (h, L)) as [[h' L'] r]. cbn [fst snd] in *. subst h'. by apply tame_same.
  - by apply snapshot_tame.
  - by apply temporal_tame.
  - by apply slice_tame.
  - by apply temporal_slice_tame.
  - destruct (track_docs vi vj h L) as (L' & -> & H). by apply tame_same.
  - unfold temporal_track. by destruct (tsj <? tsi).
  - by apply set_tame.
  - destruct (test_set_cases op (h, L)) as [->|(op' & ->)]; [done|]. by apply set_tame.
  - destruct (compact_call_docs target h L) as (L' & -> & H). by apply tame_same.
  - destruct (history_docs orc target h L) as (L' & -> & H). by apply tame_same.
Qed.
Lemma made_tame l c h L : shared_root l L -> Forall (fun R => shared_root l R ∧ l_current R = VNil) (made c (h, L)).
Proof.
  intros HR. unfold made. destruct c; try constructor.
  - pose proof (proj2 (slice_tame l vi vj h L HR)) as H. destruct (snd (slice vi vj (h, L))); [|constructor|constructor].
    constructor; [by apply H|constructor].
  - pose proof (proj2 (temporal_slice_tame l orc tsi tsj h L HR)) as H. destruct (snd (temporal_slice orc tsi tsj (h, L))); [|constructor|constructor].
    constructor; [by apply H|constructor].
Qed.

(** ** Groups *)
Definition finv (S : families) : Prop :=
  unshared (fst S) (doc_values (snd S)) ∧
  forall n F, snd S !! n = Some F -> exists l, f_doc F = VObj l ∧ Forall (shared_root l) (f_logs F) ∧
    Forall (fun R => l_current R = VNil) (tail (f_logs F)).

Lemma zip_split {A B} (l1 : list A) x l2 (ts : list B) : length ts = length (l1 ++ x :: l2) ->
  exists t1 t t2, ts = t1 ++ t :: t2 ∧ length t1 = length l1 ∧ length t2 = length l2.
Proof.
  revert ts. induction l1 as [|a l1 IH]; intros [|t ts] E; try done.
  - exists [], t, ts. by injection E.
  - injection E as E. destruct (IH ts E) as (t1 & t0 & t2 & -> & E1 & E2). exists (t :: t1), t0, t2. cbn. by rewrite E1.
Qed.
(** A change of one document leaves the contents of the others. *)
Lemma unshared_step l h h' vs1 vs2 : only_doc l h h' -> unshared h (vs1 ++ VObj l :: vs2) ->
  exists ts1 t ts2 t', length ts1 = length vs1 ∧ length ts2 = length vs2 ∧
  docs_of h (zip vs1 ts1 ++ (VObj l, t) :: zip vs2 ts2) ∧ docs_of h' (zip vs1 ts1 ++ (VObj l, t') :: zip vs2 ts2).
Proof.
  intros HO (ts & Hlen & HD). destruct (zip_split _ _ _ _ Hlen) as (ts1 & t & ts2 & -> & E1 & E2).
  rewrite zip_with_app in HD by done. cbn in HD.
  pose proof (docs_perm _ _ _ (Permutation_sym (Permutation_middle _ _ _)) HD) as HD'.
  apply HO in HD' as [t' HD']. exists ts1, t, ts2, t'. repeat (split; [done|]).
  by apply (docs_perm _ _ _ (Permutation_middle _ _ _)).
Qed.
Lemma zip_unshared h vs1 l vs2 ts1 (t : tson) ts2 : length ts1 = length vs1 -> length ts2 = length vs2 ->
  docs_of h (zip vs1 ts1 ++ (VObj l, t) :: zip vs2 ts2) -> unshared h (vs1 ++ VObj l :: vs2).
Proof.
  intros E1 E2 HD. exists (ts1 ++ t :: ts2). split; [by rewrite !app_length; cbn; rewrite E1, E2|].
  rewrite zip_with_app by done. done.
Qed.
Lemma docs_read h ds v t : docs_of h ds -> (v, t) ∈ ds -> read h v = Some t.
Proof.
  intros (lts & HF & HN & <-) Hin. apply elem_of_list_fmap in Hin as (lt & [= -> ->] & Hin).
  apply read_holds. split; [by eapply Forall_forall in HF|]. clear HF.
  induction lts as [|x lts IH]; [by apply elem_of_nil in Hin|]. cbn in HN. apply NoDup_app in HN as (A & _ & B).
  apply elem_of_cons in Hin as [->|Hin]; [done|by apply IH].
Qed.

Lemma finv_call n k c S : finv S -> finv (fcall S n k c).
Proof.
  intros [HU HF]. unfold fcall. destruct S as [h fs]. cbn [fst snd] in *.
  destruct (fs !! n) as [F|] eqn:En; [|done]. destruct (f_logs F !! k) as [L|] eqn:Ek; [|done].
  destruct (HF n F En) as (l & Hd & HA & HN).
  assert (HL : shared_root l L) by (by eapply Forall_lookup_1).
  destruct (call_tame l c h L HL) as (T1 & T2 & T3). pose proof (made_tame l c h L HL) as HM.
  split; cbn [fst snd].
  - assert (E : doc_values (<[n := Family (f_doc F) (<[k:=(run_call (h, L) c).2]> (f_logs F) ++ made c (h, L))]> fs) = doc_values fs).
    { unfold doc_values. change (@map) with (fun A B => @fmap list _ A B). cbn. rewrite list_fmap_insert. cbn. apply list_insert_id. by rewrite list_lookup_fmap, En. }
    rewrite E. clear E. destruct (elem_of_list_split_length _ _ _ En) as (fs1 & fs2 & Efs & _). rewrite Efs in HU |- *.
    unfold doc_values in *. rewrite map_app in *. cbn in *. rewrite Hd in *.
    destruct (unshared_step _ _ _ _ _ T1 HU) as (ts1 & t & ts2 & t' & E1 & E2 & _ & HD). by eapply zip_unshared.
  - intros n' F' Hn'. destruct (decide (n' = n)) as [->|Hne].
    + rewrite list_lookup_insert in Hn' by (by eapply lookup_lt_Some). injection Hn' as <-. cbn.
      exists l. split; [done|]. split.
      * apply Forall_app. split; [by apply Forall_insert|]. eapply Forall_impl; [exact HM|]. by intros R [? _].
      * destruct (f_logs F) as [|L0 Ls]; [done|]. destruct k as [|k]; cbn in *.
        -- apply Forall_app. split; [done|]. eapply Forall_impl; [exact HM|]. by intros R [_ ?].
        -- apply Forall_app. split; [|eapply Forall_impl; [exact HM|]; by intros R [_ ?]].
           apply Forall_insert; [done|]. apply T3. by eapply (Forall_lookup_1 _ _ _ _ HN).
    + rewrite list_lookup_insert_ne in Hn' by done. exact (HF n' F' Hn').
Qed.
Lemma docs_end h vs v t ts : length ts = length vs -> docs_of h ((v, t) :: zip vs ts) -> unshared h (vs ++ [v]).
Proof.
  intros E HD. exists (ts ++ [t]). split; [by rewrite !app_length, E|]. rewrite zip_with_app by done. cbn.
  eapply docs_perm; [|exact HD]. by rewrite Permutation_app_comm.
Qed.
Lemma docs_alloc h ds t h' v : docs_of h ds -> alloc_tree h t = (h', v) -> docs_of h' ((v, t) :: ds).
Proof.
  intros (lts & HF & HN & <-) E. destruct (alloc_tree_own _ _ _ _ E) as (lt & c & -> & [HO HL] & <- & <- & Hnew).
  exists (lt :: lts). split; [|split; [|done]].
  - constructor; [done|]. eapply Forall_impl; [exact HF|]. intros x Hx. by apply own_app.
  - cbn. apply NoDup_app. split; [done|]. split; [|done]. intros x Hx Hc. apply Hnew in Hx.
    apply elem_of_list_In, in_concat in Hc as (xs & Hin & Hc). apply in_map_iff in Hin as (y & <- & Hy).
    apply elem_of_list_In in Hy, Hc. eapply Forall_forall in HF; [|exact Hy].
    pose proof (own_lt _ _ x HF Hc). lia.
Qed.
Lemma new_docs T i p h h' L : new_logument T i p h = (h', Ok L) ->
  (forall v, l_snapshots L !! 0%N = Some v -> l_current L = v) ∧ l_snapshots L = {[ 0%N := l_current L ]} ∧
  match i with
  | SI_text s => exists t, unmarshal T s = Ok t ∧ alloc_tree h t = (h', l_current L)
  | SI_doc v => h' = h ∧ l_current L = v
  | SI_other => False
  end.
Proof.
  intros E. destruct (new_root _ _ _ _ _ _ E) as (v & E1 & E2 & _ & _).
  split; [intros w; rewrite E1, E2; by intros [_ <-]%lookup_singleton_Some|]. split; [by rewrite E1, E2|].
  assert (HM : forall h1 w, (match p with
      | None => (h1, Ok (Lgm [0%N] w {[ 0%N := w ]} ∅ None))
      | Some p => match store p (h1, Lgm [0%N] w {[ 0%N := w ]} ∅ None) with
                | ((h', L'), Ok _) => (h', Ok L')
                | ((h', _), _) => (h', Panic)
                end end) = (h', Ok L) -> h' = h1 ∧ l_current L = w).
  { intros h1 w Ew. destruct p as [p|]; [|by injection Ew as <- <-].
    destruct (store_docs p h1 (Lgm [0%N] w {[0%N := w]} ∅ None)) as (L2 & EL & _ & HC).
    destruct (store p _) as [[h2 L2'] [u| |]]; [|done|done]. cbn in EL. injection EL as -> ->. injection Ew as <- <-. done. }
  unfold new_logument in E. destruct i as [s|d|]; [| |done].
  - destruct (unmarshal T s) as [t| |]; [|done|done]. exists t. split; [done|].
    destruct (alloc_tree h t) as [h1 w]. apply HM in E as [-> ->]. done.
  - destruct d; try done; apply HM in E as [-> ->]; done.
Qed.
Lemma new_heap T i p h h' r : new_logument T i p h = (h', r) -> exists c, h' = h ++ c.
Proof.
  assert (HM : forall h1 w, fst (match p with
      | None => (h1, Ok (Lgm [0%N] w {[ 0%N := w ]} ∅ None))
      | Some p => match store p (h1, Lgm [0%N] w {[ 0%N := w ]} ∅ None) with
                | ((h', L'), Ok _) => (h', Ok L')
                | ((h', _), _) => (h', Panic)
                end end) = h1).
  { intros h1 w. destruct p as [p|]; [|done].
    destruct (store_docs p h1 (Lgm [0%N] w {[0%N := w]} ∅ None)) as (L2 & EL & _).
    destruct (store p _) as [[h2 L2'] [u| |]]; cbn in EL; by injection EL as -> ->. }
  assert (HN : exists c, h = h ++ c) by (exists []; by rewrite app_nil_r).
  intros E. apply (f_equal fst) in E. cbn in E. unfold new_logument in E. destruct i as [s|d|]; [| |by subst h'].
  - destruct (unmarshal T s) as [t| |]; [|by subst h'|by subst h'].
    destruct (alloc_tree h t) as [h1 w] eqn:Ea. rewrite HM in E. subst h1.
    destruct (alloc_tree_own _ _ _ _ Ea) as (_ & c & -> & _). by exists c.
  - destruct d; try rewrite HM in E; by subst h'.
Qed.
Lemma unshared_app h c vs : unshared h vs -> unshared (h ++ c) vs.
Proof.
  intros (ts & Hl & lts & HF & HN & E). exists ts. split; [done|]. exists lts. split; [|done].
  eapply Forall_impl; [exact HF|]. intros x Hx. by apply own_app.
Qed.
Lemma finv_new T i p S : finv S -> object_input T S i -> finv (fnew T i p S).
Proof.
  intros [HU HF] Hi. destruct S as [h fs]. unfold fnew. cbn [fst snd] in *.
  destruct (new_logument T i p h) as [h' r] eqn:E.
  assert (HX : forall L, r = Ok L -> (exists l, l_current L = VObj l) ∧ unshared h' (doc_values fs ++ [l_current L])).
  { intros L ->. destruct (new_docs _ _ _ _ _ _ E) as (_ & _ & Hd). destruct i as [s|v|]; [| |done].
    - destruct Hd as (t & Et & Ea). cbn in Hi. destruct (Hi t Et) as [m ->]. rewrite alloc_tree_obj in Ea.
      destruct HU as (ts & Hlen & HD). pose proof (docs_alloc _ _ (TObj m) h' (l_current L) HD) as HD'. rewrite alloc_tree_obj in HD'.
      specialize (HD' Ea). destruct (alloc_members h m) as [h1 kvs]. injection Ea as _ EL.
      split; [by eexists|]. exact (docs_end _ _ _ _ ts Hlen HD').
    - destruct Hd as [-> ->]. destruct Hi as [[l ->] (ts & Hlen & HD)]. split; [by eexists|].
      destruct ts as [|t ts]; [done|]. injection Hlen as Hlen. by eapply docs_end. }
  destruct r as [L| |].
  - destruct (HX L eq_refl) as [[l Hl] HU']. split; cbn [fst snd].
    + unfold doc_values. by rewrite map_app.
    + intros n F Hn. apply lookup_app_Some in Hn as [Hn|[_ Hn]]; [exact (HF n F Hn)|].
      destruct (n - length fs)%nat; [|done]. injection Hn as <-. cbn. exists l. split; [done|]. split; [|by constructor].
      constructor; [|constructor]. destruct (new_docs _ _ _ _ _ _ E) as (_ & Es & _). split; [|by left].
      rewrite Es, Hl. intros v s [_ <-]%lookup_singleton_Some. by left.
  - destruct (new_heap _ _ _ _ _ _ E) as [c ->]. split; [by apply unshared_app|done].
  - destruct (new_heap _ _ _ _ _ _ E) as [c ->]. split; [by apply unshared_app|done].
Qed.
Lemma grown_inv S : grown S -> finv S.
Proof.
  induction 1 as [h|T i p S _ IH Hi|n k c S _ IH|h h' fs _ IH HU].
  - split; [|by intros n F H]. exists []. split; [done|]. exists [].
    split; [constructor|]. split; [constructor|done].
  - by apply finv_new.
  - by apply finv_call.
  - split; [exact HU|apply IH].
Qed.

(** ** What follows *)
Lemma group_keeps S n F L s : grown S -> snd S !! n = Some F -> L ∈ f_logs F -> keeps L s -> s = f_doc F ∨ s = VNil.
Proof.
  intros HG Hn HL Hk. apply grown_inv in HG as [_ HF]. destruct (HF n F Hn) as (l & -> & HA & _).
  eapply Forall_forall in HA; [|exact HL]. destruct HA as [A B]. destruct Hk as [[v Hv]| <-]; [by eapply A|exact B].
Qed.
Lemma group_doc S n F : grown S -> snd S !! n = Some F -> exists m, read (fst S) (f_doc F) = Some (TObj m).
Proof.
  intros HG Hn. apply grown_inv in HG as [HU HF]. destruct (HF n F Hn) as (l & Hd & _).
  destruct S as [h fs]. cbn [fst snd] in *. destruct (elem_of_list_split_length _ _ _ Hn) as (fs1 & fs2 & -> & _).
  unfold doc_values in HU. rewrite map_app in HU. cbn in HU. rewrite Hd in *.
  destruct (unshared_step l h h _ _ (only_refl _ _) HU) as (ts1 & t & ts2 & _ & _ & _ & HD & _).
  destruct (obj_content h l t (zip (map f_doc fs1) ts1 ++ zip (map f_doc fs2) ts2)) as [m ->].
  { eapply docs_perm; [|exact HD]. by rewrite Permutation_middle. }
  exists m. eapply docs_read; [exact HD|]. apply elem_of_app. right. apply elem_of_list_here.
Qed.
Lemma group_answers S n F k L : grown S -> snd S !! n = Some F -> f_logs F !! k = Some L ->
  (forall v s, snd (snapshot v (fst S, L)) = Ok s -> s = f_doc F ∨ s = VNil) ∧
  (forall orc ts s, snd (temporal_snapshot orc ts (fst S, L)) = Ok s -> s = f_doc F ∨ s = VNil).
Proof.
  intros HG Hn Hk. apply grown_inv in HG as [_ HF]. destruct (HF n F Hn) as (l & -> & HA & _).
  eapply Forall_lookup_1 in HA; [|exact Hk]. split.
  - intros v s. by apply (snapshot_tame l v (fst S) L HA).
  - intros orc ts s. by apply (temporal_tame l orc ts (fst S) L HA).
Qed.
Lemma group_nil S n F k L : grown S -> snd S !! n = Some F -> f_logs F !! k = Some L -> (0 < k)%nat ->
  l_current L = VNil ∧ forall op, run_call (fst S, L) (CSet op) = (fst S, L) ∧ run_call (fst S, L) (CTestSet op) = (fst S, L) ∧
  (is_set (op_kind op) = true -> snd (set op (fst S, L)) = Panic).
Proof.
  intros HG Hn Hk Hpos. apply grown_inv in HG as [_ HF]. destruct (HF n F Hn) as (l & _ & _ & HN).
  assert (E : l_current L = VNil).
  { destruct k as [|k]; [lia|]. destruct (f_logs F) as [|L0 Ls]; [done|]. by eapply (Forall_lookup_1 _ _ _ _ HN). }
  split; [done|].
  assert (HS : forall op, fst (set op (fst S, L)) = (fst S, L)).
  { intros op. unfold set. destruct (is_set _); [|done]. cbn [negb]. rewrite E, nil_operation. cbn. rewrite <- E. by destruct L. }
  intros op. split; [apply HS|]. split.
  - cbn [run_call]. destruct (test_set_cases op (fst S, L)) as [->|(op' & ->)]; [done|apply HS].
  - intros Hop. unfold set. rewrite Hop. cbn [negb]. by rewrite E, nil_operation.
Qed.

Lemma other_step S n F m k c : grown S -> snd S !! n = Some F -> n <> m ->
  snd (fcall S m k c) !! n = Some F ∧ read (fst (fcall S m k c)) (f_doc F) = read (fst S) (f_doc F).
Proof.
  intros HG Hn Hne. apply grown_inv in HG as [HU HF]. unfold fcall. destruct S as [h fs]. cbn [fst snd] in *.
  destruct (fs !! m) as [M|] eqn:Em; [|done]. destruct (f_logs M !! k) as [L|] eqn:Ek; [|done]. cbn [fst snd].
  split; [by rewrite list_lookup_insert_ne|].
  destruct (HF m M Em) as (l & Hd & HA & _). eapply Forall_lookup_1 in HA; [|exact Ek].
  destruct (call_tame l c h L HA) as (T1 & _ & _).
  assert (Hsplit : exists fs1 fs2, fs = fs1 ++ M :: fs2 ∧ (F ∈ fs1 ∨ F ∈ fs2)).
  { exists (take m fs), (drop (Datatypes.S m) fs). split; [symmetry; by apply take_drop_middle|].
    destruct (decide (n < m)%nat) as [Hlt|Hge].
    - left. apply elem_of_list_lookup. exists n. by rewrite lookup_take.
    - right. apply elem_of_list_lookup. exists (n - Datatypes.S m)%nat. rewrite lookup_drop.
      by replace (Datatypes.S m + (n - Datatypes.S m))%nat with n by lia. }
  destruct Hsplit as (fs1 & fs2 & Efs & Hin). unfold doc_values in HU. rewrite Efs, map_app in HU. cbn in HU. rewrite Hd in HU.
  destruct (unshared_step _ _ _ _ _ T1 HU) as (ts1 & t & ts2 & t' & E1 & E2 & HD & HD').
  assert (HZ : exists u, (f_doc F, u) ∈ zip (map f_doc fs1) ts1 ∨ (f_doc F, u) ∈ zip (map f_doc fs2) ts2).
  { assert (G : forall (gs : list family) (ts : list tson), length ts = length (map f_doc gs) -> F ∈ gs -> exists u, (f_doc F, u) ∈ zip (map f_doc gs) ts).
    { intros gs ts El Hg. apply elem_of_list_lookup in Hg as [i Hi].
      destruct (lookup_lt_is_Some_2 ts i) as [u Hu]; [rewrite El, map_length; by eapply lookup_lt_Some|].
      exists u. apply elem_of_list_lookup. exists i. apply lookup_zip_with_Some. exists (f_doc F), u.
      split; [done|]. split; [|done]. rewrite list_lookup_fmap, Hi. done. }
    destruct Hin as [Hin|Hin]; [destruct (G _ _ E1 Hin) as [u Hu]|destruct (G _ _ E2 Hin) as [u Hu]]; exists u; [by left|by right]. }
  destruct HZ as [u Hu].
  rewrite (docs_read _ _ (f_doc F) u HD), (docs_read _ _ (f_doc F) u HD'); [done| |].
  - apply elem_of_app. destruct Hu; [by left|right; by apply elem_of_list_further].
  - apply elem_of_app. destruct Hu; [by left|right; by apply elem_of_list_further].
Qed.
Lemma fcalls_grown S cs : grown S -> grown (fcalls S cs).
Proof. revert S. induction cs as [|[[n k] c] cs IH]; intros S HG; [done|]. cbn. apply IH. by apply grown_call. Qed.
Lemma others_apart S n F cs : grown S -> snd S !! n = Some F -> Forall (fun c => ~ calls_group n c) cs ->
  snd (fcalls S cs) !! n = Some F ∧ read (fst (fcalls S cs)) (f_doc F) = read (fst S) (f_doc F).
Proof.
  revert S. induction cs as [|[[m k] c] cs IH]; intros S HG Hn HA; [done|]. cbn.
  inversion HA as [|? ? H1 H2]; subst. destruct (other_step S n F m k c HG Hn) as [A B]; [by intros ->|].
  destruct (IH (fcall S m k c) (grown_call _ _ _ _ HG) A H2) as [C D]. split; [done|]. by rewrite D.
Qed.

(** A value set through the first log is in every document the group keeps. *)
Lemma group_set S n F L op st : grown S -> snd S !! n = Some F -> f_logs F !! 0%nat = Some L -> is_set (op_kind op) = true ->
  set op (fst S, L) = (st, Ok tt) ->
  exists t t', read (fst S) (f_doc F) = Some t ∧ applied t [op] t' ∧
  fst (fcall S n 0 (CSet op)) = fst st ∧
  (forall F' L' s, snd (fcall S n 0 (CSet op)) !! n = Some F' -> L' ∈ f_logs F' -> keeps L' s -> s <> VNil ->
   read (fst st) s = Some t').
Proof.
  intros HG Hn Hk Hop Es. pose proof (grown_call n 0 (CSet op) S HG) as HG'.
  pose proof (grown_inv _ HG) as [HU HF]. destruct (HF n F Hn) as (l & Hd & HA & _).
  pose proof (Forall_lookup_1 _ _ _ _ HA Hk) as [_ HC].
  unfold set in Es. rewrite Hop in Es. cbn [negb] in Es.
  destruct HC as [HC|HC]; [|rewrite HC, nil_operation in Es; done].
  rewrite HC in Es. destruct S as [h fs]. cbn [fst snd] in *.
  destruct (apply_operation h (VObj l) op) as [h1 [v| |]] eqn:Ea; [|done|done]. injection Es as <-.
  assert (Hdoc : exists t, doc_of h (VObj l) t).
  { destruct HU as (ts & Hlen & lts & HFo & HN & Ez).
    assert (Hin : VObj l ∈ doc_values fs).
    { unfold doc_values. apply elem_of_list_fmap. exists F. split; [done|]. by eapply elem_of_list_lookup_2. }
    apply elem_of_list_lookup in Hin as [i Hi].
    destruct (lookup_lt_is_Some_2 ts i) as [u Hu]; [rewrite Hlen; by eapply lookup_lt_Some|].
    exists u. assert (Hz : (VObj l, u) ∈ zip (doc_values fs) ts).
    { apply elem_of_list_lookup. exists i. apply lookup_zip_with_Some. by exists (VObj l), u. }
    rewrite <- Ez in Hz. apply elem_of_list_fmap in Hz as (lt & [= Hr He] & Hlt). exists lt. split; [|done].
    split; [by eapply Forall_forall in HFo|]. clear -HN Hlt. induction lts as [|x lts IH]; [by apply elem_of_nil in Hlt|].
    cbn in HN. apply NoDup_app in HN as (A & _ & B). apply elem_of_cons in Hlt as [->|Hlt]; [done|by apply IH]. }
  destruct Hdoc as [t Ht].
  assert (Ht' : exists t', doc_of h1 (VObj l) t').
  { destruct Ht as (lt & [HO HL] & Hr & He).
    assert (HD : docs_of h [(VObj l, t)]).
    { exists [lt]. split; [by repeat constructor|]. split; [cbn; by rewrite app_nil_r|]. cbn. by rewrite Hr, He. }
    pose proof (operation_only l h (VObj l) op (or_introl eq_refl)) as Ho. rewrite Ea in Ho. apply Ho in HD as [t' (lts & HF1 & HN1 & E1)].
    destruct lts as [|lt' [|? ?]]; [done| |done]. injection E1 as E1 E2. exists t', lt'. split; [|done].
    inversion HF1; subst. split; [done|]. cbn in HN1. by rewrite app_nil_r in HN1. }
  destruct Ht' as [t' Ht']. exists t, t'. split; [rewrite Hd; by apply read_doc|].
  assert (Ef : fst (fcall (h, fs) n 0 (CSet op)) = h1).
  { unfold fcall. cbn [fst snd]. rewrite Hn, Hk. cbn [fst run_call]. unfold set. rewrite Hop. cbn [negb]. by rewrite HC, Ea. }
  split.
  { exists h, l, h1, v. split; [done|]. split; [|done]. unfold apply_patch. cbn [apply_ops]. by rewrite Ea. }
  split; [exact Ef|]. intros F' L' s Hn' HL' Hs Hnn. cbn [fst].
  destruct (group_keeps _ _ _ _ _ HG' Hn' HL' Hs) as [->|]; [|done].
  assert (Ed : f_doc F' = VObj l).
  { revert Hn'. unfold fcall. cbn [fst snd]. rewrite Hn, Hk. cbn [snd].
    rewrite list_lookup_insert by (by eapply lookup_lt_Some). by intros [= <-]. }
  rewrite Ed. by apply read_doc.
Qed.
