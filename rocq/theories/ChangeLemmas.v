(** Pending operations, committed patches, and the change filter. *)
From Verif Require Import Base BaseSpec BaseSpecLemmas F64 Tson Serial Heap Patch Logument LogSpec BaseLemmas F64Lemmas LogLemmas.
From Coq Require Import Lia.

(** ** Pending operations *)
Lemma append_slice_default {A} (a b : option (list A)) :
  default [] (append_slice a b) = default [] a ++ default [] b.
Proof. destruct a as [a|], b as [[|x b]|]; cbn; rewrite ?app_nil_r; done. Qed.
Lemma fold_append_slice {A} (ps : list (option (list A))) a :
  default [] (fold_left append_slice ps a) = default [] a ++ concat (map (default []) ps).
Proof.
  revert a. induction ps as [|p ps IH]; intros a; cbn [fold_left map concat].
  - by rewrite app_nil_r.
  - rewrite IH, append_slice_default. by rewrite <- app_assoc.
Qed.
Lemma store_arg_ops p r : store_arg p = Ok r -> default [] r = ops_of p.
Proof.
  destruct p as [[[r'|]|]|[r'|]|ps|o|]; cbn [store_arg ops_of]; intros H; try discriminate H;
    injection H as <-; try done.
  rewrite fold_append_slice. done.
Qed.
Lemma store_pending p h L : pending (snd (fst (store p (h, L)))) = pending L ++ ops_of p.
Proof.
  unfold store, pending. destruct (store_arg p) as [r| |] eqn:E; cbn [fst snd with_pool l_pool].
  - rewrite <- (store_arg_ops _ _ E). destruct (l_pool L); [|done]. apply append_slice_default.
  - by destruct p as [[?|]|?|?|?|].
  - destruct p as [[?|]|?|?|?|]; cbn; rewrite ?app_nil_r; done.
Qed.

Lemma quiet_call c h L : consistent L -> quiet c ->
  let L' := snd (run_call (h, L) c) in
  l_version L' = l_version L ∧
  pending L' = pending L ++ (match c with CStore p => ops_of p | _ => [] end) ∧
  (match c with CStore _ => True | _ => l_pool L' = l_pool L end).
Proof.
  intros HC Hq. destruct c; try done; cbn [run_call].
  - pose proof (store_shape p h L) as H. pose proof (store_pending p h L) as HP.
    destruct (store p (h, L)) as [[h' L'] r]. by destruct H as (_ & E1 & _).
  - pose proof (snapshot_log v h L HC) as H. destruct (snapshot v (h, L)) as [[h' L'] r].
    destruct H as (n & _ & [->|(t & _ & _ & _ & ->)]); cbn; by rewrite app_nil_r.
  - destruct (slice_log vi vj h L HC) as [->| ->]; [cbn; by rewrite app_nil_r|].
    pose proof (snapshot_log vi h L HC) as H. destruct (snapshot vi (h, L)) as [[h' L'] r].
    destruct H as (n & _ & [->|(t & _ & _ & _ & ->)]); cbn; by rewrite app_nil_r.
  - destruct (track_shape vi vj h L HC) as ((E1 & _) & E2 & _). rewrite app_nil_r. unfold pending. by rewrite E2.
  - unfold temporal_track. rewrite app_nil_r. by destruct (tsj <? tsi).
  - destruct (compact_shape target h L HC) as ((E1 & _) & E2 & _). rewrite app_nil_r. unfold pending. by rewrite E2.
  - rewrite history_log by done. destruct (compact_shape target h L HC) as ((E1 & _) & E2 & _).
    rewrite app_nil_r. unfold pending. by rewrite E2.
Qed.
Lemma run_app st cs cs' : run st (cs ++ cs') = run (run st cs) cs'.
Proof. unfold run. apply fold_left_app. Qed.
Lemma run_consistent cs h L : consistent L -> consistent (snd (run (h, L) cs)).
Proof.
  revert h L. induction cs as [|c cs IH]; intros h L HC; [done|].
  cbn [run fold_left]. pose proof (run_call_consistent c h L HC).
  destruct (run_call (h, L) c) as [h' L']. by apply IH.
Qed.
Lemma quiet_run cs h L : consistent L -> Forall quiet cs ->
  l_version (snd (run (h, L) cs)) = l_version L ∧
  pending (snd (run (h, L) cs)) = pending L ++ stored cs.
Proof.
  revert h L. induction cs as [|c cs IH]; intros h L HC Hq.
  - cbn. by rewrite app_nil_r.
  - inversion Hq as [|? ? Hc Hcs]; subst. cbn [run fold_left].
    destruct (quiet_call c h L HC Hc) as (E1 & E2 & _).
    pose proof (run_call_consistent c h L HC) as HC'.
    destruct (run_call (h, L) c) as [h' L']. cbn [snd] in *.
    destruct (IH h' L' HC' Hcs) as (F1 & F2). unfold run in F1, F2.
    split; [congruence|]. rewrite F2, E2. unfold stored. cbn [map concat]. by rewrite app_assoc.
Qed.

Lemma append_spec st : reachable st ->
  snd (append st) = Ok tt ∧
  match l_pool (snd st) with
  | None => fst (append st) = st
  | Some ps =>
      let L := snd st in let L' := snd (fst (append st)) in
      exists n, last (l_version L) = Some n ∧
        l_version L' = l_version L ++ [(n + 1)%N] ∧
        (forall v, l_patches L' !! v = if decide (v = n + 1)%N then Some ps else l_patches L !! v) ∧
        l_patches L !! (n + 1)%N = None ∧
        l_pool L' = None ∧ l_snapshots L' = l_snapshots L ∧ l_current L' = l_current L ∧
        fst (fst (append st)) = fst st
  end.
Proof.
  intros HR. apply reachable_consistent in HR. destruct st as [h L]. cbn [snd fst] in *.
  destruct (append_cases h L HR) as [H1 H2]. split; [done|].
  destruct (l_pool L) as [ps|]; [|done]. destruct H2 as (n & Hv & HN & ->). exists (N.of_nat n).
  cbn [snd fst l_version l_patches l_pool l_snapshots l_current].
  split; [rewrite Hv; apply nats_last|]. split; [rewrite Hv; by rewrite nats_snoc|].
  split; [|done]. intros v. case_decide as E; [subst; by rewrite lookup_insert|].
  by rewrite lookup_insert_ne.
Qed.
Lemma commit_stored h L cs :
  reachable (h, L) -> l_pool L = None -> Forall quiet cs -> stored cs <> [] ->
  let L' := snd (run (h, L) (cs ++ [CAppend])) in
  exists n, last (l_version L) = Some n ∧ l_version L' = l_version L ++ [(n + 1)%N] ∧
    l_patches L' !! (n + 1)%N = Some (stored cs) ∧ l_pool L' = None.
Proof.
  intros HR HP HQ HS. rewrite run_app. apply reachable_consistent in HR. cbn [snd] in HR.
  destruct (quiet_run cs h L HR HQ) as (E1 & E2).
  pose proof (run_consistent cs h L HR) as HC. destruct (run (h, L) cs) as [h1 L1]. cbn [snd] in *.
  unfold pending in E2 at 2. rewrite HP in E2. cbn in E2.
  destruct (append_cases h1 L1 HC) as [_ H2]. cbn [run fold_left run_call].
  destruct (l_pool L1) as [ps|] eqn:EP.
  - destruct H2 as (n & Hv & HN & ->). exists (N.of_nat n). cbn [snd l_version l_patches l_pool].
    rewrite <- E1, Hv. split; [apply nats_last|]. split; [by rewrite nats_snoc|]. split; [|done].
    rewrite lookup_insert. unfold pending in E2. rewrite EP in E2. cbn in E2. by rewrite E2.
  - unfold pending in E2. rewrite EP in E2. cbn in E2. by rewrite <- E2 in HS.
Qed.

Lemma commit_nothing h L cs :
  reachable (h, L) -> l_pool L = None -> Forall (fun c => quiet c ∧ ~ is_store c) cs ->
  run (h, L) (cs ++ [CAppend]) = run (h, L) cs.
Proof.
  intros HR HP HQ. rewrite run_app. apply reachable_consistent in HR. cbn [snd] in HR.
  assert (HN : consistent (snd (run (h, L) cs)) ∧ l_pool (snd (run (h, L) cs)) = None).
  { revert h L HR HP. induction cs as [|c cs IH]; intros h L HR HP; [done|].
    inversion HQ as [|? ? [Hc Hns] Hcs]; subst. cbn [run fold_left].
    destruct (quiet_call c h L HR Hc) as (E1 & E2 & E3).
    pose proof (run_call_consistent c h L HR) as HC'.
    destruct (run_call (h, L) c) as [h' L']. cbn [snd] in *.
    apply IH; [done|done|]. destruct c; try congruence. by destruct Hns. }
  destruct HN as [HC HN]. destruct (run (h, L) cs) as [h1 L1]. cbn [snd] in *.
  destruct (append_cases h1 L1 HC) as [_ H2]. rewrite HN in H2. done.
Qed.

(** ** Recorded patches *)
Lemma touch_lookup L v ps w :
  l_patches (touch_patch L v ps) !! w =
    if decide (w = v) then (fun _ => ps) <$> (l_patches L !! v) else l_patches L !! w.
Proof.
  unfold touch_patch. destruct (l_patches L !! v) eqn:E; case_decide as Hw; subst; cbn; try done.
  - by rewrite lookup_insert.
  - by rewrite lookup_insert_ne.
Qed.
Lemma append_keeps h L v ps : consistent L ->
  l_patches L !! v = Some ps -> l_patches (snd (fst (append (h, L)))) !! v = Some ps.
Proof.
  intros HC HS. destruct (append_cases h L HC) as [_ H2].
  destruct (l_pool L); [|by rewrite H2]. destruct H2 as (n & Hv & HN & ->). cbn.
  rewrite lookup_insert_ne; [done|]. intros E. rewrite E in HN. congruence.
Qed.
Lemma snapshot_keeps h L v : consistent L ->
  l_patches (snd (fst (snapshot v (h, L)))) = l_patches L.
Proof.
  intros HC. pose proof (snapshot_log v h L HC) as H. destruct (snapshot v (h, L)) as [[h' L'] r].
  destruct H as (n & _ & [->|(t & _ & _ & _ & ->)]); done.
Qed.
Lemma set_keeps op h L : l_patches (snd (fst (set op (h, L)))) = l_patches L.
Proof. apply set_log. Qed.
Lemma keeps_lemma c h L v ps : consistent L -> keeps_patches c ->
  l_patches L !! v = Some ps -> l_patches (snd (run_call (h, L) c)) !! v = Some ps.
Proof.
  intros HC Hk HS. destruct c; try done; cbn [run_call].
  - pose proof (store_shape p h L) as H. destruct (store p (h, L)) as [[h' L'] r].
    destruct H as (_ & _ & _ & E & _). cbn. by rewrite E.
  - by apply append_keeps.
  - by rewrite snapshot_keeps.
  - destruct (slice_log vi vj h L HC) as [->| ->]; [done|]. by rewrite snapshot_keeps.
  - unfold temporal_track. by destruct (tsj <? tsi).
  - by rewrite set_keeps.
  - destruct (test_set_cases op (h, L)) as [->|(op' & ->)]; [done|]. by rewrite set_keeps.
Qed.
Lemma tsnap_reorders orc ts h L v ps : consistent L -> oracle_ok orc ->
  l_patches L !! v = Some ps ->
  exists ps', l_patches (snd (fst (temporal_snapshot orc ts (h, L)))) !! v = Some ps' ∧ ps' ≡ₚ ps.
Proof.
  intros HC HO HS. pose proof (temporal_snapshot_log orc ts h L HC) as H.
  destruct (temporal_snapshot orc ts (h, L)) as [[h' L'] r]. cbn.
  destruct H as [->|(L1 & w & HL & ->)]; [by eauto|].
  assert (HS1 : l_patches L1 !! v = Some ps).
  { destruct HL as [->|[_ ->]]; [done|]. by apply append_keeps. }
  rewrite touch_lookup. case_decide as E; [|by eauto]. subst w. rewrite HS1. cbn.
  eexists. split; [done|]. unfold patch_at. rewrite HS1. cbn. apply HO.
Qed.
Lemma reorders_lemma c h L v ps : consistent L -> call_ok c -> reorders_patches c ->
  l_patches L !! v = Some ps ->
  exists ps', l_patches (snd (run_call (h, L) c)) !! v = Some ps' ∧ ps' ≡ₚ ps.
Proof.
  intros HC HO Hk HS.
  destruct c; try (by exists ps; split; [apply keeps_lemma|]); try done; cbn [run_call].
  - by apply tsnap_reorders.
  - destruct (temporal_slice_log orc tsi tsj h L HC) as [->| ->]; [by eauto|].
    by apply tsnap_reorders.
Qed.

Lemma change_filter_sublist sel keep latest ps latest' ps' :
  change_filter sel keep latest ps = Ok (latest', ps') -> ps' `sublist_of` ps.
Proof.
  revert latest latest' ps'. induction ps as [|p ps IH]; intros latest latest' ps' H; cbn in H.
  - inversion H; subst. constructor.
  - destruct (sel p).
    + destruct (keep_change latest p) as [[l2 b]| |]; [|done|done]. cbn in H.
      destruct (change_filter sel keep l2 ps) as [[l3 r]| |] eqn:E; [|done|done]. cbn in H.
      inversion H; subst. destruct b; constructor; eauto.
    + destruct (change_filter sel keep latest ps) as [[l3 r]| |] eqn:E; [|done|done]. cbn in H.
      inversion H; subst. destruct keep; constructor; eauto.
Qed.
Lemma compact_versions_sublist sel latest L vs v ps :
  l_patches L !! v = Some ps ->
  exists ps', l_patches (fst (compact_versions sel latest L vs)) !! v = Some ps' ∧ ps' `sublist_of` ps.
Proof.
  revert latest L ps. induction vs as [|w vs IH]; intros latest L ps HS; cbn [compact_versions].
  - by exists ps.
  - destruct (change_filter sel true latest (patch_at L w)) as [[latest' ps']| |] eqn:E; [|by exists ps|by exists ps].
    destruct (decide (v = w)) as [->|Hne].
    + destruct (IH latest' (with_patches L (<[w:=ps']> (l_patches L))) ps') as (ps2 & H2 & HL2).
      { cbn. by rewrite lookup_insert. }
      exists ps2. split; [done|]. etrans; [exact HL2|]. apply change_filter_sublist in E.
      unfold patch_at in E. by rewrite HS in E.
    + apply IH. cbn. by rewrite lookup_insert_ne.
Qed.
Lemma kept_lemma c h L v ps : consistent L -> call_ok c ->
  l_patches L !! v = Some ps ->
  exists ps', l_patches (snd (run_call (h, L) c)) !! v = Some ps' ∧ ps' ⊆+ ps.
Proof.
  intros HC HO HS.
  assert (HK : reorders_patches c -> exists ps', l_patches (snd (run_call (h, L) c)) !! v = Some ps' ∧ ps' ⊆+ ps).
  { intros Hk. destruct (reorders_lemma c h L v ps HC HO Hk HS) as (ps' & H1 & H2).
    exists ps'. split; [done|]. by rewrite H2. }
  destruct c; try (by apply HK); cbn [run_call].
  - destruct (track_log vi vj h L HC) as [->| ->]; [by exists ps|].
    destruct (compact_versions_sublist (fun _ => true) [] L (sorted_keys (keys_in vi vj (l_patches L))) v ps HS) as (ps' & H1 & H2).
    exists ps'. split; [done|]. by apply sublist_submseteq.
  - rewrite compact_log by done.
    destruct (compact_versions_sublist (on_target target) [] L (sorted_keys (l_patches L)) v ps HS) as (ps' & H1 & H2).
    exists ps'. split; [done|]. by apply sublist_submseteq.
  - rewrite history_log, compact_log by done.
    destruct (compact_versions_sublist (on_target target) [] L (sorted_keys (l_patches L)) v ps HS) as (ps' & H1 & H2).
    exists ps'. split; [done|]. by apply sublist_submseteq.
Qed.
Lemma kept_run cs h L v ps : consistent L -> Forall call_ok cs ->
  l_patches L !! v = Some ps ->
  exists ps', l_patches (snd (run (h, L) cs)) !! v = Some ps' ∧ ps' ⊆+ ps.
Proof.
  revert h L ps. induction cs as [|c cs IH]; intros h L ps HC HO HS; [by exists ps|].
  inversion HO as [|? ? Hc Hcs]; subst. cbn [run fold_left].
  destruct (kept_lemma c h L v ps HC Hc HS) as (ps1 & H1 & H2).
  pose proof (run_call_consistent c h L HC) as HC'.
  destruct (run_call (h, L) c) as [h' L']. cbn [snd] in *.
  destruct (IH h' L' ps1 HC' Hcs H1) as (ps2 & H3 & H4). exists ps2. split; [done|]. by etrans.
Qed.

(** ** The change filter *)
Lemma f64_eq_trans a b c : f64_eq a b = true -> f64_eq a c = f64_eq b c.
Proof.
  intros H. destruct (f64_eq_true _ _ H) as [->|(s & s' & -> & ->)]; [done|].
  unfold f64_eq, SFeqb. by destruct c.
Qed.
Lemma any_eq_trans a b c : any_eq a b = Some true -> any_eq a c = any_eq b c.
Proof.
  destruct a as [|x|x|x|x|x|x|[|[x|x|x] i|x|x]], b as [|y|y|y|y|y|y|[|[y|y|y] j|y|y]]; cbn; intros H;
    try (discriminate H); try done; injection H as H.
  - apply bool_decide_eq_true in H. by subst.
  - destruct c; try done. f_equal. by apply f64_eq_trans.
  - apply Z.eqb_eq in H. by subst.
  - apply Bool.eqb_prop in H. by subst.
  - apply andb_true_iff in H as [H1 H2]. apply bool_decide_eq_true in H1. apply Z.eqb_eq in H2. by subst.
  - apply andb_true_iff in H as [H1 H2]. apply Z.eqb_eq in H2. subst j.
    destruct c as [| | | | | | |[|[ | | ] ? | |]]; try done. f_equal. f_equal. by apply f64_eq_trans.
  - apply andb_true_iff in H as [H1 H2]. apply Bool.eqb_prop in H1. apply Z.eqb_eq in H2. by subst.
Qed.

Lemma last_on_snoc k l p :
  last_on k (l ++ [p]) = if decide (op_path p = k) then Some p else last_on k l.
Proof.
  unfold last_on. rewrite filter_app. rewrite filter_cons, filter_nil.
  case_decide; [by rewrite last_snoc|]. by rewrite app_nil_r.
Qed.
Lemma last_on_in k l p : last_on k l = Some p -> p ∈ l ∧ op_path p = k.
Proof.
  unfold last_on. intros H. apply last_Some_elem_of in H. apply elem_of_list_filter in H. tauto.
Qed.

(** The map of latest values stands for the operations seen. *)
Definition repr (latest : list (string * any)) (seen : list operation) : Prop :=
  forall k, match alookup k latest, last_on k seen with
            | None, None => True
            | Some v, Some q => v = op_value q ∨ any_eq v (op_value q) = Some true
            | _, _ => False
            end.
Lemma repr_nil : repr [] [].
Proof. intros k. done. Qed.

Lemma keep_change_spec latest seen p : repr latest seen ->
  match keep_change latest p with
  | Ok (latest', b) => repr latest' (seen ++ [p]) ∧ (b = true <-> changed seen p)
      ∧ match last_on (op_path p) seen with
        | Some q => any_eq (op_value q) (op_value p) <> None
        | None => True
        end
  | Err => False
  | Panic => exists q, last_on (op_path p) seen = Some q ∧ any_eq (op_value q) (op_value p) = None
  end.
Proof.
  intros HR. unfold keep_change, changed. pose proof (HR (op_path p)) as Hp.
  destruct (alookup (op_path p) latest) as [prev|] eqn:E1, (last_on (op_path p) seen) as [q|] eqn:E2; try done.
  - assert (HE : any_eq prev (op_value p) = any_eq (op_value q) (op_value p)).
    { destruct Hp as [->|Hp]; [done|]. by apply any_eq_trans. }
    rewrite HE. destruct (any_eq (op_value q) (op_value p)) as [[]|] eqn:E3; [| |by exists q].
    + split; [|rewrite <- any_eq_true, E3; done]. intros k. rewrite last_on_snoc. case_decide as Hk.
      * subst k. rewrite E1. right. by rewrite HE.
      * apply HR.
    + split; [|rewrite <- any_eq_true, E3; done]. intros k. rewrite last_on_snoc. case_decide as Hk.
      * subst k. rewrite alookup_ainsert_eq. by left.
      * rewrite alookup_ainsert_ne by done. apply HR.
  - split; [|done]. intros k. rewrite last_on_snoc. case_decide as Hk.
    * subst k. rewrite alookup_ainsert_eq. by left.
    * rewrite alookup_ainsert_ne by done. apply HR.
Qed.

(** Whether Go can compare every operation of [l] with the previous one on its path. *)
Fixpoint comparable_after (seen l : list operation) : Prop :=
  match l with
  | [] => True
  | p :: l' =>
      match last_on (op_path p) seen with
      | Some q => any_eq (op_value q) (op_value p) <> None
      | None => True
      end ∧ comparable_after (seen ++ [p]) l'
  end.
Lemma comparable_after_ok l seen : comparable (seen ++ l) -> comparable_after seen l.
Proof.
  revert seen. induction l as [|p l IH]; intros seen H; [done|]. cbn. split.
  - destruct (last_on (op_path p) seen) as [q|] eqn:E; [|done].
    apply last_on_in in E as [E1 E2]. rewrite any_eq_none. apply H; [set_solver|set_solver|done].
  - apply IH. by rewrite <- app_assoc.
Qed.
Lemma comparable_after_app l l' seen :
  comparable_after seen (l ++ l') <-> comparable_after seen l ∧ comparable_after (seen ++ l) l'.
Proof.
  revert seen. induction l as [|p l IH]; intros seen; cbn.
  - rewrite app_nil_r. tauto.
  - rewrite IH. rewrite <- app_assoc. cbn. tauto.
Qed.

Section filt.
Context (sel : operation -> bool) (P : operation -> Prop) `{!forall p, Decision (P p)}.
Context (Hsel : forall p, sel p = true <-> P p).

Lemma change_filter_spec keep ps latest seen : repr latest seen ->
  match change_filter sel keep latest ps with
  | Ok (latest', ps') => repr latest' (seen ++ filter P ps)
      ∧ ps' = (if keep then changes_among P seen ps else changes seen (filter P ps))
      ∧ comparable_after seen (filter P ps)
  | Err => False
  | Panic => ~ comparable_after seen (filter P ps)
  end.
Proof.
  revert latest seen. induction ps as [|p ps IH]; intros latest seen HR; cbn [change_filter changes_among].
  - cbn. rewrite app_nil_r. by destruct keep.
  - rewrite filter_cons. destruct (sel p) eqn:Es.
    + assert (HP : P p) by (by apply Hsel). rewrite !(decide_True _ _ HP).
      pose proof (keep_change_spec latest seen p HR) as HK.
      destruct (keep_change latest p) as [[l2 b]| |]; cbn [rbind fst snd]; [|done|].
      * destruct HK as (HR2 & Hb & Hc). specialize (IH l2 (seen ++ [p]) HR2).
        destruct (change_filter sel keep l2 ps) as [[l3 r]| |]; cbn [rbind fst snd comparable_after]; [|done|].
        -- destruct IH as (I1 & I2 & I3). rewrite <- app_assoc in I1. split; [done|]. split; [|done].
           cbn [changes]. destruct b.
           ++ rewrite (decide_True _ _ (proj1 Hb eq_refl)). subst r. by destruct keep.
           ++ rewrite decide_False by (intros Hx; apply Hb in Hx; done). subst r. by destruct keep.
        -- tauto.
      * destruct HK as (q & H1 & H2). cbn [comparable_after]. rewrite H1. tauto.
    + assert (HP : ~ P p) by (intros Hx; apply Hsel in Hx; congruence). rewrite !(decide_False _ _ HP).
      specialize (IH latest seen HR).
      destruct (change_filter sel keep latest ps) as [[l3 r]| |]; cbn [rbind fst snd]; [|done|done].
      destruct IH as (I1 & I2 & I3). split; [done|]. split; [|done]. subst r. by destruct keep.
Qed.

(** All versions in turn. *)
Lemma compact_versions_spec vs latest L seen : repr latest seen -> NoDup vs ->
  match compact_versions sel latest L vs with
  | (L', Ok _) =>
      (forall v, v ∉ vs -> l_patches L' !! v = l_patches L !! v) ∧
      (forall a v b, vs = a ++ v :: b ->
         l_patches L' !! v =
           Some (changes_among P (seen ++ filter P (concat (map (patch_at L) a))) (patch_at L v))) ∧
      comparable_after seen (filter P (concat (map (patch_at L) vs)))
  | (_, Err) => False
  | (_, Panic) => ~ comparable_after seen (filter P (concat (map (patch_at L) vs)))
  end.
Proof.
  revert latest L seen. induction vs as [|w vs IH]; intros latest L seen HR HN; cbn [compact_versions].
  - split; [done|]. split; [|done]. intros a v b E. by destruct a.
  - apply NoDup_cons in HN as [Hw HN].
    pose proof (change_filter_spec true (patch_at L w) latest seen HR) as HF.
    cbn [map concat]. rewrite filter_app.
    pose proof (comparable_after_app (filter P (patch_at L w)) (filter P (concat (map (patch_at L) vs))) seen) as HA.
    destruct (change_filter sel true latest (patch_at L w)) as [[l2 ps']| |]; [|done|tauto].
    destruct HF as (HR2 & E & Hc).
    specialize (IH l2 (with_patches L (<[w:=ps']> (l_patches L))) _ HR2 HN).
    assert (HM : forall u, u <> w -> patch_at (with_patches L (<[w:=ps']> (l_patches L))) u = patch_at L u).
    { intros u Hu. unfold patch_at. cbn. by rewrite lookup_insert_ne. }
    assert (HMl : forall a, w ∉ a -> map (patch_at (with_patches L (<[w:=ps']> (l_patches L)))) a = map (patch_at L) a).
    { intros a Ha. induction a as [|u a IHa]; [done|]. cbn [map].
      apply not_elem_of_cons in Ha as [Hu Ha]. f_equal; [by apply HM|auto]. }
    rewrite HMl in IH by done.
    destruct (compact_versions sel l2 _ vs) as [L' [u| |]]; [|done|tauto].
    destruct IH as (I1 & I2 & I3). split; [|split; [|tauto]].
    + intros v Hv. apply not_elem_of_cons in Hv as [Hv1 Hv2]. rewrite I1 by done. cbn. by rewrite lookup_insert_ne.
    + intros a v b Ea. destruct a as [|w' a].
      * cbn in Ea. inversion Ea; subst. rewrite I1 by done. cbn. rewrite lookup_insert, app_nil_r. done.
      * cbn in Ea. inversion Ea; subst.
        assert (Hwa : w' ∉ a ∧ v <> w').
        { rewrite elem_of_app, elem_of_cons in Hw. split; intros Hx; apply Hw; auto. }
        rewrite (I2 a v b eq_refl). rewrite HMl, HM by tauto. cbn [map concat]. rewrite filter_app.
        by rewrite <- app_assoc.
Qed.

Lemma ttrack_versions_spec tsi tsj vs latest L seen :
  (forall p, in_time tsi tsj (op_ts p) = sel p) ->
  repr latest seen -> NoDup vs ->
  match ttrack_versions tsi tsj latest L vs with
  | Ok m =>
      (forall v, v ∉ vs -> m !! v = None) ∧
      (forall a v b, vs = a ++ v :: b ->
         m !! v =
           match changes (seen ++ filter P (concat (map (patch_at L) a))) (filter P (patch_at L v)) with
           | [] => None
           | ps => Some ps
           end) ∧
      comparable_after seen (filter P (concat (map (patch_at L) vs)))
  | Err => False
  | Panic => ~ comparable_after seen (filter P (concat (map (patch_at L) vs)))
  end.
Proof.
  intros Hs. assert (Hfun : forall latest ps, change_filter (fun p => in_time tsi tsj (op_ts p)) false latest ps
    = change_filter sel false latest ps).
  { intros l0 ps. revert l0. induction ps as [|p ps IHp]; intros l0; [done|]. cbn [change_filter].
    rewrite Hs. destruct (sel p); [|by rewrite IHp].
    destruct (keep_change l0 p) as [[l1 b]| |]; [|done|done]. cbn [rbind fst snd]. by rewrite IHp. }
  revert latest seen. induction vs as [|w vs IH]; intros latest seen HR HN; cbn [ttrack_versions].
  - split; [done|]. split; [|done]. intros a v b E. by destruct a.
  - apply NoDup_cons in HN as [Hw HN]. rewrite Hfun.
    pose proof (change_filter_spec false (patch_at L w) latest seen HR) as HF.
    cbn [map concat]. rewrite filter_app.
    pose proof (comparable_after_app (filter P (patch_at L w)) (filter P (concat (map (patch_at L) vs))) seen) as HA.
    destruct (change_filter sel false latest (patch_at L w)) as [[l2 ps']| |]; cbn [rbind]; [|done|tauto].
    destruct HF as (HR2 & E & Hc). specialize (IH l2 _ HR2 HN). cbn [fst snd].
    destruct (ttrack_versions tsi tsj l2 L vs) as [m| |]; cbn [rbind]; [|done|tauto].
    destruct IH as (I1 & I2 & I3). split; [|split; [|tauto]].
    + intros v Hv. apply not_elem_of_cons in Hv as [Hv1 Hv2].
      destruct ps'; [by apply I1|]. rewrite lookup_insert_ne by done. by apply I1.
    + intros a v b Ea. destruct a as [|w' a].
      * cbn in Ea. inversion Ea; subst. cbn [map concat]. change (filter P []) with (@nil operation). rewrite app_nil_r.
        destruct (changes seen (filter P (patch_at L v))); [by apply I1|]. by rewrite lookup_insert.
      * cbn in Ea. inversion Ea; subst.
        assert (Hwa : v <> w').
        { rewrite elem_of_app, elem_of_cons in Hw. intros Hx; apply Hw; auto. }
        assert (Hm : m !! v = (match changes seen (filter P (patch_at L w')) with [] => m | o :: l => <[w' := o :: l]> m end) !! v).
        { destruct (changes seen (filter P (patch_at L w'))); [done|]. by rewrite lookup_insert_ne. }
        rewrite <- Hm. rewrite (I2 a v b eq_refl). cbn [map concat]. rewrite filter_app.
        by rewrite <- app_assoc.
Qed.
End filt.
