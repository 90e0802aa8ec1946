(** Proofs about which changes of the length of an array a generated patch makes. *)
From stdpp Require Import pretty.
From Verif Require Import Base BaseSpec BaseSpecLemmas F64 Tson TsonInd BaseLemmas F64Lemmas TsonSpec TextSpec TsonLemmas ConvLemmas Heap HeapSpec Patch Own TreePatch PatchSpec PatchLemmas
  Diff DiffSpec DiffLemmas ArrayDiff DiffPaths DiffGrow DiffApply.
From Coq Require Import Lia.

(** ** Trimmed arrays from matched elements *)
Section taken.
Context (ms : list tson) (Hm : Forall fine ms).
Lemma found_rank o preos used n : fine o -> Forall fine preos -> taken preos ms used -> find_match o ms used 0 = Some n ->
  exists y, ms !! n = Some y ∧ teq o y ∧ fine y ∧ cnt o (take n ms) = cnt o preos.
Proof.
  intros Hfo Hpre HT Ef. apply find_match_some in Ef as (n' & y & -> & Hn & Hv & Hj & Hf). cbn [Nat.add] in *. rename n' into n.
  assert (Hfy : fine y) by (eapply Forall_lookup_1; [exact Hm|done]).
  exists y. split; [done|]. split; [done|]. split; [done|]. apply Nat.le_antisymm.
  - apply rank_bound. intros j' y' Hlt Hy' Hv'. assert (fine y') by (eapply Forall_lookup_1; [exact Hm|done]).
    rewrite (cnt_teq o y') by auto using Forall_take. rewrite (cnt_teq o y' preos) by auto.
    apply (HT j' y' Hy'). by apply (Hf j' y').
  - destruct (decide (cnt o (take n ms) < cnt o preos)%nat) as [H|H]; [|lia]. exfalso. apply Hj.
    apply (HT n y Hn). rewrite <- (cnt_teq o y) by auto using Forall_take. by rewrite <- (cnt_teq o y preos) by auto.
Qed.
Lemma taken_found o preos used n : fine o -> Forall fine preos -> taken preos ms used -> find_match o ms used 0 = Some n ->
  taken (preos ++ [o]) ms (n :: used) ∧ (cnt o preos < cnt o ms)%nat.
Proof.
  intros Hfo Hpre HT Ef. destruct (found_rank o preos used n Hfo Hpre HT Ef) as (y & Hn & Hv & Hfy & Hrank). split.
  - intros j y' Hj'. assert (Hfy' : fine y') by (eapply Forall_lookup_1; [exact Hm|done]).
    rewrite elem_of_cons, cnt_app, (HT _ _ Hj'), cnt_one.
    destruct (decide (teq y' o)) as [Hyo|Hyo].
    + assert (Hoy' : teq o y') by (by apply teq_sym).
      rewrite <- (cnt_teq o y' (take j ms)), <- (cnt_teq o y' preos) by auto using Forall_take. split.
      * intros [->|H]; [rewrite Hrank; lia|lia].
      * intros H. destruct (decide (cnt o (take j ms) < cnt o preos)%nat) as [|H']; [by right|]. left.
        assert (E : cnt o (take j ms) = cnt o preos) by lia.
        assert (Htk : take (length preos) (preos ++ [o]) = preos) by (by rewrite take_app).
        assert (Ho : (preos ++ [o]) !! length preos = Some o) by (rewrite lookup_app_r by lia; by rewrite Nat.sub_diag).
        apply (paired_fun (preos ++ [o]) ms (length preos)); [apply Forall_app; split; [done|by apply List.Forall_cons; [|apply List.Forall_nil]]|done| |].
        -- exists o, y'. rewrite Htk. done.
        -- exists o, y. rewrite Htk. done.
    + split.
      * intros [->|H]; [|lia]. exfalso. apply Hyo. rewrite Hn in Hj'. injection Hj' as <-. by apply teq_sym.
      * intros H. right. lia.
  - pose proof (cnt_take_S o ms n y Hn Hv) as H1. pose proof (lookup_lt_Some _ _ _ Hn) as Hlt.
    pose proof (cnt_take_mono o ms (S n) (length ms) ltac:(lia)) as H2. rewrite (take_ge ms (length ms)) in H2 by lia. lia.
Qed.
Lemma taken_none o preos used : fine o -> Forall fine preos -> taken preos ms used -> find_match o ms used 0 = None ->
  taken (preos ++ [o]) ms used ∧ (cnt o ms <= cnt o preos)%nat.
Proof.
  intros Hfo Hpre HT Ef. split.
  - intros j y' Hj'. assert (Hfy' : fine y') by (eapply Forall_lookup_1; [exact Hm|done]).
    rewrite (HT _ _ Hj'), cnt_app, cnt_one.
    destruct (decide (teq y' o)) as [Hyo|Hyo]; [|lia]. split; [lia|]. intros H.
    assert (Hoy' : teq o y') by (by apply teq_sym).
    pose proof (find_match_none _ _ _ _ Ef j y' Hj' Hoy') as Hu. by apply (HT j y' Hj').
  - rewrite <- (take_ge ms (length ms)) by lia. apply rank_bound. intros j y _ Hy Hv.
    assert (fine y) by (eapply Forall_lookup_1; [exact Hm|done]).
    pose proof (find_match_none _ _ _ _ Ef j y Hy Hv) as Hu. apply (HT j y Hy) in Hu.
    rewrite (cnt_teq o y (take j ms)) by auto using Forall_take. by rewrite (cnt_teq o y preos) by auto.
Qed.
Lemma matched_trimmed suf : forall preos used pre ks tl, Forall fine preos -> Forall fine suf -> taken preos ms used -> ms = pre ++ ks ++ tl ->
  (forall v, fine v -> cnt v pre = Nat.min (cnt v preos) (cnt v ms)) ->
  Forall2 same_content (matched suf ms used) ks -> trimmed suf (ks ++ tl).
Proof.
  induction suf as [|o suf IH]; intros preos used pre ks tl Hpre Hsuf HT Ems Hcnt HF.
  - constructor.
  - inversion Hsuf as [|? ? Hfo Hsuf']; subst x l. cbn [matched] in HF.
    assert (Hpre' : Forall fine (preos ++ [o])) by (apply Forall_app; split; [done|by apply List.Forall_cons; [|apply List.Forall_nil]]).
    assert (Hall : Forall fine pre ∧ Forall fine (ks ++ tl)) by (rewrite Ems in Hm; by apply Forall_app in Hm).
    destruct (find_match o ms used 0) as [n|] eqn:Ef.
    + destruct (taken_found o preos used n Hfo Hpre HT Ef) as [HT' Hlt].
      destruct ks as [|k ks']; [by inversion HF|]. apply Forall2_cons in HF as [Hok HF']. cbn [app]. constructor; [done|].
      destruct Hall as [_ Hks]. apply Forall_cons in Hks as [Hfk _].
      apply (IH (preos ++ [o]) (n :: used) (pre ++ [k]) ks' tl); [done|done|done|by rewrite <- app_assoc| |done].
      intros v Hv. rewrite !cnt_app, Hcnt, !cnt_one by done.
      assert (Hok' : teq o k) by (by apply teq_same).
      destruct (decide (teq v o)) as [Hvo|Hvo].
      * rewrite decide_True by (by apply (teq_trans v o k)).
        assert (Hlt' : (cnt v preos < cnt v ms)%nat).
        { by rewrite (cnt_teq v o preos), (cnt_teq v o ms) by auto. }
        lia.
      * rewrite decide_False; [lia|]. intros H. apply Hvo. apply (teq_trans v k o); auto. by apply teq_sym.
    + destruct (taken_none o preos used Hfo Hpre HT Ef) as [HT' Hle]. apply tr_drop.
      * intros v Hv HS. destruct Hall as [Hfp Hks]. assert (Hfv : fine v) by (by apply (proj1 (Forall_forall _ _) Hks)).
        pose proof (Hcnt o Hfo) as Hc. rewrite Ems, !cnt_app in Hc. rewrite Ems, !cnt_app in Hle.
        assert (H0 : (1 <= cnt o (ks ++ tl))%nat).
        { apply elem_of_list_split in Hv as (l1 & l2 & ->). rewrite cnt_app, cnt_cons, decide_True by (by apply teq_same). lia. }
        rewrite cnt_app in H0. lia.
      * apply (IH (preos ++ [o]) used pre ks tl); [done|done|done|done| |done].
        intros v Hv. rewrite Hcnt, cnt_app, cnt_one by done. destruct (decide (teq v o)) as [Hvo|Hvo]; [|lia].
        rewrite (cnt_teq v o preos), (cnt_teq v o ms) by auto. lia.
Qed.
End taken.

(** ** Numbers of matched elements *)
Lemma leftover_length n used : NoDup used -> (forall i, i ∈ used -> (i < n)%nat) -> (length (leftover n used) + length used)%nat = n.
Proof.
  intros ND H. rewrite <- app_length. transitivity (length (seq 0 n)); [|apply seq_length]. apply Permutation_length, NoDup_Permutation.
  - apply NoDup_app. split; [apply NoDup_filter, NoDup_seq|]. split; [|done].
    intros i [Hi _]%elem_of_list_filter. done.
  - apply NoDup_seq.
  - intros i. unfold leftover. rewrite elem_of_app, elem_of_list_filter, elem_of_seq. split.
    + intros [[_ ?]|Hi%H]; lia.
    + intros Hi. destruct (decide (i ∈ used)); [by right|left]. by split.
Qed.
Lemma pairs_fst_NoDup os ms : Forall fine os -> Forall fine ms -> NoDup (map fst (pairs os ms)).
Proof.
  intros Ho Hm. assert (ND : NoDup (pairs os ms)) by apply NoDup_remove_dups.
  apply NoDup_fmap_2_strong; [|done]. intros [i j] [i' j'] H1%pairs_iff H2%pairs_iff. cbn [fst]. intros <-. f_equal.
  by apply (paired_fun os ms i).
Qed.
Lemma pairs_fst_lt os ms i : i ∈ map fst (pairs os ms) -> (i < length os)%nat.
Proof. intros (j & x & y & Hx & _)%pairs_fst. by eapply lookup_lt_Some. Qed.
Lemma pairs_flip os ms : Forall fine os -> Forall fine ms -> length (pairs os ms) = length (pairs ms os).
Proof.
  intros Ho Hm. rewrite <- (map_length (fun ij => (snd ij, fst ij)) (pairs ms os)).
  apply Permutation_length, NoDup_Permutation.
  - apply NoDup_remove_dups.
  - apply NoDup_fmap_2; [|apply NoDup_remove_dups]. intros [a b] [c d] [= -> ->]. done.
  - intros [i j]. rewrite pairs_iff, elem_of_list_fmap. split.
    + intros H. exists (j, i). split; [done|]. apply pairs_iff. by apply paired_flip.
    + intros ([a b] & [= -> ->] & H%pairs_iff). by apply paired_flip.
Qed.
Lemma matched_unmatched ms : forall os i used, (length (matched os ms used) + length (unmatched os i ms used))%nat = length os.
Proof.
  induction os as [|o os IH]; intros i used; [done|]. cbn [matched unmatched length].
  destruct (find_match o ms used 0) as [j|]; cbn [length]; [rewrite <- (IH (S i) (j :: used))|rewrite <- (IH (S i) used)]; lia.
Qed.
Lemma process_length os ms : Forall fine os -> Forall fine ms -> (length (process_array os ms) + length (pairs os ms))%nat = length os.
Proof.
  intros Ho Hm. rewrite process_spec, map_length by done. rewrite <- (map_length fst (pairs os ms)).
  apply leftover_length; [by apply pairs_fst_NoDup|]. intros i. apply pairs_fst_lt.
Qed.
Lemma matched_number os ms : Forall fine os -> Forall fine ms -> (length (matched os ms []) + length (process_array ms os))%nat = length ms.
Proof.
  intros Ho Hm. pose proof (matched_unmatched ms os 0 []) as H1. fold (process_array os ms) in H1.
  pose proof (process_length os ms Ho Hm). pose proof (process_length ms os Hm Ho). rewrite <- (pairs_flip os ms) in * by done. lia.
Qed.

(** ** What the additions write *)
Definition put_all (xs : list tson) (L : list (nat * tson)) : list tson :=
  fold_left (fun a jv => <[fst jv := snd jv]> (pad a (Z.of_nat (fst jv)))) L xs.
Lemma pad_lookup xs i j : pad xs (Z.of_nat i) !! j = xs !! j ∨ (xs !! j = None ∧ pad xs (Z.of_nat i) !! j = Some TNil).
Proof.
  unfold pad. destruct (Z.leb_spec (Z.of_nat (length xs)) (Z.of_nat i)); [|by left].
  destruct (decide (j < length xs)%nat).
  - left. by rewrite lookup_app_l.
  - assert (xs !! j = None) by (apply lookup_ge_None; lia). rewrite lookup_app_r by lia. rewrite Nat2Z.id.
    destruct (replicate _ _ !! _) as [t|] eqn:E; [right|left; congruence].
    apply lookup_replicate in E as [-> _]. done.
Qed.
Lemma put_all_other L : forall xs j, j ∉ map fst L -> put_all xs L !! j = xs !! j ∨ (xs !! j = None ∧ put_all xs L !! j = Some TNil).
Proof.
  induction L as [|[i v] L IH]; intros xs j Hj; [by left|]. cbn [map fst] in Hj. apply not_elem_of_cons in Hj as [Hne Hj].
  cbn [put_all fold_left fst snd]. fold (put_all (<[i := v]> (pad xs (Z.of_nat i))) L).
  destruct (IH (<[i := v]> (pad xs (Z.of_nat i))) j Hj) as [E|[E1 E2]].
  - rewrite E, list_lookup_insert_ne by done. apply pad_lookup.
  - rewrite list_lookup_insert_ne in E1 by done. right. split; [|done]. destruct (pad_lookup xs i j) as [H|[H1 H2]]; congruence.
Qed.
Lemma adds_put q0 k : Forall DiffApply.named q0 -> DiffApply.named (Key k) -> forall L xs m adds,
  (forall j v, (j, v) ∈ L -> Z.of_nat j <= int64_max) -> alookup k m = Some (TArr xs) ->
  array_adds (written (q0 ++ [Key k])) L = Ok adds ->
  papply_at (length q0) (TObj m) adds = (TObj (ainsert k (TArr (put_all xs L)) m), Ok tt).
Proof.
  intros HN0 HNk. induction L as [|[i v] L IH]; intros xs m adds Hmax Hk E.
  - injection E as <-. cbn [papply_at put_all fold_left]. by rewrite ainsert_id.
  - cbn [array_adds] in E. destruct v as [|x ts| |]; try done. apply bind_ok in E as (r & Er & [= <-]).
    match goal with |- papply_at _ _ (?p :: r) = _ => change (p :: r) with ([p] ++ r); set (op := p) end. rewrite papply_at_app.
    assert (E1 : papply_at (length q0) (TObj m) [op] = (TObj (ainsert k (TArr (<[i := TLeaf x ts]> (pad xs (Z.of_nat i)))) m), Ok tt)).
    { pose proof (Hmax i _ ltac:(constructor)) as Hi. cbn [papply_at]. rewrite (elem_parts q0 k i op HN0 HNk eq_refl), ptrav_cons. cbv beta iota. rewrite Hk.
      rewrite pretty_elem, parse_int_dec_text by lia. cbn [unslash op_kind op_value op_ts op].
      rewrite (payload_scalar _ _ (payload_any x)). replace (Z.of_N (N.of_nat i)) with (Z.of_nat i) by lia.
      assert (En : (Z.of_nat i <? 0) = false) by lia. by rewrite En, Nat2Z.id. }
    rewrite E1. rewrite (IH (<[i := TLeaf x ts]> (pad xs (Z.of_nat i)))).
    + by rewrite ainsert_ainsert.
    + intros j v Hj. apply (Hmax j v). by constructor.
    + by rewrite alookup_ainsert_eq.
    + done.
Qed.

(** ** The exact condition *)
Lemma matched_back os ms : Forall fine os -> Forall fine ms -> (forall v, v ∈ ms -> exists x ts, v = TLeaf x ts) ->
  Forall2 same_content (put_all (matched os ms []) (process_array ms os)) ms -> trimmed os ms.
Proof.
  intros Ho Hm Hl HF. set (xs := matched os ms []) in *. set (L := process_array ms os) in *.
  pose proof (matched_number os ms Ho Hm) as HN. fold xs L in HN.
  assert (Hidx : forall j, j ∈ map fst L -> (j < length ms)%nat).
  { intros j. unfold L. rewrite process_spec, map_map by done. cbn [fst elem_at]. rewrite map_id.
    intros [_ H]%elem_of_list_filter. apply elem_of_seq in H. lia. }
  assert (HND : NoDup (map fst L)).
  { unfold L. rewrite process_spec, map_map by done. cbn [fst elem_at]. rewrite map_id. apply NoDup_filter, NoDup_seq. }
  assert (Hfree : forall j, (j < length ms)%nat -> j ∉ map fst L -> exists x y, xs !! j = Some x ∧ ms !! j = Some y ∧ same_content x y).
  { intros j Hj HjL. apply lookup_lt_is_Some in Hj as [y Hy]. destruct (Forall2_lookup_r _ _ _ _ _ HF Hy) as (z & Hz & HS).
    destruct (put_all_other L xs j HjL) as [E|[_ E]]; [exists z, y; split; [congruence|done]|].
    destruct (Hl y) as (x & ts & ->); [by eapply elem_of_list_lookup_2|]. rewrite E in Hz. injection Hz as <-. inversion HS. }
  assert (Hin : forall j, (length xs <= j < length ms)%nat -> j ∈ map fst L).
  { intros j Hj. destruct (decide (j ∈ map fst L)) as [|HjL]; [done|]. destruct (Hfree j ltac:(lia) HjL) as (x & _ & Hx & _).
    apply lookup_lt_Some in Hx. lia. }
  assert (Hout : forall j, (j < length xs)%nat -> j ∉ map fst L).
  { intros j Hj HjL. assert (HS : j :: seq (length xs) (length L) ⊆+ map fst L).
    { apply NoDup_submseteq.
      - apply NoDup_cons. split; [|apply NoDup_seq]. rewrite elem_of_seq. lia.
      - intros i [->|Hi]%elem_of_cons; [done|]. apply elem_of_seq in Hi. apply Hin. lia. }
    apply submseteq_length in HS. cbn [length] in HS. rewrite seq_length, map_length in HS. lia. }
  rewrite <- (take_drop (length xs) ms). apply (matched_trimmed ms Hm os [] [] []); [constructor|done| |by rewrite take_drop| |].
  - intros j y _. rewrite cnt_nil. split; [by intros ?%elem_of_nil|lia].
  - intros v _. by rewrite !cnt_nil.
  - fold xs. apply Forall2_same_length_lookup. split; [rewrite take_length; lia|].
    intros j x y Hx Hy. apply lookup_lt_Some in Hx as Hj. rewrite lookup_take in Hy by done.
    destruct (Hfree j ltac:(lia) (Hout j Hj)) as (x' & y' & Hx' & Hy' & HS). congruence.
Qed.
Lemma arrays_exact k os ms ops h l : k <> "" -> plain k -> Forall fine os -> Forall fine ms -> (forall v, v ∈ ms -> exists x ts, v = TLeaf x ts) ->
  length os <> length ms -> Z.of_nat (length os) <= int64_max -> Z.of_nat (length ms) <= int64_max ->
  generate_patch (TObj [(k, TArr os)]) (TObj [(k, TArr ms)]) = Ok ops -> doc_of h (VObj l) (TObj [(k, TArr os)]) ->
  exists h' t', apply_patch h (VObj l) (map unslash ops) = (h', Ok (VObj l)) ∧ doc_of h' (VObj l) t' ∧
    (same_content t' (TObj [(k, TArr ms)]) <-> trimmed os ms).
Proof.
  intros Hk1 Hk2 Ho Hm Hlv Hne Hmo Hmm E HD.
  assert (Hwo : Forall wf os) by (eapply Forall_impl; [exact Ho|by intros ? [? _]]).
  assert (Hwm : Forall wf ms) by (eapply Forall_impl; [exact Hm|by intros ? [? _]]).
  assert (Hnm : Forall nan_free ms) by (eapply Forall_impl; [exact Hm|by intros ? [_ ?]]).
  unfold generate_patch in E. rewrite handle_obj in E. apply bind_ok in E as (ch & Ec & E). apply bind_ok in E as (rm & Er & [= <-]).
  cbn [diff_removed alookup] in Er. rewrite decide_True in Er by done. injection Er as <-. rewrite app_nil_r in *.
  rewrite hv_members_cons in Ec. cbn [alookup] in Ec. rewrite decide_True in Ec by done. cbn [same_type] in Ec.
  apply bind_ok in Ec as (here & Eh & Ec). cbn [hv_members rbind] in Ec. injection Ec as <-. rewrite app_nil_r in *.
  rewrite handle_arr in Eh. apply Nat.eqb_neq in Hne as Hne'. rewrite Hne' in Eh. unfold compare_array in Eh.
  apply bind_ok in Eh as (adds & Ea & [= <-]).
  change "" with (written []) in Ea |- *. rewrite written_key in Ea |- *.
  assert (HNk : DiffApply.named (Key k)) by (by apply named_key).
  pose proof (removes_apply [] k ltac:(constructor) HNk os [] ms [] [(k, TArr os)] ltac:(cbn [length]; lia)) as HR.
  cbn [alookup] in HR. rewrite decide_True in HR by done. specialize (HR eq_refl). cbn [length app] in HR.
  pose proof (adds_put [] k ltac:(constructor) HNk (process_array ms os) (matched os ms []) (ainsert k (TArr (matched os ms [])) [(k, TArr os)]) adds) as HA.
  rewrite alookup_ainsert_eq in HA. cbn [app] in HA.
  assert (Et : papply_at 0 (TObj [(k, TArr os)]) (array_removes os ms (written [Key k]) ++ adds) =
     (TObj [(k, TArr (put_all (matched os ms []) (process_array ms os)))], Ok tt)).
  { rewrite papply_at_app. unfold array_removes, process_array at 1. cbn [length] in HR. rewrite HR. cbn [length] in HA. rewrite HA; [|clear HA|done|done].
    - rewrite ainsert_ainsert. cbn [ainsert]. by rewrite decide_True.
    - intros j v Hj. assert (Hj' : j ∈ map fst (process_array ms os)) by (apply elem_of_list_fmap; by exists (j, v)).
      rewrite process_spec, map_map in Hj' by done. cbn [fst elem_at] in Hj'. rewrite map_id in Hj'.
      apply elem_of_list_filter in Hj' as [_ Hj']. apply elem_of_seq in Hj'. lia. }
  set (ops := array_removes os ms (written [Key k]) ++ adds) in *. rewrite papply_at_root in Et.
  destruct (apply_patch h (VObj l) (map unslash ops)) as [h' r] eqn:Eap.
  pose proof (apply_patch_doc _ _ _ _ _ _ HD Eap) as HX. rewrite Et in HX. destruct r as [v| |]; try done. destruct HX as [HD' ->].
  assert (Hops : ops <> []).
  { unfold ops. intros [E1 ->]%app_nil. apply array_removes_empty, process_empty in E1. apply array_adds_empty, process_empty in Ea. lia. }
  rewrite decide_False in Eap by (by destruct ops).
  eexists h', _. split; [done|]. split; [exact HD'|]. split.
  - intros HS. apply matched_back; [done..|]. inversion HS as [| | |? m1 ? HP HF]; subst.
    symmetry in HP. apply Permutation_singleton_r in HP. subst m1.
    apply Forall2_cons in HF as [[_ HF] _]. cbn [snd] in HF. by inversion HF.
  - intros HT.
    destruct (uneven_content false [] k os ms [(k, TArr os)] ops) as (ws & Ew & HW); [constructor|done|done|done|done|done|done|done| | |].
    + unfold compare_array. change (written ([] ++ [Key k])) with (written [Key k]) in Ea |- *. by rewrite Ea.
    + cbn [alookup]. by rewrite decide_True.
    + cbn [length] in Ew. rewrite papply_at_root, Et in Ew. injection Ew as Ew. cbn [ainsert] in Ew. rewrite decide_True in Ew by done.
      injection Ew as ->. apply (ag_obj _ _ [(k, TArr ws)]); [done|]. apply List.Forall2_cons; [|apply List.Forall2_nil]. split; [done|].
      by constructor.
Qed.
