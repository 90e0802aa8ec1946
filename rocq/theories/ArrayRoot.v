(** Operations, patches and logs on a document that is an array. *)
From Verif Require Import Base BaseSpec BaseSpecLemmas F64 Tson BaseLemmas Heap HeapSpec Patch Own PatchSpec TreePatch PatchLemmas
  Logument LogSpec LogLemmas ChangeLemmas CompactLemmas ReplaySpec ReplayLemmas SnapAnySpec SnapAny ArrayRootSpec.
From Coq Require Import Lia.

Lemma doc_arr h v xs : doc_of h v (TArr xs) -> exists a lxs spare, v = VArr a (length lxs) ∧ xs = map erase lxs ∧
  h !! a = Some (CArr (map root lxs ++ spare)) ∧ Forall (own h) lxs ∧ NoDup (a :: concat (map locs lxs)).
Proof.
  intros (lt & [HO HN] & <- & E). destruct lt as [| |l m|a lxs]; try discriminate E. injection E as <-.
  inversion HO as [| | |? ? spare Hl HF]; subst. by exists a, lxs, spare.
Qed.
Lemma arr_doc h a lxs spare : h !! a = Some (CArr (map root lxs ++ spare)) -> Forall (own h) lxs ->
  NoDup (a :: concat (map locs lxs)) -> doc_of h (VArr a (length lxs)) (TArr (map erase lxs)).
Proof. intros H1 H2 H3. exists (LArr a lxs). split; [|done]. split; [by econstructor|done]. Qed.

Lemma doc_frame h h' v t : doc_of h v t -> (forall x, (x < length h)%nat -> h' !! x = h !! x) -> doc_of h' v t.
Proof.
  intros (lt & [HO HN] & <- & <-) Hf. exists lt. split; [|done]. split; [|done].
  apply (own_frame h); [done|]. intros x Hx. apply Hf. by eapply own_lt.
Qed.

Lemma ptrav_edit op e xs : edits op e -> fits (length xs) e ->
  ptrav op (op_parts (op_path op)) (TArr xs) = (TArr (made xs e), Ok tt).
Proof.
  intros [i idx p Hs Hi%parse_int_spec Hw Hp|i idx Hs Hi%parse_int_spec Hk] Hf; rewrite (spells_parts _ _ Hs), ptrav_cons; cbv beta iota; rewrite Hi.
  - rewrite (payload_scalar _ _ Hp). cbn [made]. rewrite <- pad_set, Nat2Z.id.
    destruct (Z.ltb_spec (Z.of_nat idx) 0) as [Hz|_]; [lia|].
    destruct Hw as [-> | ->]; cbn [is_set negb]; by rewrite andb_false_r.
  - cbn [fits] in Hf. rewrite Hk. destruct (Z.leb_spec (Z.of_nat (length xs)) (Z.of_nat idx)) as [Hz|Hz]; [lia|]. cbn [andb].
    destruct (Z.ltb_spec (Z.of_nat idx) 0) as [Hz'|_]; [lia|]. unfold pad.
    rewrite Nat2Z.id. cbn [made]. by rewrite delete_take_drop.
Qed.

Lemma flat_leaves lxs : flat (map erase lxs) -> Forall (fun lt => lt = LNil ∨ exists p ts, lt = LLeaf p ts) lxs.
Proof.
  unfold flat. rewrite Forall_fmap. intros HF. eapply Forall_impl; [exact HF|]. intros [| |l m|l ys] H; cbn in H; try done; [by left|right; eauto].
Qed.
Lemma leaves_own h lxs : Forall (fun lt => lt = LNil ∨ exists p ts, lt = LLeaf p ts) lxs ->
  Forall (own h) lxs ∧ concat (map locs lxs) = [].
Proof.
  induction 1 as [|lt lxs Hl _ [H1 H2]]; [done|]. destruct Hl as [-> | (p & ts & ->)]; (split; [constructor; [constructor|done]|done]).
Qed.
Lemma shown_length xs e : fits (length xs) e -> length (shown xs e) = length xs.
Proof.
  destruct e as [i x|i]; cbn [shown fits]; intros H; [by rewrite insert_length|].
  rewrite !app_length, take_length, drop_length.
  destruct (last xs) eqn:E; [|apply last_None in E as ->; cbn in H; lia]. cbn [length]. lia.
Qed.
Lemma shown_flat xs op e : edits op e -> flat xs -> flat (shown xs e).
Proof.
  unfold flat. intros He HF. destruct He as [i idx p _ _ _ _|i idx _ _ _]; cbn [shown].
  - by apply Forall_insert.
  - apply Forall_app. split; [by apply Forall_take|]. apply Forall_app. split; [by apply Forall_drop|].
    destruct (last xs) as [y|] eqn:E; [|done]. apply Forall_singleton. rewrite Forall_forall in HF. apply HF.
    apply last_Some in E as [l ->]. apply elem_of_app. right. by apply elem_of_list_singleton.
Qed.

Lemma edit_step h v xs op e : doc_of h v (TArr xs) -> edits op e -> fits (length xs) e ->
  exists h' r, apply_operation h v op = (h', Ok r) ∧ doc_of h' r (TArr (made xs e)) ∧
    (flat xs ∨ is_put e -> doc_of h' v (TArr (shown xs e))) ∧
    (forall i x, e = Put i x -> (i < length xs)%nat -> r = v).
Proof.
  intros HD He Hf. destruct (apply_operation h v op) as [h' r] eqn:Ea.
  pose proof (apply_operation_doc _ _ _ _ _ _ HD Ea) as HX. rewrite (ptrav_edit _ _ _ He Hf) in HX.
  destruct r as [r| |]; [|done|done]. destruct HX as [HD' _]. exists h', r. split; [done|]. split; [done|].
  destruct (doc_arr _ _ _ HD) as (a & lxs & spare & -> & -> & Ha & HO & HN).
  assert (Hal : (a < length h)%nat) by (by eapply lookup_lt_Some).
  unfold apply_operation in Ea. rewrite map_length in *.
  destruct He as [i idx p Hs Hi%parse_int_spec Hw Hp|i idx Hs Hi%parse_int_spec Hk]; rewrite (spells_parts _ _ Hs), traverse_cons in Ea; cbv beta iota in Ea; rewrite Hi in Ea.
  - rewrite (payload_scalar _ _ Hp), Nat2Z.id in Ea.
    destruct (Z.ltb_spec (Z.of_nat idx) 0) as [Hz|_]; [lia|].
    destruct (Z.leb_spec (Z.of_nat (length lxs)) (Z.of_nat idx)) as [Hz|Hz].
    + split; [|intros ? ? [= -> _] ?; lia]. intros _. cbn [shown]. rewrite list_insert_ge by (rewrite map_length; lia).
      apply (doc_frame h); [done|]. intros x Hx. unfold extend, alloc in Ea. cbv beta iota zeta in Ea.
      destruct Hw as [Hw|Hw]; rewrite Hw in Ea; cbn [is_set negb andb] in Ea; injection Ea as <- _; unfold set_idx;
        (rewrite upd_ne by lia; by apply look_app).
    + assert (r = VArr a (length lxs)) as ->.
      { destruct Hw as [Hw|Hw]; rewrite Hw in Ea; cbn [is_set negb andb] in Ea; by injection Ea as _ <-. }
      split; [|done]. intros _. cbn [made shown] in *. unfold set_elem in HD'. rewrite map_length in HD'.
      replace (S idx - length lxs)%nat with 0%nat in HD' by lia. cbn [replicate] in HD'. by rewrite app_nil_r in HD'.
  - split; [|done]. intros [Hfl|[]]. cbn [fits shown] in *.
    destruct (Z.leb_spec (Z.of_nat (length lxs)) (Z.of_nat idx)) as [Hz|_]; [lia|]. cbn [andb] in Ea.
    destruct (Z.ltb_spec (Z.of_nat idx) 0) as [Hz'|_]; [lia|]. rewrite Hk, Nat2Z.id in Ea. injection Ea as <- _.
    apply flat_leaves in Hfl. destruct (last lxs) as [y|] eqn:Ey; [|apply last_None in Ey as ->; cbn in Hf; lia].
    assert (El : last (map erase lxs) = Some (erase y)) by (by rewrite fmap_last, Ey).
    assert (Em : take idx (map erase lxs) ++ drop (S idx) (map erase lxs) ++ [erase y] = map erase (take idx lxs ++ drop (S idx) lxs ++ [y])).
    { by rewrite !fmap_app, fmap_take, fmap_drop. }
    rewrite El, Em.
    assert (Eln : length lxs = length (take idx lxs ++ drop (S idx) lxs ++ [y])).
    { rewrite !app_length, take_length, drop_length. cbn [length]. lia. }
    replace (VArr a (length lxs)) with (VArr a (length (take idx lxs ++ drop (S idx) lxs ++ [y]))) by (by f_equal).
    assert (HF' : Forall (fun lt => lt = LNil ∨ exists p ts, lt = LLeaf p ts) (take idx lxs ++ drop (S idx) lxs ++ [y])).
    { apply Forall_app. split; [by apply Forall_take|]. apply Forall_app. split; [by apply Forall_drop|]. apply Forall_singleton.
      rewrite Forall_forall in Hfl. apply Hfl. apply last_Some in Ey as [l ->]. apply elem_of_app. right. by apply elem_of_list_singleton. }
    destruct (leaves_own (remove_idx h a (length lxs) idx) _ HF') as [HO' HL].
    apply (arr_doc _ _ _ spare); [|done|rewrite HL; apply NoDup_singleton].
    unfold remove_idx, arr_at. rewrite Ha, upd_eq by exact Hal. do 2 f_equal.
    assert (Hr : length (map root lxs) = length lxs) by apply map_length.
    rewrite (take_app_le _ _ idx) by lia. rewrite (take_app_le _ _ (length lxs)) by lia. rewrite (take_ge (map root lxs) (length lxs)) by lia.
    rewrite (drop_app_le _ _ (length lxs - 1)) by lia.
    assert (Er : drop (length lxs - 1) (map root lxs) = [root y]).
    { apply last_Some in Ey as [l ->]. rewrite map_app, app_length. cbn [length map]. rewrite drop_app_alt; [done|]. rewrite map_length. lia. }
    rewrite Er, !fmap_app, fmap_take, fmap_drop, <- !app_assoc. done.
Qed.

Lemma ops_edits ops : forall es op e h v xs t0, doc_of h v (TArr xs) -> Forall2 edits ops es -> edits op e ->
  Forall (fits (length xs)) es -> fits (length xs) e -> flat xs ∨ Forall is_put es ->
  exists h' r, apply_ops h v t0 (ops ++ [op]) = (h', Ok r) ∧ doc_of h' r (TArr (made (fold_left shown es xs) e)) ∧
    (flat xs ∨ is_put e -> doc_of h' v (TArr (fold_left shown (es ++ [e]) xs))).
Proof.
  induction ops as [|o ops IH]; intros es op e h v xs t0 HD HE He HF Hf Hfl.
  - apply Forall2_nil_inv_l in HE as ->. destruct (edit_step _ _ _ _ _ HD He Hf) as (h' & r & Ea & H1 & H2 & _).
    exists h', r. cbn [app apply_ops fold_left]. rewrite Ea. done.
  - apply Forall2_cons_inv_l in HE as (e1 & es' & He1 & HE & ->). apply Forall_cons in HF as [Hf1 HF].
    destruct (edit_step _ _ _ _ _ HD He1 Hf1) as (h1 & r1 & Ea & H1 & H2 & _).
    assert (HD1 : doc_of h1 v (TArr (shown xs e1))).
    { apply H2. destruct Hfl as [Hfl|Hfl]; [by left|]. apply Forall_cons in Hfl as [Hp _]. by right. }
    rewrite <- (shown_length _ _ Hf1) in Hf, HF.
    assert (Hfl' : flat (shown xs e1) ∨ Forall is_put es').
    { destruct Hfl as [Hfl|Hfl]; [left; by eapply shown_flat|]. apply Forall_cons in Hfl as [_ Hp]. by right. }
    destruct (IH es' op e h1 v _ r1 HD1 HE He HF Hf Hfl') as (h' & r & E & H3 & H4).
    exists h', r. cbn [app apply_ops fold_left]. rewrite Ea. split; [done|]. split; [done|].
    intros [Hx|Hx]; apply H4; [left; by eapply shown_flat|by right].
Qed.
Lemma patch_edits ops es op e h v xs : doc_of h v (TArr xs) -> Forall2 edits ops es -> edits op e ->
  Forall (fits (length xs)) es -> fits (length xs) e -> flat xs ∨ Forall is_put es ->
  exists h' r, apply_patch h v (ops ++ [op]) = (h', Ok r) ∧ doc_of h' r (TArr (made (fold_left shown es xs) e)) ∧
    (flat xs ∨ is_put e -> doc_of h' v (TArr (fold_left shown (es ++ [e]) xs))).
Proof. apply ops_edits. Qed.
Lemma one_edit h v xs op e : doc_of h v (TArr xs) -> edits op e -> fits (length xs) e ->
  exists h' r, apply_operation h v op = (h', Ok r) ∧ doc_of h' r (TArr (made xs e)) ∧
    (flat xs ∨ is_put e -> doc_of h' v (TArr (shown xs e))).
Proof. intros H1 H2 H3. destruct (edit_step _ _ _ _ _ H1 H2 H3) as (h' & r & ? & ? & ? & _). by exists h', r. Qed.

Lemma inside_patch ops : forall es h v xs t0, doc_of h v (TArr xs) -> Forall2 edits ops es ->
  Forall (fun e => exists i x, e = Put i x ∧ (i < length xs)%nat) es ->
  exists h', apply_ops h v t0 ops = (h', Ok (match ops with [] => t0 | _ => v end)) ∧ doc_of h' v (TArr (fold_left made es xs)).
Proof.
  induction ops as [|o ops IH]; intros es h v xs t0 HD HE HF.
  - apply Forall2_nil_inv_l in HE as ->. by exists h.
  - apply Forall2_cons_inv_l in HE as (e1 & es' & He1 & HE & ->). apply Forall_cons in HF as [(i & x & -> & Hi) HF].
    destruct (edit_step _ _ _ _ _ HD He1 I) as (h1 & r1 & Ea & H1 & _ & Hr). rewrite (Hr i x eq_refl Hi) in *.
    assert (El : length (made xs (Put i x)) = length xs).
    { cbn [made]. unfold set_elem. rewrite insert_length, app_length, replicate_length. lia. }
    rewrite <- El in HF. destruct (IH es' h1 v _ v H1 HE HF) as (h' & E & H2). exists h'. cbn [apply_ops fold_left]. rewrite Ea, E.
    split; [|done]. by destruct ops.
Qed.
Lemma inside_all ops es h v xs : doc_of h v (TArr xs) -> Forall2 edits ops es -> ops <> [] ->
  Forall (fun e => exists i x, e = Put i x ∧ (i < length xs)%nat) es ->
  exists h', apply_patch h v ops = (h', Ok v) ∧ doc_of h' v (TArr (fold_left made es xs)).
Proof.
  intros HD HE Hne HF. destruct (inside_patch ops es h v xs VNil HD HE HF) as (h' & E & H). exists h'. split; [|done].
  unfold apply_patch. rewrite E. by destruct ops.
Qed.
(** The length of the result depends on the last edit only. *)
Lemma fold_shown_length es : forall xs, Forall (fits (length xs)) es -> length (fold_left shown es xs) = length xs.
Proof.
  induction es as [|e es IH]; intros xs HF; [done|]. apply Forall_cons in HF as [Hf HF]. cbn [fold_left].
  rewrite IH; [by apply shown_length|by rewrite (shown_length _ _ Hf)].
Qed.
Lemma made_length xs e : fits (length xs) e ->
  length (made xs e) = match e with Put i _ => Nat.max (length xs) (S i) | Cut _ => (length xs - 1)%nat end.
Proof.
  destruct e as [i x|i]; cbn [made fits]; intros H.
  - unfold set_elem. rewrite insert_length, app_length, replicate_length. lia.
  - rewrite app_length, take_length, drop_length. lia.
Qed.
Lemma last_decides ops es op e h v xs : doc_of h v (TArr xs) -> Forall2 edits ops es -> edits op e ->
  Forall (fits (length xs)) es -> fits (length xs) e -> flat xs ∨ Forall is_put es ->
  exists h' r ys, apply_patch h v (ops ++ [op]) = (h', Ok r) ∧ doc_of h' r (TArr ys) ∧
    length ys = match e with Put i _ => Nat.max (length xs) (S i) | Cut _ => (length xs - 1)%nat end.
Proof.
  intros HD HE He HF Hf Hfl. destruct (patch_edits _ _ _ _ _ _ _ HD HE He HF Hf Hfl) as (h' & r & E & H & _).
  exists h', r, (made (fold_left shown es xs) e). split; [done|]. split; [done|].
  rewrite made_length; rewrite (fold_shown_length es xs HF); done.
Qed.

(** Snapshots of a log. *)
Lemma replay_ops ps : forall h v t, last ps <> Some [] -> replay_versions h v t ps = apply_ops h v t (concat ps).
Proof.
  assert (H : forall ps h v t, ps <> [] -> last ps <> Some [] -> replay_versions h v t ps = apply_ops h v t (concat ps)).
  { clear ps. induction ps as [|p ps IH]; intros h v t Hne Hl; [done|]. cbn [replay_versions concat]. rewrite apply_ops_app.
    assert (Hp : p <> [] -> apply_ops h v t p = apply_patch h v p).
    { unfold apply_patch. destruct p as [|o p]; [done|]. intros _. reflexivity. }
    destruct (decide (ps = [])) as [->|Hps].
    - cbn in Hl. assert (p <> []) as Hpn by congruence. cbn [concat replay_versions]. rewrite (Hp Hpn).
      destruct (apply_patch h v p) as [h1 [t1| |]]; done.
    - assert (Hl' : last ps <> Some []) by (by destruct ps).
      destruct (decide (p = [])) as [->|Hpn].
      + cbn [apply_patch apply_ops]. unfold apply_patch. cbn [apply_ops].
        rewrite (IH h v VNil Hps Hl'). assert (Hc : concat ps <> []).
        { clear -Hps Hl'. induction ps as [|q ps IH]; [done|]. cbn [concat]. destruct ps as [|q2 ps]; [cbn in *; destruct q; [done|done]|].
          intros [_ Hx]%app_nil. by apply IH. }
        by destruct (concat ps).
      + rewrite (Hp Hpn). destruct (apply_patch h v p) as [h1 [t1| |]]; [by apply IH|done|done]. }
  intros h v t Hl. destruct (decide (ps = [])) as [->|Hne]; [done|]. by apply H.
Qed.

Lemma array_snapshot v w s h L xs ops op es e : reachable (h, L) -> v ∈ l_version L -> base_of L v w -> (w < v)%N ->
  l_snapshots L !! w = Some s -> doc_of h s (TArr xs) -> patch_at L v <> [] ->
  ops_between L (w + 1) (v + 1) = ops ++ [op] -> Forall2 edits ops es -> edits op e ->
  Forall (fits (length xs)) es -> fits (length xs) e -> flat xs ∨ Forall is_put es ->
  exists h' r, snapshot v (h, L) = ((h', with_snapshots L (<[v := r]> (l_snapshots L))), Ok r) ∧
    doc_of h' r (TArr (made (fold_left shown es xs) e)) ∧
    (flat xs ∨ is_put e -> doc_of h' s (TArr (fold_left shown (es ++ [e]) xs))).
Proof.
  intros HR Hv HB Hlt Hs HD Hp Eo HE He HF Hf Hfl. pose proof (reachable_consistent _ HR) as HC. cbn [snd] in HC.
  destruct (versions_of L HC) as [n Hn].
  destruct (ops_edits _ _ _ _ _ _ _ VNil HD HE He HF Hf Hfl) as (h' & r & E & H1 & H2). exists h', r. split; [|done].
  unfold snapshot. pose proof (find_latest_spec L v HC) as HX.
  destruct (find_latest L v) as [L1 [[w' s']| |]]; [|done|].
  2:{ exfalso. destruct HX as (-> & n' & Hn' & Hlt'). assert (n = n') as -> by (eapply version_count; [exact Hn|exact Hn']).
      rewrite Hn in Hv. unfold nats in Hv. apply elem_of_list_fmap in Hv as (i & -> & Hi). apply elem_of_seq in Hi. lia. }
  destruct HX as (-> & Hw & Hs' & Hmax & _).
  assert (w' = w) as ->. { apply (base_unique L v); [|done]. split; [by eexists|]. done. }
  assert (s' = s) as -> by congruence.
  destruct (N.eqb_spec w v) as [->|_]; [lia|].
  destruct (N.to_nat (v - w)) as [|d] eqn:Ed; [lia|].
  assert (Ev : v = (w + 1 + N.of_nat d)%N) by lia.
  assert (Eop : concat (map (patch_at L) (seqN (w + 1) (S d))) = ops ++ [op]).
  { rewrite <- Eo, seqN_ops. f_equal. lia. }
  rewrite replay_ops.
  2:{ rewrite fmap_last, seqN_last. cbn. rewrite <- Ev. congruence. }
  rewrite Eop, E.
  destruct (l_snapshots L !! v) eqn:En; [|done]. exfalso. destruct HB as (_ & _ & HB).
  assert (v <= w)%N by (apply HB; [by eexists|lia]). lia.
Qed.

Lemma set_edits ops : forall es h L xs, doc_of h (l_current L) (TArr xs) -> Forall2 edits ops es -> Forall is_put es ->
  exists h' cur, run (h, L) (map CSet ops) =
      (h', with_pool (with_current L cur) (match ops with [] => l_pool L | _ => Some (default [] (l_pool L) ++ ops) end)) ∧
    doc_of h' cur (TArr (fold_left made es xs)).
Proof.
  induction ops as [|o ops IH]; intros es h L xs HD HE HF.
  - apply Forall2_nil_inv_l in HE as ->. exists h, (l_current L). split; [by destruct L|done].
  - apply Forall2_cons_inv_l in HE as (e1 & es' & He1 & HE & ->). apply Forall_cons in HF as [Hp HF].
    assert (Hk : is_set (op_kind o) = true).
    { destruct He1 as [i idx p _ _ [-> | ->] _|]; done. }
    assert (Hf : fits (length xs) e1) by (by destruct e1).
    destruct (edit_step _ _ _ _ _ HD He1 Hf) as (h1 & r1 & Ea & H1 & _).
    assert (Es : set o (h, L) = ((h1, with_pool (with_current L r1) (Some (default [] (l_pool L) ++ [o]))), Ok tt)).
    { unfold set. by rewrite Hk, Ea. }
    destruct (IH es' h1 (with_pool (with_current L r1) (Some (default [] (l_pool L) ++ [o]))) _ H1 HE HF) as (h' & cur & E & H2).
    exists h', cur. split; [|exact H2].
    change (run (h, L) (map CSet (o :: ops))) with (run (run_call (h, L) (CSet o)) (map CSet ops)).
    replace (run_call (h, L) (CSet o)) with (h1, with_pool (with_current L r1) (Some (default [] (l_pool L) ++ [o]))) by (cbn [run_call]; by rewrite Es).
    rewrite E. f_equal. destruct L, ops; cbn; [done|]. do 2 f_equal. by rewrite <- app_assoc.
Qed.
