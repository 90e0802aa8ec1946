(** The temporal snapshots of the experiment's log. *)
From Verif Require Import Base BaseSpec BaseSpecLemmas F64 Tson TsonInd TsonSpec TextSpec F64Lemmas BaseLemmas TsonLemmas ConvLemmas Heap HeapSpec Patch Own PatchSpec TreePatch PatchLemmas
  Serial Logument LogSpec LogLemmas ChangeLemmas ReplaySpec ReplayLemmas SetLemmas CompactReplay Json Tjson TjsonSpec Initial InitialSpec Query QuerySpec.
From Coq Require Import Lia.

(** ** Applying a choice of operations, one per path *)
Lemma null_free_insert k c m : null_free c -> null_free (TObj m) -> null_free (TObj (ainsert k c m)).
Proof.
  intros Hc Hm. inversion Hm as [|? HF|]; subst. constructor. clear Hm.
  induction m as [|[k' c'] m IH]; cbn; [constructor; [done|constructor]|].
  inversion HF; subst. case_decide; constructor; try done. by apply IH.
Qed.
Lemma null_free_lookup k c m : null_free (TObj m) -> alookup k m = Some c -> null_free c.
Proof.
  intros Hm Hk. inversion Hm as [|? HF|]; subst. apply alookup_Some_in in Hk. rewrite Forall_forall in HF. exact (HF _ Hk).
Qed.
Lemma null_free_put ks : forall t lf, null_free t -> null_free lf -> null_free (put t ks lf).
Proof.
  induction ks as [|k ks IH]; intros t lf Ht Hl; destruct t as [| |m|]; try done.
  destruct ks as [|k2 ks]; [by apply null_free_insert|]. rewrite put_more. apply null_free_insert; [|done].
  apply IH; [|done]. unfold child_obj. destruct (alookup k m) as [c|] eqn:E; [|repeat constructor].
  pose proof (null_free_lookup _ _ _ Ht E) as Hc. destruct c; try done; constructor; constructor.
Qed.

Lemma apply_choice ops sel : forall d, good d ops -> null_free d -> (forall p, p ∈ sel -> p ∈ ops) -> NoDup (map op_path sel) ->
  exists d', papply d sel = (d', Ok tt) ∧ good d' ops ∧ null_free d' ∧
    (forall q, (forall p, p ∈ sel -> apart (keys (parts p)) q) -> at_path d' q = at_path d q) ∧
    (forall p, p ∈ sel -> exists x, payload (op_value p) x ∧ at_path d' (keys (parts p)) = Some (TLeaf x (op_ts p))).
Proof.
  induction sel as [|p sel IH]; intros d HG HN Hs HD.
  - exists d. do 4 (split; [done|]). by intros p ?%elem_of_nil.
  - assert (Hp : p ∈ ops) by (apply Hs, elem_of_list_here). pose proof HG as [G1 G2].
    destruct (G1 p Hp) as (Hw & [x Hx] & Hf).
    pose proof (ptrav_put p x _ d Hf (writes_set _ Hw) (payload_scalar _ _ Hx)) as E.
    destruct (put_set_at p x d (parts p) Hf (writes_set _ Hw) (payload_scalar _ _ Hx)) as (_ & S2 & S3 & _).
    apply NoDup_cons in HD as [HD1 HD2].
    destruct (IH (put d (parts p) (TLeaf x (op_ts p)))) as (d' & E' & HG' & HN' & Hq & Hl).
    + by apply good_put.
    + apply null_free_put; [done|constructor].
    + intros q Hq. apply Hs. by apply elem_of_list_further.
    + done.
    + exists d'. split; [cbn [papply]; by rewrite E|]. split; [done|]. split; [done|]. split.
      * intros q H. rewrite Hq by (intros r Hr; apply H; by apply elem_of_list_further). apply S3, H, elem_of_list_here.
      * intros r Hr. apply elem_of_cons in Hr as [->|Hr]; [|by apply Hl]. exists x. split; [done|].
        rewrite Hq; [done|]. intros r Hr. destruct (G2 r p) as [Ep|Hap]; [apply Hs; by apply elem_of_list_further|done| |done].
        exfalso. apply HD1. rewrite <- Ep. apply elem_of_list_fmap. by exists r.
Qed.

(** ** Queries at ascending times *)
Definition fresh (ops : list operation) (d0 : tson) (t : Z) (d : tson) : Prop :=
  forall q, (forall p, p ∈ ops -> op_ts p <= t -> apart (keys (parts p)) q) -> at_path d q = at_path d0 q.
Lemma fresh_later ops d0 t t' d : t <= t' -> fresh ops d0 t d -> fresh ops d0 t' d.
Proof. intros Hle HF q Hq. apply HF. intros p Hp Hpt. apply Hq; [done|lia]. Qed.
(** One version at most, with the operations in any order. *)
Definition staged (ops : list operation) (L : logument) : Prop :=
  (l_version L = [0%N] ∧ l_patches L = ∅ ∧ exists ps, l_pool L = Some ps ∧ ps ≡ₚ ops) ∨
  (l_version L = [0%N; 1%N] ∧ l_pool L = None ∧ exists ps, l_patches L = {[ 1%N := ps ]} ∧ ps ≡ₚ ops
     ∧ StronglySorted (fun p q => op_ts p <= op_ts q) ps).
Record querying (ops : list operation) (l : loc) (d0 : tson) (t : Z) (st : state) (d : tson) : Prop := Querying {
  qu_snap : l_snapshots (snd st) = {[ 0%N := VObj l ]};
  qu_stage : staged ops (snd st);
  qu_doc : doc_of (fst st) (VObj l) d;
  qu_null : null_free d;
  qu_good : good d ops;
  qu_fresh : fresh ops d0 t d
}.
(** What a query leaves. *)
Definition answered (ops : list operation) (d0 : tson) (t : Z) (d : tson) : Prop :=
  fresh ops d0 t d ∧
  forall p, p ∈ ops -> op_ts p <= t -> exists p' x, p' ∈ ops ∧ op_path p' = op_path p ∧ op_ts p' <= t ∧
    (forall q, q ∈ ops -> op_path q = op_path p -> op_ts q <= t -> op_ts q <= op_ts p') ∧
    payload (op_value p') x ∧ at_path d (keys (parts p)) = Some (TLeaf x (op_ts p')).

Lemma sorted_keys_zero (v : val) : sorted_keys {[ 0%N := v ]} = [0%N].
Proof. unfold sorted_keys. by rewrite map_to_list_singleton. Qed.
Lemma pick_zero h L l d t : l_snapshots L = {[ 0%N := VObj l ]} -> doc_of h (VObj l) d -> null_free d ->
  pick_snapshot h L t (sorted_keys (l_snapshots L)) 0 = Ok 0%N.
Proof.
  intros HS HD HN. rewrite HS, sorted_keys_zero. cbn [pick_snapshot]. rewrite HS, lookup_singleton. cbn [default from_option id].
  unfold latest_ts_of. rewrite (read_doc _ _ _ HD).
  destruct (latest_contributes d HN) as (z & [E _] & _). rewrite E. cbn. by destruct (z <=? t).
Qed.
Lemma temporal_step orc t ops l d0 st d : oracle_ok orc -> querying ops l d0 t st d ->
  exists st' r d', temporal_snapshot orc t st = (st', Ok r) ∧ querying ops l d0 t st' d' ∧
    answered ops d0 t d' ∧
    ((forall p, p ∈ ops -> t < op_ts p) -> r = VNil) ∧
    ((exists p, p ∈ ops ∧ op_ts p <= t) -> r = VObj l) ∧ l_version (snd st') = [0%N; 1%N].
Proof.
  intros HO HQ. destruct st as [h L]. destruct HQ as [HS HG HD HN Hgood HF]. cbn [fst snd] in *.
  assert (HM : forall ps L1, ps ≡ₚ ops -> l_patches L1 = {[ 1%N := ps ]} -> l_snapshots L1 = {[ 0%N := VObj l ]} ->
    l_version L1 = [0%N; 1%N] -> l_pool L1 = None ->
    let L2 := with_patches L1 (<[1%N := or_sort orc ps]> (l_patches L1)) in
    exists h' r d', apply_patch h (VObj l) (map snd (or_ops orc (fold_left (keep_latest t) (or_sort orc ps) []))) = (h', Ok r) ∧
      querying ops l d0 t (h', L2) d' ∧ answered ops d0 t d' ∧
      ((forall p, p ∈ ops -> t < op_ts p) -> r = VNil) ∧ ((exists p, p ∈ ops ∧ op_ts p <= t) -> r = VObj l) ∧ l_version L2 = [0%N; 1%N]).
  { intros ps L1 HP EL ES EV EP L2. destruct HO as (HO1 & HO2 & _). destruct (HO1 ps) as [Hperm Hsort].
    assert (Hko : kept_ok t (or_sort orc ps) (fold_left (keep_latest t) (or_sort orc ps) [])).
    { apply (keep_latest_fold t (or_sort orc ps) []). split; [constructor|]. split; [by intros k p ?%elem_of_nil|by intros q ?%elem_of_nil]. }
    pose proof (latest_of_kept t ops (or_sort orc ps) _ _ (Permutation_trans Hperm HP) Hko (HO2 _)) as (Hl1 & Hl2 & Hl3).
    remember (map snd (or_ops orc (fold_left (keep_latest t) (or_sort orc ps) []))) as sel eqn:Esel. clear Esel Hko.
    destruct (apply_choice ops sel d Hgood HN (fun p Hp => proj1 (Hl2 p Hp)) Hl1) as (d' & E & HG' & HN' & Hq & Hv).
    destruct (apply_patch h (VObj l) sel) as [h' r] eqn:Ea. pose proof (apply_patch_doc _ _ _ _ _ _ HD Ea) as HX.
    rewrite E in HX. destruct r as [r| |]; try done. destruct HX as [HD' ->].
    assert (HF' : fresh ops d0 t d').
    { intros q Hqa. rewrite Hq; [by apply HF|]. intros p Hp. destruct (Hl2 p Hp) as (Hin & Hle & _). by apply Hqa. }
    exists h', (if decide (sel = []) then VNil else VObj l), d'. split; [done|]. split; [|split; [|split; [|split; [|done]]]].
    - split; cbn [fst snd]; try done. right. split; [done|]. split; [done|]. exists (or_sort orc ps). split; [|by split; [etrans|]].
      unfold L2. cbn [with_patches l_patches]. by rewrite EL, insert_singleton.
    - split; [done|]. intros p Hp Hpt. destruct (Hl3 p Hp Hpt) as (p' & Hp' & Epath). destruct (Hl2 p' Hp') as (Hin & Hle & Hmax).
      destruct (Hv p' Hp') as (x & Hx & Hat). exists p', x. split; [done|]. split; [done|]. split; [done|].
      split; [by rewrite <- Epath|]. split; [done|]. by rewrite <- Epath.
    - intros Hnone. rewrite decide_True; [done|]. destruct sel as [|p sel]; [done|]. exfalso.
      destruct (Hl2 p (elem_of_list_here _ _)) as (Hin & Hle & _). specialize (Hnone p Hin). lia.
    - intros (p & Hp & Hpt). rewrite decide_False; [done|]. intros ->. destruct (Hl3 p Hp Hpt) as (p' & Hp' & _). by apply elem_of_nil in Hp'. }
  unfold temporal_snapshot.
  destruct HG as [(EV & EP & ps & EO & HP)|(EV & EO & ps & EP & HP & _)]; unfold last_version; rewrite EV; cbn [last].
  - rewrite (pick_zero h L l d t HS HD HN). change (0 <=? 0)%N with true. cbv iota. rewrite EO, HS, lookup_singleton. cbn [default from_option id].
    assert (Eap : exists L1, append (h, L) = ((h, L1), Ok tt) ∧ l_patches L1 = {[ 1%N := ps ]} ∧ l_snapshots L1 = {[ 0%N := VObj l ]}
      ∧ l_version L1 = [0%N; 1%N] ∧ l_pool L1 = None).
    { unfold append, is_grown, last_version. rewrite EV, EO, EP. eexists. split; [reflexivity|]. by rewrite <- HS. }
    destruct Eap as (L1 & -> & EL & ES & EV1 & EO1). change (0 + 1)%N with 1%N.
    destruct (HM ps L1 HP EL ES EV1 EO1) as (h' & r & d' & E & HR).
    unfold patch_at. rewrite EL, lookup_singleton. cbn [default from_option id with_patches l_patches].
    rewrite lookup_insert. cbn [default from_option id]. rewrite E. eexists _, r, d'. split; [reflexivity|]. rewrite EL in HR. exact HR.
  - rewrite (pick_zero h L l d t HS HD HN). change (1 <=? 0)%N with false. cbv iota. rewrite HS, lookup_singleton. cbn [default from_option id].
    change (0 + 1)%N with 1%N.
    destruct (HM ps L HP EP HS EV EO) as (h' & r & d' & E & HR).
    unfold patch_at. rewrite EP, lookup_singleton. cbn [default from_option id with_patches l_patches].
    rewrite lookup_insert. cbn [default from_option id]. rewrite E. eexists _, r, d'. split; [reflexivity|]. rewrite EP in HR. exact HR.
Qed.
Definition reported (ops : list operation) (d0 : tson) (t : Z) (r : tson) : Prop :=
  ((forall p, p ∈ ops -> t < op_ts p) -> r = TNil) ∧
  ((exists p, p ∈ ops ∧ op_ts p <= t) -> answered ops d0 t r).
Lemma run_ok ops l d0 qs : forall t0 st d, querying ops l d0 t0 st d ->
  Forall (fun q => oracle_ok (fst q)) qs -> StronglySorted Z.le (t0 :: map snd qs) ->
  exists st' ds, snapshot_run qs st = (st', Ok ds) ∧ Forall2 (fun q => reported ops d0 (snd q)) qs ds ∧
    (exists t d', querying ops l d0 t st' d') ∧
    (qs <> [] ∨ l_version (snd st) = [0%N; 1%N] -> l_version (snd st') = [0%N; 1%N]).
Proof.
  induction qs as [|[orc t] qs IH]; intros t0 st d HQ HO HS.
  - exists st, []. split; [done|]. split; [constructor|]. split; [by exists t0, d|]. by intros [?|?].
  - inversion HO as [|? ? HO1 HO2]; subst. cbn [map] in HS. inversion HS as [|? ? HS1 HS2]; subst. cbn [fst snd] in *.
    assert (Hle : t0 <= t) by (by inversion HS2). destruct HQ as [Q1 Q2 Q3 Q4 Q5 Q6].
    assert (HQ : querying ops l d0 t st d) by (split; try done; by apply (fresh_later _ _ t0)).
    destruct (temporal_step _ _ _ _ _ _ _ HO1 HQ) as (st1 & r & d1 & E & HQ1 & HA & Hnil & Hobj & HV1).
    destruct (IH t st1 d1 HQ1 HO2 HS1) as (st2 & ds & E2 & HF & HL & HV).
    assert (HR : exists x, read (fst st1) r = Some x ∧ reported ops d0 t x).
    { pose proof (read_doc _ _ _ (qu_doc _ _ _ _ _ _ HQ1)) as Er.
      assert (Hdec : (forall p, p ∈ ops -> t < op_ts p) ∨ (exists p, p ∈ ops ∧ op_ts p <= t)).
      { clear. induction ops as [|p ops IH]; [left; by intros p ?%elem_of_nil|].
        destruct (Z.le_gt_cases (op_ts p) t); [right; exists p; split; [apply elem_of_list_here|done]|].
        destruct IH as [IH|(q & Hq & Hqt)]; [left|right; exists q; split; [by apply elem_of_list_further|done]].
        intros q Hq. apply elem_of_cons in Hq as [->|Hq]; [lia|by apply IH]. }
      destruct Hdec as [Hd|Hd].
      - exists TNil. rewrite (Hnil Hd). split; [unfold read; by destruct (length (fst st1))|]. split; [done|].
        intros (p & Hp & Hpt). specialize (Hd p Hp). lia.
      - exists d1. rewrite (Hobj Hd). split; [done|]. split; [|done]. intros Hn. destruct Hd as (p & Hp & Hpt). specialize (Hn p Hp). lia. }
    destruct HR as (x & Ex & HR). exists st2, (x :: ds). cbn [snapshot_run]. rewrite E, Ex, E2. split; [done|].
    split; [by apply List.Forall2_cons|]. split; [done|]. intros _. apply HV. by right.
Qed.

(** ** The experiment's log *)
Lemma free_of_spells l : l <> [] -> Forall path_name l -> spells (String.concat "." l) l.
Proof.
  assert (HE : forall k, path_name k -> escaped k = k ∧ plain k).
  { intros k Hk. unfold path_name in Hk. split.
    - induction Hk as [|a s Ha Hs IH]; [done|]. change (escaped (String a s)) with
        ((if decide (a = "~"%char) then "~0" else if decide (a = "/"%char) then "~1" else String a "") +++ escaped s).
      rewrite decide_False by (intros ->; apply Ha; simpl; auto). rewrite decide_False by (intros ->; apply Ha; simpl; auto).
      by rewrite IH.
    - assert (HC : forall c, In c ["/"; "."; "~"]%char -> ~ has_char c k).
      { intros c Hc (x & y & E). subst k. induction x as [|b x IH]; cbn in Hk; inversion Hk; subst; [done|]. by apply IH. }
      split; apply HC; simpl; auto. }
  induction l as [|k l IH]; intros Hne HF; [done|]. inversion HF as [|? ? Hk HF']; subst. destruct (HE k Hk) as [E Hp].
  destruct l as [|k2 l]; [cbn; rewrite <- E at 1; by constructor|].
  change (String.concat "." (k :: k2 :: l)) with (k +++ String dot (String.concat "." (k2 :: l))).
  rewrite <- E at 1. apply sp_more; [done|by right|]. by apply IH.
Qed.

Lemma at_stamp l : forall j, at_path (stamp_json j) (keys l) = stamp_json <$> below l j.
Proof.
  induction l as [|k l IH]; intros j; [done|]. cbn [map below]. destruct j as [| | | |xs|m]; try done.
  cbn [stamp_json]. rewrite at_key. rewrite alookup_map. destruct (alookup k m) as [v|]; [|done]. cbn. apply IH.
Qed.
Lemma stamp_scalar v : scalar v -> v ≠ JNull -> exists x, stamp_json v = TLeaf x (-1) ∧ json_of_prim x = v.
Proof.
  intros Hs Hn. destruct v as [|b|f|s|xs|m]; [done|by eexists|by eexists|by eexists|..].
  - destruct Hs. right. by eexists.
  - destruct Hs. left. by eexists.
Qed.

Section log.
Context (m : list (string * json)) (us : list tpatch).
Context (Hnamed : named path_name (JObj m)) (Hnull : jnull_free (JObj m) = true).
Context (Hus : forall u, u ∈ us -> exists l, updates m u l).
Notation d0 := (stamp_json (JObj m)).
Notation ops := (map operation_of us).

Lemma named_below l : forall j v, named path_name j -> below l j = Some v -> Forall path_name l.
Proof.
  induction l as [|k l IH]; intros j v Hn Hb; [constructor|]. cbn [below] in Hb. destruct j as [| | | | |m']; try done.
  destruct (alookup k m') as [c|] eqn:Ek; [|done]. apply alookup_Some_in in Ek.
  inversion Hn as [? Hs|?|? _ HF1 HF2]; subst; [destruct Hs; left; by eexists|].
  rewrite List.Forall_forall in HF1, HF2. constructor.
  - apply HF1, elem_of_list_In. apply elem_of_list_fmap. by exists (k, c).
  - apply (IH c v); [|done]. by apply (HF2 (k, c)), elem_of_list_In.
Qed.
Lemma below_null l : forall j v, jnull_free j = true -> below l j = Some v -> jnull_free v = true.
Proof.
  clear. induction l as [|k l IH]; intros j v Hn Hb; [cbn in Hb; congruence|]. cbn [below] in Hb. destruct j as [| | | | |m']; try done.
  destruct (alookup k m') as [c|] eqn:Ek; [|done]. apply alookup_Some_in in Ek.
  cbn [jnull_free] in Hn. apply (IH c v); [|done]. rewrite forallb_forall in Hn. apply (Hn (k, c)). by apply elem_of_list_In.
Qed.
Lemma below_ne l v : below l (JObj m) = Some v -> scalar v -> l <> [].
Proof. intros Hb Hs ->. cbn in Hb. injection Hb as <-. apply Hs. left. by eexists. Qed.
Lemma below_spells l v : below l (JObj m) = Some v -> scalar v -> op_parts (String.concat "." l) = l.
Proof.
  intros Hb Hs. apply spells_parts, free_of_spells; [by eapply below_ne|]. by eapply named_below.
Qed.
Lemma below_apart l l' : forall j v v', below l j = Some v -> scalar v -> below l' j = Some v' -> scalar v' ->
  l = l' ∨ apart (keys l) (keys l').
Proof.
  revert l'. induction l as [|k l IH]; intros l' j v v' Hb Hs Hb' Hs'.
  - cbn in Hb. injection Hb as ->. destruct l' as [|k' l']; [by left|]. exfalso. cbn in Hb'. destruct v; try done. apply Hs. left. by eexists.
  - destruct l' as [|k' l'].
    + exfalso. cbn in Hb'. injection Hb' as ->. cbn in Hb. destruct v'; try done. apply Hs'. left. by eexists.
    + cbn [below] in Hb, Hb'. destruct j as [| | | | |m']; try done. cbn [map]. destruct (decide (k = k')) as [<-|Hne].
      * destruct (alookup k m') as [c|]; [|done]. destruct (IH l' c v v' Hb Hs Hb' Hs') as [->|[H1 H2]]; [by left|].
        right. split; intros Hp; apply prefix_cons_inv_2 in Hp; done.
      * right. split; intros Hp; apply prefix_cons_inv_1 in Hp; congruence.
Qed.
Lemma below_free l : forall j v, below l j = Some v -> l <> [] -> free_way (stamp_json j) l.
Proof.
  induction l as [|k l IH]; intros j v Hb Hne; [done|]. cbn [below] in Hb. destruct j as [| | | | |m']; try done.
  destruct (alookup k m') as [c|] eqn:Ek; [|done]. cbn [stamp_json]. destruct l as [|k2 l]; [constructor|].
  apply (fw_in _ _ (stamp_json c)); [by rewrite alookup_map, Ek|]. by apply (IH c v).
Qed.
Lemma null_stamp j : jnull_free j = true -> null_free (stamp_json j).
Proof.
  induction j as [|b|f|s|xs IH|m' IH] using json_ind'; intros Hn; try done; try constructor.
  - apply Forall_fmap. cbn [jnull_free] in Hn. induction IH as [|x l Hx IH IHl]; [constructor|].
    cbn in Hn. apply andb_true_iff in Hn as [Hn1 Hn2]. constructor; [cbn; by apply Hx|by apply IHl].
  - apply Forall_fmap. cbn [jnull_free] in Hn. induction IH as [|x l Hx IH IHl]; [constructor|].
    cbn in Hn. apply andb_true_iff in Hn as [Hn1 Hn2]. constructor; [cbn; by apply Hx|by apply IHl].
Qed.
Lemma update_payload u l : updates m u l -> exists x, payload (op_value (operation_of u)) x ∧ json_of_prim x = tp_value u.
Proof.
  intros (_ & _ & Hs & Hn & _). cbn. destruct (tp_value u) as [|b|f|s|xs|m'] eqn:E; [done|..].
  1-3: eexists; split; [constructor|done].
  - destruct Hs. right. by eexists.
  - destruct Hs. left. by eexists.
Qed.
Lemma update_writes u l : updates m u l -> writes (operation_of u).
Proof. intros [[E|E] _]; unfold writes, operation_of; cbn [op_kind]; rewrite E; [by left|by right]. Qed.
Lemma update_parts u l : updates m u l -> parts (operation_of u) = l.
Proof.
  intros (_ & E & _ & _ & v & Hb & Hs). unfold operation_of. cbn [op_path]. rewrite E. by eapply below_spells.
Qed.
Lemma ops_good : good d0 ops.
Proof.
  split.
  - intros p Hp. apply elem_of_list_fmap in Hp as (u & -> & Hu). destruct (Hus u Hu) as [l Hl].
    split; [by eapply update_writes|]. split; [destruct (update_payload _ _ Hl) as (x & Hx & _); by exists x|].
    rewrite (update_parts _ _ Hl). destruct Hl as (_ & _ & _ & _ & v & Hb & Hs). apply (below_free l _ v); [done|by eapply below_ne].
  - intros p q Hp Hq. apply elem_of_list_fmap in Hp as (u & -> & Hu). apply elem_of_list_fmap in Hq as (u' & -> & Hu').
    destruct (Hus u Hu) as [l Hl], (Hus u' Hu') as [l' Hl']. rewrite (update_parts _ _ Hl), (update_parts _ _ Hl').
    destruct Hl as (_ & E & _ & _ & v & Hb & Hs), Hl' as (_ & E' & _ & _ & v' & Hb' & Hs').
    destruct (below_apart l l' _ v v' Hb Hs Hb' Hs') as [->|Hap]; [left; unfold operation_of; cbn [op_path]; congruence|by right].
Qed.
Lemma answered_state t d : answered ops d0 t d -> state_at m d0 us t d.
Proof.
  intros [HF HA].
  assert (HU : forall q, untouched us m t q -> at_path d q = at_path d0 q).
  { intros q Hq. apply HF. intros p Hp Hpt. apply elem_of_list_fmap in Hp as (u & -> & Hu). destruct (Hus u Hu) as [l Hl].
    rewrite (update_parts _ _ Hl). by apply (Hq u l). }
  split; [|done]. intros l v w z Hb Hs Hst. inversion Hst as [Hnone|u Hu Hp Hle Hlast]; subst.
  - rewrite HU.
    + rewrite at_stamp, Hb. cbn. destruct (stamp_scalar w Hs) as (x & Ex & Hx); [|rewrite Ex; by exists x].
      intros ->. by apply (below_null _ _ _ Hnull) in Hb.
    + intros u l' Hu Hle Hl'. destruct Hl' as (_ & E & _ & _ & v' & Hb' & Hs').
      destruct (below_apart l' l _ v' w Hb' Hs' Hb Hs) as [->|Hap]; [|done]. specialize (Hnone u Hu E). lia.
  - destruct (HA (operation_of u)) as (p' & x & Hp' & Epath & Hle' & Hmax & Hx & Hat); [apply elem_of_list_fmap; by exists u|done|].
    apply elem_of_list_fmap in Hp' as (u' & -> & Hu'). unfold operation_of in Epath, Hle'. cbn [op_path op_ts] in Epath, Hle'.
    assert (u' = u) as ->.
    { destruct (Hlast u' Hu') as [->|Hlt]; [congruence|done|done|].
      specialize (Hmax (operation_of u)). unfold operation_of in Hmax. cbn [op_path op_ts] in Hmax.
      assert (tp_ts u <= tp_ts u'); [|lia]. apply Hmax; [apply elem_of_list_fmap; by exists u|done|done]. }
    destruct (Hus u Hu) as [l' Hl']. pose proof (update_parts _ _ Hl') as El'.
    assert (l' = l) as ->.
    { rewrite <- El'. unfold operation_of. cbn [op_path]. rewrite Hp. by eapply below_spells. }
    rewrite El' in Hat. exists x. split; [exact Hat|].
    destruct (update_payload _ _ Hl') as (y & Hy & Ey). by rewrite (payload_fun _ _ _ Hx Hy).
Qed.
Lemma reported_state t r : reported ops d0 t r ->
  ((forall u, u ∈ us -> t < tp_ts u) -> r = TNil) ∧ ((exists u, u ∈ us ∧ tp_ts u <= t) -> state_at m d0 us t r).
Proof.
  intros [H1 H2]. split.
  - intros Hn. apply H1. intros p Hp. apply elem_of_list_fmap in Hp as (u & -> & Hu). by apply Hn.
  - intros (u & Hu & Hle). apply answered_state, H2. exists (operation_of u). split; [apply elem_of_list_fmap; by exists u|done].
Qed.
Lemma create_ok T file h : transform file = JObj m -> json_encodable (JObj m) = true ->
  exists h' L l, create_logument T file us h = (h', Ok L) ∧ forall t, querying ops l d0 t (h', L) d0.
Proof.
  intros Ef He. unfold create_logument. rewrite Ef, from_json_spec by (done || (left; by eexists)). rewrite Hnull.
  destruct (alloc_tree h d0) as [h' v] eqn:Ea. pose proof (alloc_tree_doc _ _ _ _ Ea) as HD.
  assert (Hv : exists l, v = VObj l).
  { destruct HD as (lt & _ & Hr & Hl). cbn [stamp_json] in Hl. destruct lt; try done. cbn in Hr. by eexists. }
  destruct Hv as [l ->]. eexists h', _, l. split; [reflexivity|]. intros t. split; try done.
  - left. split; [done|]. split; [done|]. by exists ops.
  - by apply null_stamp.
  - apply ops_good.
Qed.
End log.

Lemma snapshot_log_run T file m us h qs :
  transform file = JObj m -> named path_name (JObj m) -> json_encodable (JObj m) = true -> jnull_free (JObj m) = true ->
  (forall u, u ∈ us -> exists l, updates m u l) ->
  Forall (fun q => oracle_ok (fst q)) qs -> StronglySorted Z.le (map snd qs) ->
  exists h' L d0 st ds, create_logument T file us h = (h', Ok L) ∧ plain_json d0 = JObj m ∧ every_stamp (fun z => z = -1) d0 ∧
    snapshot_run qs (h', L) = (st, Ok ds) ∧
    Forall2 (fun q d => ((forall u, u ∈ us -> snd q < tp_ts u) -> d = TNil) ∧
                        ((exists u, u ∈ us ∧ tp_ts u <= snd q) -> state_at m d0 us (snd q) d)) qs ds.
Proof.
  intros Ef Hnamed He Hnull Hus HO HS. destruct (create_ok m us Hnamed Hnull Hus T file h Ef He) as (h' & L & l & E & HQ).
  assert (HS' : exists t0, StronglySorted Z.le (t0 :: map snd qs)).
  { destruct qs as [|[o t] qs]; [exists 0; by repeat constructor|]. exists t. cbn [map snd] in *.
    inversion HS; subst. constructor; [done|]. constructor; [lia|done]. }
  destruct HS' as [t0 HS']. destruct (run_ok _ _ _ _ _ _ _ (HQ t0) HO HS') as (st & ds & Er & HF & _).
  exists h', L, (stamp_json (JObj m)), st, ds. split; [done|]. split; [apply plain_stamp|]. split; [apply stamp_default|]. split; [done|].
  eapply Forall2_impl; [exact HF|]. intros q d Hr. by apply (reported_state m us Hnamed Hnull Hus).
Qed.
