(** When [TemporalSnapshot] fails. *)
From Verif Require Import Base BaseSpec BaseSpecLemmas F64 Tson TsonSpec BaseLemmas TsonLemmas Heap HeapSpec Patch Own PatchSpec TreePatch PatchLemmas
  Logument LogSpec LogLemmas ChangeLemmas CompactLemmas ReplaySpec ReplayLemmas SetLemmas.
From Coq Require Import Lia.

Lemma pick_fails h L ts vs : forall acc, (forall v, v ∈ vs -> snapped L v) ->
  (forall w, pick_snapshot h L ts vs acc <> Ok w) ->
  exists a u b, vs = a ++ u :: b ∧ Forall (by_time h L ts) a ∧
    forall z, latest_ts_of h (default VNil (l_snapshots L !! u)) <> Ok z.
Proof.
  induction vs as [|v vs IH]; intros acc HS E; cbn in E; [by destruct (E acc)|].
  destruct (latest_ts_of _ _) as [lts| |] eqn:El; [|by exists [], v, vs; rewrite El..]. cbn in E.
  pose proof (by_time_iff h L ts v lts (HS v (elem_of_list_here _ _)) El) as Hbt.
  destruct (Z.leb_spec lts ts) as [Hle|Hgt]; [|by destruct (E acc)].
  destruct (IH v) as (a & u & b & -> & HF & Hu); [intros x Hx; apply HS; by apply elem_of_list_further|done|].
  exists (v :: a), u, b. split; [done|]. split; [constructor; [by apply Hbt|done]|done].
Qed.

Lemma temporal_fails orc ts h L : reachable (h, L) -> oracle_ok orc ->
  match temporal_snapshot orc ts (h, L) with
  | (_, Ok _) => True
  | (_, Err) => False
  | ((h', L'), Panic) =>
      (h' = h ∧ L' = L ∧ exists u s, l_snapshots L !! u = Some s ∧
         (forall u', snapped L u' -> (u' < u)%N -> by_time h L ts u') ∧
         (forall t z, read h s = Some t -> latest_timestamp t <> Ok z))
      ∨ (exists n w s ops sel e, last (l_version L) = Some n ∧ chosen h L ts w ∧ l_snapshots L !! w = Some s ∧
         (if decide (w = n) then l_pool L else l_patches L !! (w + 1)%N) = Some ops ∧
         latest_per_path ts ops sel ∧ apply_patch h s sel = (h', e) ∧ forall r, e <> Ok r)
  end.
Proof.
  intros HR HO. pose proof (reachable_consistent _ HR) as HC. cbn [snd] in HC.
  unfold temporal_snapshot. pose proof HC as (n & Hv & Hp & Hs & _).
  assert (Hlast : last_version L = Some (N.of_nat n)) by (by apply consistent_last).
  rewrite Hlast, Hv. cbn [seq map]. change (N.of_nat 0) with 0%N.
  assert (HP : (forall w, pick_snapshot h L ts (sorted_keys (l_snapshots L)) 0 <> Ok w) ->
    exists u s, l_snapshots L !! u = Some s ∧ (forall u', snapped L u' -> (u' < u)%N -> by_time h L ts u') ∧
         (forall t z, read h s = Some t -> latest_timestamp t <> Ok z)).
  { intros Hno. destruct (pick_fails _ _ _ _ _ (fun v => proj1 (sorted_keys_elem (l_snapshots L) v)) Hno) as (a & u & b & E & HF & Hu).
    pose proof (sorted_keys_sorted (l_snapshots L)) as HSo. pose proof (sorted_keys_nodup (l_snapshots L)) as HN. rewrite E in HSo, HN.
    assert (Hin : snapped L u) by (apply sorted_keys_elem; rewrite E; apply elem_of_app; right; apply elem_of_list_here).
    destruct Hin as [s Hus]. exists u, s. split; [done|]. split.
    - intros u' Hu' Hlt. apply sorted_keys_elem in Hu'. rewrite E in Hu'. rewrite Forall_forall in HF. apply HF.
      by apply (sorted_split a u b u' HSo HN Hu').
    - intros t z Hr Hz. apply (Hu z). rewrite Hus. cbn. unfold latest_ts_of. by rewrite Hr. }
  destruct (pick_snapshot _ _ _ _ _) as [w| |] eqn:Epk.
  2-3: left; split; [done|]; split; [done|]; by apply HP.
  clear HP. destruct (pick_chosen h L ts w HC Epk) as [[s Hws] Hch]. assert (Hwn : (w <= N.of_nat n)%N) by (apply Hs; by eexists).
  rewrite Hws. change (default VNil (Some s)) with s.
  assert (HG : forall L1 ops, l_patches L1 !! (w + 1)%N = Some ops ->
     let L2 := match l_patches L1 !! (w + 1)%N with
         | Some _ => with_patches L1 (<[(w + 1)%N := or_sort orc (patch_at L1 (w + 1))]> (l_patches L1))
         | None => L1 end in
     match match apply_patch h s (map snd (or_ops orc (fold_left (keep_latest ts) (patch_at L2 (w + 1)) []))) with
     | (h1, Ok t) => ((h1, L2) : state, Ok t)
     | (h1, _) => ((h1, L2), Panic)
     end with
     | (_, Ok _) => True
     | (_, Err) => False
     | ((h', L'), Panic) => exists sel e, latest_per_path ts ops sel ∧ apply_patch h s sel = (h', e) ∧ forall r, e <> Ok r
     end).
  { intros L1 ops EL1. cbv zeta. rewrite EL1. unfold patch_at. cbn [l_patches with_patches].
    rewrite lookup_insert, EL1. cbn [from_option id default].
    destruct (proj1 HO ops) as [Hperm _].
    assert (Hko : kept_ok ts (or_sort orc ops) (fold_left (keep_latest ts) (or_sort orc ops) [])).
    { apply (keep_latest_fold ts (or_sort orc ops) []). split; [constructor|]. split; [by intros k p ?%elem_of_nil|by intros q ?%elem_of_nil]. }
    pose proof (latest_of_kept _ _ _ _ _ Hperm Hko (proj1 (proj2 HO) _)) as HK.
    destruct (apply_patch h s _) as [h1 [t| |]] eqn:Eap; [done|..]; (eexists; eexists; split; [exact HK|]; split; [exact Eap|done]). }
  destruct (N.leb_spec (N.of_nat n) w) as [Hle|Hlt].
  - assert (w = N.of_nat n) as -> by lia. destruct (append_cases h L HC) as [_ HA].
    destruct (l_pool L) as [pp|] eqn:Epool; [|done].
    destruct HA as (n' & Hn' & _ & HA). assert (n' = n) as -> by (by eapply version_count).
    destruct (append (h, L)) as [[ha La] ra]. cbn in HA. injection HA as _ ->.
    specialize (HG (Lgm (nats (S (S n))) (l_current L) (l_snapshots L) (<[(N.of_nat n + 1)%N:=pp]> (l_patches L)) None) pp (lookup_insert _ _ _)).
    cbv zeta in HG. revert HG. destruct (apply_patch _ _ _) as [h1 [r| |]]; intros HG; [done|..]; right; 
      destruct HG as (sel & e & H); exists (N.of_nat n), (N.of_nat n), s, pp, sel, e;
      (split; [rewrite <- Hlast; unfold last_version; by rewrite Hv|]); (split; [done|]); (split; [done|]); (split; [by rewrite decide_True|done]).
  - destruct (l_patches L !! (w + 1)%N) as [ops|] eqn:Eops.
    2:{ assert (HI : is_Some (l_patches L !! (w + 1)%N)) by (apply Hp; lia). rewrite Eops in HI. by destruct HI. }
    specialize (HG L ops Eops). cbv zeta in HG. rewrite Eops in HG.
    revert HG. destruct (apply_patch _ _ _) as [h1 [r| |]]; intros HG; [done|..]; right; 
      destruct HG as (sel & e & H); exists (N.of_nat n), w, s, ops, sel, e;
      (split; [rewrite <- Hlast; unfold last_version; by rewrite Hv|]); (split; [done|]); (split; [done|]); (split; [by rewrite decide_False by lia|done]).
Qed.
