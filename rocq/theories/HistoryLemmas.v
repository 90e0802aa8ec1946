(** History. *)
From Verif Require Import Base BaseSpec BaseSpecLemmas F64 Tson Serial Heap Patch Logument LogSpec BaseLemmas F64Lemmas LogLemmas
  ChangeLemmas CompactLemmas.
From Coq Require Import Lia.

Lemma push_history_lookup l m k :
  alookup k (fold_left push_history l m) =
  match alookup k m, filter (fun p => op_path p = k) l with
  | None, [] => None
  | o, ps => Some (default [] o ++ ps)
  end.
Proof.
  revert m. induction l as [|p l IH]; intros m; cbn [fold_left].
  - change (filter _ []) with (@nil operation). destruct (alookup k m); [|done]. cbn. by rewrite app_nil_r.
  - rewrite IH. unfold push_history. rewrite alookup_ainsert, filter_cons.
    destruct (decide (k = op_path p)) as [->|Hne].
    + rewrite decide_True by done. cbn [default]. 
      destruct (alookup (op_path p) m); cbn; by rewrite <- ?app_assoc.
    + rewrite decide_False by done. done.
Qed.
Lemma filter_bool (f : operation -> bool) (P : operation -> Prop) {HPd : forall p, Decision (P p)} l :
  (forall p, f p = true <-> P p) -> List.filter f l = filter P l.
Proof.
  intros H. induction l as [|p l IH]; [done|]. cbn [List.filter]. rewrite filter_cons, IH.
  destruct (f p) eqn:E.
  - by rewrite decide_True by (by apply H).
  - rewrite decide_False; [done|]. intros Hp. apply H in Hp. congruence.
Qed.
Lemma collect_history_lookup target pss k :
  alookup k (collect_history target pss) =
  match filter (fun p => op_path p = k) (filter (under target) (concat pss)) with
  | [] => None
  | ps => Some ps
  end.
Proof.
  unfold collect_history. rewrite push_history_lookup. cbn [alookup].
  rewrite (filter_bool _ (under target)) by apply on_target_under.
  by destruct (filter _ (filter _ _)).
Qed.

Lemma add_initial_ok t0 m r : add_initial t0 m = Ok r ->
  akeys r = akeys m ∧
  (forall k, alookup k r = (fun ps => initial_entry t0 k ++ ps) <$> alookup k m) ∧
  (forall k, k ∈ akeys m -> exists v, get_value t0 k = Ok v).
Proof.
  revert r. induction m as [|[k0 ps] m IH]; intros r H; cbn [add_initial] in H.
  - injection H as <-. split; [done|]. split; [done|]. intros k Hk. by apply elem_of_nil in Hk.
  - destruct (get_value t0 k0) as [v| |] eqn:Ev; [|done|done].
    destruct (add_initial t0 m) as [r'| |]; [|done|done]. cbn [rbind] in H. injection H as <-.
    destruct (IH _ eq_refl) as (I1 & I2 & I3). split; [cbn; by f_equal|]. split.
    + intros k. cbn [alookup]. case_decide as Hk; [|apply I2]. subst k. cbn. f_equal.
      unfold initial_entry. rewrite Ev. by destruct v.
    + intros k Hk. cbn in Hk. apply elem_of_cons in Hk as [->|Hk]; [by exists v|by apply I3].
Qed.
Lemma add_initial_bad t0 m : match add_initial t0 m with
  | Ok _ => True
  | Err => False
  | Panic => exists k, k ∈ akeys m ∧ forall v, get_value t0 k <> Ok v
  end.
Proof.
  induction m as [|[k0 ps] m IH]; cbn [add_initial]; [done|].
  destruct (get_value t0 k0) as [v| |] eqn:Ev.
  - destruct (add_initial t0 m); cbn [rbind]; [done|done|].
    destruct IH as (k & Hk & Hv). exists k. split; [by apply elem_of_list_further|done].
  - exists k0. split; [apply elem_of_list_here|]. intros v. congruence.
  - exists k0. split; [apply elem_of_list_here|]. intros v. congruence.
Qed.
Lemma alookup_akeys {V} k (m : list (string * V)) : k ∈ akeys m <-> is_Some (alookup k m).
Proof.
  induction m as [|[k' v] m IH]; cbn.
  - split; [by intros ?%elem_of_nil|by intros [? ?]].
  - rewrite elem_of_cons, IH. case_decide as E.
    + split; [by eexists|by left].
    + split; [intros [?|?]; done|by right].
Qed.

Lemma concat_permutation {A B} (f : A -> list B) l l' : l ≡ₚ l' -> concat (map f l) ≡ₚ concat (map f l').
Proof.
  induction 1 as [|x l l' HP IH|x y l|l l' l'' HP IH HP' IH']; cbn; [done|by rewrite IH| |by rewrite IH].
  rewrite !app_assoc. by rewrite (Permutation_app_comm (f y) (f x)).
Qed.
Lemma filter_permutation (P : operation -> Prop) {HPd : forall p, Decision (P p)} l l' :
  l ≡ₚ l' -> filter P l ≡ₚ filter P l'.
Proof. intros H. by rewrite H. Qed.

Lemma history_spec orc target h L : consistent L -> (forall vs, or_versions orc vs ≡ₚ vs) ->
  let chron k := filter (fun p => op_path p = k) (changes [] (filter (under target) (all_ops L))) in
  match history orc target (h, L) with
  | (st', Ok m) =>
      (fst (compact target (h, L)) = st' ∧ snd (compact target (h, L)) = Ok tt) ∧
      exists t0, read h (default VNil (l_snapshots L !! 0%N)) = Some t0 ∧
      (forall k, match alookup k m with
                 | None => chron k = []
                 | Some ps => chron k <> [] ∧ (exists v, get_value t0 k = Ok v)
                     ∧ exists ps', ps = initial_entry t0 k ++ ps' ∧ ps' ≡ₚ chron k
                       ∧ (or_versions orc (sorted_keys (l_patches L)) = sorted_keys (l_patches L) -> ps' = chron k)
                 end)
  | (_, Err) => False
  | (_, Panic) => clash (filter (under target) (all_ops L))
      ∨ read h (default VNil (l_snapshots L !! 0%N)) = None
      ∨ exists t0 k, read h (default VNil (l_snapshots L !! 0%N)) = Some t0 ∧ chron k <> []
          ∧ forall v, get_value t0 k <> Ok v
  end.
Proof.
  intros HC HO chron. pose proof (compact_spec target h L HC) as HS.
  unfold history. rewrite (consistent_continuous _ HC). cbn [negb].
  destruct (compact_shape target h L HC) as (HSh & _).
  destruct (compact target (h, L)) as [[h' L'] [[]| |]]; [|done|by left].
  destruct HS as ((-> & V1 & V2 & V3 & V4) & HP & HN). cbn [fst snd] in *.
  assert (HC' : consistent L') by (by eapply same_shape_consistent).
  assert (HK : sorted_keys (l_patches L') = sorted_keys (l_patches L)).
  { apply sorted_unique_lt; try apply sorted_keys_sorted. apply NoDup_Permutation; try apply sorted_keys_nodup.
    intros v. rewrite !sorted_keys_elem. apply HSh. }
  assert (HA : filter (under target) (all_ops L') = changes [] (filter (under target) (all_ops L))).
  { unfold all_ops. rewrite V1. by apply filter_concat_ops. }
  set (vs := or_versions orc (sorted_keys (l_patches L'))).
  assert (HPm : filter (under target) (concat (map (patch_at L') vs)) ≡ₚ changes [] (filter (under target) (all_ops L))).
  { rewrite <- HA, <- (all_ops_versions L' _ HC' eq_refl). apply filter_permutation, concat_permutation, HO. }
  assert (HEq : vs = sorted_keys (l_patches L) ->
    filter (under target) (concat (map (patch_at L') vs)) = changes [] (filter (under target) (all_ops L))).
  { intros E. by rewrite <- HA, <- (all_ops_versions L' _ HC' eq_refl), HK, E. }
  rewrite V2. destruct (read h _) as [t0|] eqn:Er; [|by right; left].
  pose proof (add_initial_ok t0 (collect_history target (map (patch_at L') vs))) as H1.
  pose proof (add_initial_bad t0 (collect_history target (map (patch_at L') vs))) as H2.
  assert (HL : forall k, alookup k (collect_history target (map (patch_at L') vs)) = None <-> chron k = []).
  { intros k. rewrite collect_history_lookup. unfold chron.
    pose proof (filter_permutation (fun p => op_path p = k) _ _ HPm) as HPk. split.
    - destruct (filter _ (filter _ _)) eqn:E; [|done]. intros _. by apply Permutation_nil in HPk.
    - intros E. rewrite E in HPk. symmetry in HPk. apply Permutation_nil in HPk. by rewrite HPk. }
  destruct (add_initial t0 _) as [m| |]; [|done|].
  - split; [done|]. exists t0. split; [done|]. destruct (H1 m eq_refl) as (K1 & K2 & K3).
    intros k. rewrite K2. specialize (HL k). specialize (K3 k). rewrite alookup_akeys in K3.
    rewrite collect_history_lookup in *. 
    pose proof (filter_permutation (fun p => op_path p = k) _ _ HPm) as HPk.
    destruct (filter (fun p => op_path p = k) (filter (under target) (concat (map (patch_at L') vs)))) as [|p ps] eqn:E.
    + cbn. by apply HL.
    + cbn. split; [intros Hx; by apply HL in Hx|]. split; [apply K3; by eexists|].
      exists (p :: ps). split; [done|]. split; [done|]. intros Evs.
      unfold chron. rewrite <- (HEq ltac:(unfold vs; by rewrite HK)). by rewrite E.
  - right. right. destruct H2 as (k & Hk & Hv). exists t0, k. split; [done|]. split; [|done].
    intros Hx. apply HL in Hx. apply alookup_akeys in Hk. rewrite Hx in Hk. by destruct Hk.
Qed.
