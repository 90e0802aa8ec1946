(** The changes of the scenario. *)
From Verif Require Import Base BaseSpec BaseLemmas F64 GoText Tson Bytes TjsonSpec TjsonLemmas Vss Sensor Scenario Sim SimSpec SimTrace SimLemmas SimTimes SimDocs SimFinal SimInit SimPlace SimRows.

(** The transitions, given the levels of the battery at the time steps. *)
Fixpoint transitions_of (charging : bool) (last n : Z) (ls : list (Z * f64)) : list transition :=
  match ls with
  | [] => []
  | (t, x) :: ls' =>
      if (t - last <? cooldown) || negb (if charging then SFleb (decimal 1999 20) x else SFleb x (fl 10))
      then transitions_of charging last n ls'
      else Transition t "urban_traffic" (if charging then "urban_traffic" else "battery_charging") x (n + 1)
             :: transitions_of (negb charging) t (n + 1) ls'
  end.

Lemma update_soc sc d v v' s : apply_mixed vss_sensors sc d v = Ok v' -> get 1 soc v = Some s ->
  exists s', get 1 soc v' = Some s' ∧ s_value s' = s_value s ∧ s_type s' = s_type s.
Proof.
  unfold apply_mixed. destruct (update_patterns vss_sensors sc v) as [v1| |] eqn:E; cbn [rbind]; [|done|done]. intros [= <-] Hs.
  pose proof (get_update _ _ _ _ 1 soc E) as G. rewrite Hs in G. destruct G as (s1 & E1 & G1).
  apply update_pattern_keeps in E1 as (_ & Ety & Ev & _). rewrite settings_list, get_settings, G1. eexists. split; [done|].
  rewrite <- Ev, <- Ety. clear. unfold scenario_settings. repeat case_decide.
  - change (change_at 1 soc (urban_settings d) s1) with s1. done.
  - change (change_at 1 soc (highway_settings d) s1) with s1. done.
  - change (change_at 1 soc (charging_settings d) s1) with (in_pattern "linear" (set_param "slope" (decimal 1 5)) s1).
    unfold in_pattern. by case_decide.
  - done.
Qed.
Definition name_of (charging : bool) : string := if charging then "battery_charging" else "urban_traffic".
Definition turns (charging : bool) (last t : Z) (x : f64) : bool :=
  negb ((t - last <? cooldown) || negb (if charging then SFleb (decimal 1999 20) x else SFleb x (fl 10))).
Lemma switch_step w t m m' ch lvl last s x : switch w t m = Ok m' -> m_scenario m = Some (SState (name_of ch) "urban_traffic" lvl last) ->
  get 1 soc (m_vehicle m) = Some s -> s_value s = PNum x ->
  m_transitions m' = m_transitions m ++ (if turns ch last t x
    then [Transition t "urban_traffic" (name_of (negb ch)) x (Z.of_nat (length (m_transitions m)) + 1)] else []) ∧
  m_scenario m' = Some (if turns ch last t x then SState (name_of (negb ch)) "urban_traffic" x t else SState (name_of ch) "urban_traffic" x last) ∧
  m_rows m' = m_rows m ∧
  exists s', get 1 soc (m_vehicle m') = Some s' ∧ s_value s' = s_value s ∧ s_type s' = s_type s.
Proof.
  intros H Hsc Hs Hx. unfold switch in H. rewrite Hsc in H. unfold update_state in H.
  assert (El : battery_level (m_vehicle m) (ss_level (SState (name_of ch) "urban_traffic" lvl last)) = x).
  { unfold battery_level. unfold get in Hs. destruct (m_vehicle m !! 1%nat); [|done]. by rewrite Hs, Hx. }
  rewrite El in H. cbn [ss_last ss_current ss_previous ss_level] in H. unfold turns.
  destruct (t - last <? cooldown) eqn:Et; cbn [orb negb].
  { cbn [rbind] in H. injection H as <-. cbn. rewrite app_nil_r. split; [done|]. split; [done|]. split; [done|]. by exists s. }
  destruct ch; cbn [name_of negb] in *.
  - rewrite decide_False in H by done. rewrite decide_True in H by done. unfold f64_ge in H. cbn [orb]. rewrite negb_involutive.
    destruct (SFleb (decimal 1999 20) x) eqn:Ef.
    + rewrite decide_False in H by done.
      destruct (apply_mixed _ _ _ _) as [v'| |] eqn:Ea; cbn [rbind] in H; [|done|done]. injection H as <-. cbn.
      split; [done|]. split; [done|]. split; [done|]. by apply (update_soc _ _ _ _ _ Ea).
    + rewrite decide_True in H by done. cbn [rbind] in H. injection H as <-. cbn. rewrite app_nil_r.
      split; [done|]. split; [done|]. split; [done|]. by exists s.
  - rewrite decide_True in H by done. cbn [orb]. rewrite negb_involutive.
    destruct (SFleb x (fl 10)) eqn:Ef.
    + rewrite decide_False in H by done.
      destruct (apply_mixed _ _ _ _) as [v'| |] eqn:Ea; cbn [rbind] in H; [|done|done]. injection H as <-. cbn.
      split; [done|]. split; [done|]. split; [done|]. by apply (update_soc _ _ _ _ _ Ea).
    + rewrite decide_True in H by done. cbn [rbind] in H. injection H as <-. cbn. rewrite app_nil_r.
      split; [done|]. split; [done|]. split; [done|]. by exists s.
Qed.

(** A sensor keeps its place in a time step. *)
Lemma renew_lookup w t xs rs p s : solos w t xs rs -> alookup p xs = Some s ->
  exists s' us, solo w t p s = Ok (s', us) ∧ alookup p (renew xs rs) = Some s'.
Proof.
  induction 1 as [|[q a] [b us] xs rs E H IH]; cbn [alookup]; [done|]. unfold renew. cbn [map zip zip_with fst snd alookup] in *.
  destruct (decide (p = q)) as [->|Hne]; [|by intros ?%IH]. intros [= <-]. by exists b, us.
Qed.
Lemma run_maps_get w t k v m v' m' i p s : run_maps w t k v m = Ok (v', m') -> (forall i g, Permutation (w_order w t i g) g) ->
  NoDup (akeys (concat v)) -> get i p v = Some s -> exists s' us, solo w t p s = Ok (s', us) ∧ get i p v' = Some s'.
Proof.
  intros H Ho. revert k m v' m' i H. induction v as [|g v IH]; intros k m v' m' i; cbn [run_maps]; [by intros _ _; destruct i|].
  destruct (run_map w t _ m) as [[g1 m1]| |] eqn:E; cbn [rbind fst snd]; [|done|done].
  destruct (run_maps w t (S k) v m1) as [[v2 m2]| |] eqn:E2; cbn [rbind fst snd]; [|done|done]. intros [= <- <-] Hnd.
  unfold akeys in Hnd. cbn in Hnd. rewrite map_app in Hnd. apply NoDup_app in Hnd as (N1 & _ & N2). destruct i as [|i].
  - unfold get. cbn. intros Hs. apply run_map_solo in E as (rs & S & -> & _). apply (renew_lookup _ _ _ _ _ _ S).
    apply alookup_in; [|rewrite (Ho k g); by apply alookup_Some_in]. unfold akeys. by rewrite (Ho k g).
  - exact (IH _ _ _ _ i E2 N2).
Qed.
Lemma solo_number w t p s x s' us : solo w t p s = Ok (s', us) -> s_type s = "number" -> s_value s = PNum x ->
  s_type s' = "number" ∧ exists x', s_value s' = PNum x'.
Proof.
  unfold solo. destruct (decide (s_interval s = 0)); [done|]. destruct (decide _).
  2:{ intros [= <- _] -> ->. split; [done|by exists x]. }
  destruct (new_value _ _ _ _ _) as [[s1 v]| |] eqn:E; cbn [rbind]; [|done|done]. intros [= <- _] Ty Ex.
  pose proof (new_value_frame _ _ _ _ _ _ _ E) as (_ & Ev & Ety & _).
  unfold new_value in E. cbn [s_type set_count] in E. rewrite Ty in E. rewrite decide_True in E by done. cbn [s_value set_count] in E. rewrite Ex in E.
  destruct (new_number _ _ _ _ _) as [n1 y]. injection E as _ <-. destruct (negb _); cbn; split; try congruence; [by exists y|].
  exists x. congruence.
Qed.

(** All transitions of a run, and the rows of the battery. *)
Lemma run_transitions w ts m m' ch lvl last s x : run_times w ts m = Ok m' -> (forall t i g, Permutation (w_order w t i g) g) ->
  NoDup (akeys (concat (m_vehicle m))) -> m_scenario m = Some (SState (name_of ch) "urban_traffic" lvl last) ->
  get 1 soc (m_vehicle m) = Some s -> s_type s = "number" -> s_value s = PNum x ->
  exists ls, map fst ls = ts ∧ filter (fun r => rw_path r = soc) (m_rows m') = filter (fun r => rw_path r = soc) (m_rows m) ++ map (fun l => Row soc (fst l) (PNum (snd l))) ls ∧
    m_transitions m' = m_transitions m ++ transitions_of ch last (Z.of_nat (length (m_transitions m))) ls.
Proof.
  intros H Ho. revert m ch lvl last s x H. induction ts as [|t ts IH]; intros m ch lvl last s x H Hnd Hsc Hs Hty Hx; cbn [run_times] in H.
  { injection H as <-. exists []. cbn. by rewrite !app_nil_r. }
  destruct (tick w t m) as [m1| |] eqn:E; cbn [rbind] in H; [|done|done].
  pose proof (tick_times w t m m1 E (Ho t) Hnd) as (_ & _ & Sh & _).
  assert (Hnd1 : NoDup (akeys (concat (m_vehicle m1)))). { rewrite <- shape_keys, Sh, shape_keys. done. }
  unfold tick in E. destruct (switch w t m) as [ma| |] eqn:Ea; cbn [rbind] in E; [|done|done].
  pose proof (switch_shapes _ _ _ _ Ea) as Sha.
  assert (Hnda : NoDup (akeys (concat (m_vehicle ma)))). { rewrite <- shape_keys, shape_concat, Sha, <- shape_concat, shape_keys. done. }
  destruct (switch_step _ _ _ _ _ _ _ _ _ Ea Hsc Hs Hx) as (Tr & Sc & Rw & sa & Ga & Va & Ta).
  destruct (run_maps w t 0 (m_vehicle (record t ma)) (record t ma)) as [[vb mb]| |] eqn:Eb; cbn [rbind fst snd] in E; [|done|done].
  injection E as <-. pose proof (run_maps_solo _ _ _ _ _ _ _ Eb (Ho t)) as (xs & rs & _ & _ & _ & _ & Fr).
  destruct Fr as (_ & Fs & Ft & Fw & _).
  destruct (run_maps_get _ _ _ _ _ _ _ 1 soc sa Eb (Ho t) Hnda Ga) as (sb & us & So & Gb).
  destruct (solo_number _ _ _ _ x _ _ So) as [Tb [xb Vb]]; [congruence|congruence|].
  assert (Rs : filter (fun r => rw_path r = soc) (m_rows mb) = filter (fun r => rw_path r = soc) (m_rows m) ++ [Row soc t (PNum x)]).
  { rewrite Fw. unfold record. cbn [m_rows]. rewrite filter_app, Rw. f_equal. fold (row_of t (m_vehicle ma)).
    assert (Hin : (soc, sa) ∈ concat (m_vehicle ma)) by (apply get_in; by exists 1%nat).
    rewrite (omap_one key_sensors t (m_vehicle ma) soc sa keys_nodup); [|apply (bool_decide_unpack _); vm_compute; exact I|by apply find_in].
    by rewrite Va, Hx. }
  change (m_scenario (record t ma)) with (m_scenario ma) in Fs. rewrite Sc in Fs.
  destruct (IH (set_vehicle vb mb) (if turns ch last t x then negb ch else ch) x (if turns ch last t x then t else last) sb xb) as (ls & L1 & L2 & L3).
  - done.
  - done.
  - change (m_scenario (set_vehicle vb mb)) with (m_scenario mb). rewrite Fs. by destruct (turns ch last t x).
  - done.
  - done.
  - done.
  - exists ((t, x) :: ls). cbn [map fst snd transitions_of]. split; [by rewrite L1|]. split.
    + rewrite L2. change (m_rows (set_vehicle vb mb)) with (m_rows mb). rewrite Rs, <- app_assoc. done.
    + rewrite L3. change (m_transitions (set_vehicle vb mb)) with (m_transitions mb). rewrite Ft. change (m_transitions (record t ma)) with (m_transitions ma).
      rewrite Tr, app_length. unfold turns in *. destruct (_ || _); cbn [negb length app].
      * by rewrite !app_nil_r, Nat.add_0_r.
      * rewrite <- app_assoc. cbn [app]. f_equal. f_equal.
        -- by destruct ch.
        -- f_equal. lia.
Qed.

(** ** What the list says *)
Definition enough (charging : bool) (x : f64) : Prop :=
  if charging then SFleb (f64_of_ratio false 9995 100) x = true else SFleb x (f64_of_Z 10) = true.
Lemma turns_enough ch last t x : turns ch last t x = true <-> last + 60000 <= t ∧ enough ch x.
Proof.
  unfold turns, enough, cooldown. change (decimal 1999 20) with (f64_of_ratio false 9995 100). change (fl 10) with (f64_of_Z 10).
  rewrite negb_true_iff, orb_false_iff, negb_false_iff, Z.ltb_ge. destruct ch; intuition lia.
Qed.
Lemma transitions_cons ch last n t x ls : transitions_of ch last n ((t, x) :: ls) =
  if turns ch last t x then Transition t "urban_traffic" (name_of (negb ch)) x (n + 1) :: transitions_of (negb ch) t (n + 1) ls
  else transitions_of ch last n ls.
Proof. cbn [transitions_of]. unfold turns. destruct (_ || _); [done|]. by destruct ch. Qed.
Lemma transitions_sound ls : forall ch last n i tr, transitions_of ch last n ls !! i = Some tr ->
  tr_count tr = n + Z.of_nat i + 1 ∧ tr_from tr = "urban_traffic" ∧ (tr_time tr, tr_level tr) ∈ ls ∧
  tr_to tr = name_of (xorb ch (Nat.even i)) ∧ enough (xorb ch (negb (Nat.even i))) (tr_level tr).
Proof.
  induction ls as [|[t x] ls IH]; intros ch last n i tr; [done|]. rewrite transitions_cons. destruct (turns ch last t x) eqn:E.
  - destruct i as [|i]; cbn [lookup list_lookup].
    + intros [= <-]. cbn. split; [lia|]. split; [done|]. split; [by left|]. apply turns_enough in E as [_ E]. rewrite xorb_true_r, xorb_false_r. done.
    + intros H. apply IH in H as (H1 & H2 & H3 & H4 & H5). split; [lia|]. split; [done|]. split; [by right|].
      rewrite Nat.even_succ, <- Nat.negb_even. destruct ch, (Nat.even i); done.
  - intros H. apply IH in H as (H1 & H2 & H3 & H4 & H5). split; [lia|]. split; [done|]. split; [by right|]. done.
Qed.
Lemma transitions_apart ls : forall ch last n, (forall tr, transitions_of ch last n ls !! 0%nat = Some tr -> last + 60000 <= tr_time tr) ∧
  (forall i a b, transitions_of ch last n ls !! i = Some a -> transitions_of ch last n ls !! S i = Some b -> tr_time a + 60000 <= tr_time b).
Proof.
  induction ls as [|[t x] ls IH]; intros ch last n; [done|]. rewrite transitions_cons. destruct (turns ch last t x) eqn:E.
  - apply turns_enough in E as [E _]. destruct (IH (negb ch) t (n + 1)) as [H1 H2]. split; [by intros tr [= <-]|].
    intros [|i] a b; [|apply H2]. intros [= <-] Hb. cbn. by apply H1.
  - apply IH.
Qed.
Lemma transitions_times ls ch last n tr : tr ∈ transitions_of ch last n ls -> tr_time tr ∈ map fst ls.
Proof.
  intros [i H]%elem_of_list_lookup_1. apply transitions_sound in H as (_ & _ & H & _). apply elem_of_list_fmap. by exists (tr_time tr, tr_level tr).
Qed.
Lemma transitions_complete ls : forall ch last n t x, StronglySorted Z.lt (map fst ls) -> (t, x) ∈ ls ->
  let before := filter (fun tr => tr_time tr < t) (transitions_of ch last n ls) in
  (forall tr, tr ∈ before -> tr_time tr + 60000 <= t) -> last + 60000 <= t -> enough (xorb ch (negb (Nat.even (length before)))) x ->
  exists tr, tr ∈ transitions_of ch last n ls ∧ tr_time tr = t.
Proof.
  induction ls as [|[t0 x0] ls IH]; intros ch last n t x Hs Hin; [by apply elem_of_nil in Hin|]. rewrite transitions_cons. cbn [map fst] in Hs.
  apply StronglySorted_inv in Hs as [Hs H0]. rewrite List.Forall_forall in H0. apply elem_of_cons in Hin as [[= -> ->]|Hin].
  - cbv zeta. assert (Hb : forall ch' n' l', filter (fun tr => tr_time tr < t0) (transitions_of ch' l' n' ls) = []).
    { intros ch' n' l'. destruct (filter _ _) as [|tr l] eqn:E; [done|]. exfalso.
      assert (Hin : tr ∈ filter (fun tr => tr_time tr < t0) (transitions_of ch' l' n' ls)) by (rewrite E; by left).
      apply elem_of_list_filter in Hin as [Hlt Hin]. apply transitions_times, elem_of_list_In, H0 in Hin. lia. }
    intros Hgap Hl He. destruct (turns ch last t0 x0) eqn:E; [by eexists; split; [left|]|]. exfalso. rewrite Hb in He. cbn [length Nat.even negb] in He.
    rewrite xorb_false_r in He. assert (turns ch last t0 x0 = true) by by apply turns_enough. congruence.
  - assert (Hlt : t0 < t). { apply H0. apply elem_of_list_In. apply elem_of_list_fmap. by exists (t, x). }
    destruct (turns ch last t0 x0) eqn:E; cbv zeta.
    + rewrite filter_cons, decide_True by done. cbn [length]. intros Hgap Hl He. destruct (IH (negb ch) t0 (n + 1) t x Hs Hin) as (tr & Htr & Et).
      * intros tr Htr. apply Hgap. by right.
      * apply (Hgap (Transition t0 "urban_traffic" (name_of (negb ch)) x0 (n + 1))). by left.
      * rewrite Nat.even_succ, <- Nat.negb_even in He. by destruct ch, (Nat.even _).
      * exists tr. split; [by right|done].
    + intros Hgap Hl He. apply (IH ch last n t x); auto.
Qed.

Lemma transitions_spec w v sec inc m l g s x : simulate w v (Some (new_state "urban_traffic" l)) sec inc = Ok m -> orders_ok w ->
  NoDup (akeys (sensors v)) -> 0 < inc -> v !! 1%nat = Some g -> (soc, s) ∈ g -> s_type s = "number" -> s_value s = PNum x ->
  (forall i tr, m_transitions m !! i = Some tr ->
     tr_count tr = Z.of_nat i + 1 ∧ tr_from tr = "urban_traffic" ∧ Row soc (tr_time tr) (PNum (tr_level tr)) ∈ m_rows m ∧
     if Nat.even i then tr_to tr = "battery_charging" ∧ SFleb (tr_level tr) (f64_of_Z 10) = true
     else tr_to tr = "urban_traffic" ∧ SFleb (f64_of_ratio false 9995 100) (tr_level tr) = true) ∧
  (forall tr, m_transitions m !! 0%nat = Some tr -> 60000 <= tr_time tr) ∧
  (forall i a b, m_transitions m !! i = Some a -> m_transitions m !! S i = Some b -> tr_time a + 60000 <= tr_time b) ∧
  (forall t y, Row soc t (PNum y) ∈ m_rows m -> 60000 <= t ->
     let before := filter (fun tr => tr_time tr < t) (m_transitions m) in
     (forall tr, tr ∈ before -> tr_time tr + 60000 <= t) ->
     (if Nat.even (length before) then SFleb y (f64_of_Z 10) = true else SFleb (f64_of_ratio false 9995 100) y = true) ->
     exists tr, tr ∈ m_transitions m ∧ tr_time tr = t).
Proof.
  intros (m0 & H0 & H)%simulate_inv [Ho _] Hnd Hi Hg Hin Hty Hx. apply start_zero in H0 as (V & Sc & T0 & _ & _ & _ & _ & _ & _ & _ & R0 & _).
  assert (Hs : get 1 soc (m_vehicle m0) = Some s).
  { rewrite V. unfold get. rewrite Hg. apply alookup_in; [|done]. unfold sensors in Hnd. clear - Hnd Hg.
    destruct v as [|g0 [|g1 v]]; try done. cbn in Hg. injection Hg as ->. unfold akeys in *. cbn in Hnd. rewrite !map_app in Hnd.
    apply NoDup_app in Hnd as (_ & _ & Hnd). by apply NoDup_app in Hnd as (Hnd & _). }
  destruct (run_transitions _ _ _ _ false l 0 s x H Ho) as (ls & L1 & L2 & L3); [by rewrite V|by rewrite Sc|done|done|done|].
  rewrite R0 in L2. cbn [app filter] in L2. rewrite T0 in L3. cbn [app length] in L3. rewrite L3. change (Z.of_nat 0) with 0.
  change (filter (fun r => rw_path r = soc) []) with (@nil row) in L2. cbn [app] in L2.
  assert (Hrow : forall t y, Row soc t (PNum y) ∈ m_rows m <-> (t, y) ∈ ls).
  { intros t y. transitivity (Row soc t (PNum y) ∈ filter (fun r => rw_path r = soc) (m_rows m)).
    - rewrite elem_of_list_filter. cbn. tauto.
    - rewrite L2, elem_of_list_fmap. split; [|intros Hl; by exists (t, y)]. intros ([t' y'] & [= -> ->] & Hl). done. }
  split; [|split; [|split]].
  - intros i tr Htr. apply transitions_sound in Htr as (A1 & A2 & A3 & A4 & A5). split; [lia|]. split; [done|]. split; [by apply Hrow|].
    cbn [xorb] in A4, A5. destruct (Nat.even i); done.
  - intros tr Htr. destruct (transitions_apart ls false 0 0) as [A _]. apply A in Htr. lia.
  - apply transitions_apart.
  - intros t y Hr%Hrow Ht before Hb He. apply (transitions_complete ls false 0 0 t y); [rewrite L1; by apply loop_times_sorted|done|done|lia|].
    cbn [xorb]. fold before. unfold enough. by destruct (Nat.even (length before)).
Qed.
