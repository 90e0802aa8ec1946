(** The experiments of the program. *)
From Verif Require Import Base BaseSpec BaseLemmas F64 Tson Bytes TjsonSpec TjsonLemmas Vss Sensor Scenario Sim SimSpec SimTrace SimLemmas SimTimes SimDocs SimFinal SimInit SimPlace.

Definition table_shape : list (string * Z) := map (fun e => (fst e, vs_interval (snd e))) vss_sensors.
Definition apart_check (p q : string) : bool := bool_decide (p = q) || negb (bool_decide (split_on dot p `prefix_of` split_on dot q)).
Lemma table_check : forallb (fun p => forallb (apart_check p) (map fst table_shape)) (map fst table_shape) = true.
Proof. vm_compute. reflexivity. Qed.
Lemma table_apart : apart_paths (map fst table_shape).
Proof.
  intros p q Hp Hq Hne. apply elem_of_list_In in Hp, Hq. pose proof (proj1 (forallb_forall _ _) table_check p Hp) as G.
  pose proof (proj1 (forallb_forall _ _) G q Hq) as G'. unfold apart_check in G'. apply orb_prop in G' as [G'|G'].
  - by apply bool_decide_eq_true in G'.
  - apply negb_true_iff in G'. by apply bool_decide_eq_false in G'.
Qed.
Lemma shape_separate v : Permutation (shape (concat v)) table_shape -> separate v.
Proof.
  intros P. apply (Permutation_map fst) in P. rewrite shape_keys in P.
  assert (N : NoDup (map fst table_shape)) by (apply (bool_decide_unpack _); vm_compute; exact I).
  split; [unfold sensors; by rewrite P|]. intros p q l l' Hp Hq Hne Hl Hl'. unfold dotted in *. apply names_split in Hl, Hl'. subst.
  apply table_apart; [|  |done]; by rewrite <- P.
Qed.
Lemma total_perm D inc l l' : Permutation l l' -> total_updates D inc l = total_updates D inc l'.
Proof. unfold total_updates. induction 1; cbn [foldr]; lia. Qed.
Lemma shape_total D inc v : Permutation (shape (concat v)) table_shape ->
  total_updates D inc (map (fun x => s_interval (snd x)) (sensors v)) = total_updates D inc (map snd table_shape).
Proof.
  intros P. apply total_perm. apply (Permutation_map snd) in P. unfold shape in P. by rewrite map_map in P.
Qed.
Definition planned_z (sec : Z) (l : list (string * Z)) : Z := foldr (fun x n => n + Z.quot (sec * 1000) (snd x)) 0 l.
Lemma planned_shape sec g : planned sec g = planned_z sec (shape g).
Proof. unfold planned, planned_z. induction g as [|x g IH]; [done|]. cbn [foldr shape map snd]. by rewrite IH. Qed.
Lemma planned_perm sec l l' : Permutation l l' -> planned_z sec l = planned_z sec l'.
Proof. unfold planned_z. induction 1; cbn [foldr]; lia. Qed.
Lemma planned_app sec l l' : planned_z sec (l ++ l') = planned_z sec l + planned_z sec l'.
Proof. unfold planned_z. induction l as [|x l IH]; cbn [foldr app]; lia. Qed.
Definition map_shape (i : nat) : list (string * Z) :=
  map (fun e => (fst e, vs_interval (snd e))) (filter (fun e => map_index (vs_category (snd e)) = i) vss_sensors).
Lemma shape_planned v : length v = 6%nat -> (forall i g, v !! i = Some g -> Permutation (shape g) (map_shape i)) ->
  planned simulation_sec (concat (take 5 v)) = 91080.
Proof.
  intros L H. destruct v as [|g0 [|g1 [|g2 [|g3 [|g4 [|g5 [|]]]]]]]; try discriminate L. rewrite planned_shape, shape_concat. cbn [take shapes map concat].
  rewrite !planned_app.
  rewrite (planned_perm _ _ _ (H 0%nat g0 eq_refl)), (planned_perm _ _ _ (H 1%nat g1 eq_refl)), (planned_perm _ _ _ (H 2%nat g2 eq_refl)),
    (planned_perm _ _ _ (H 3%nat g3 eq_refl)), (planned_perm _ _ _ (H 4%nat g4 eq_refl)). vm_compute. reflexivity.
Qed.

(** The vehicle and the state a run starts with. *)
Definition start_sensor (sc : string) (now : string -> Z) (d : draws) (e : string * vss_sensor) : sensor :=
  if decide (sc = "mixed_scenario" ∧ fst e = soc) then set_value (PNum (fl 60)) (first_sensor sc now d e) else first_sensor sc now d e.
Definition start_state (sc : string) : option scenario_state :=
  if decide (sc = "mixed_scenario") then Some (new_state "urban_traffic" (fl 60)) else None.
Lemma experiment_start w ord now d sc : Permutation (ord vss_sensors) vss_sensors ->
  exists v, experiment w ord now d sc = simulate w v (start_state sc) simulation_sec simulation_step ∧
    length v = 6%nat ∧ all_steady v ∧ Permutation (shape (concat v)) table_shape ∧
    (forall i g, v !! i = Some g -> Permutation (shape g) (map_shape i)) ∧
    (forall e, e ∈ vss_sensors -> get (map_index (vs_category (snd e))) (fst e) v = Some (start_sensor sc now d e)).
Proof.
  intros P. destruct (init_vehicle_spec ord now sc d P) as (v & E & L & S & Sh & M & G).
  unfold experiment, start_state, start_sensor. rewrite E. cbn [rbind]. destruct (decide (sc = "mixed_scenario")) as [Em|Em].
  - eexists. split; [done|].
    assert (Sh' : shapes (with_sensor 1 soc (set_value (PNum (fl 60))) v) = shapes v) by (by apply with_sensor_shapes).
    split; [by rewrite (shapes_length _ _ Sh')|]. split; [by apply with_sensor_steady|]. split; [by rewrite shape_concat, Sh', <- shape_concat|].
    split.
    + intros i g Hg. apply (f_equal (lookup i)) in Sh'. unfold shapes in Sh'. rewrite !list_lookup_fmap, Hg in Sh'.
      destruct (v !! i) as [g0|] eqn:E0; cbn in Sh'; [|done]. injection Sh' as ->. by apply M.
    + intros e He. rewrite get_with, (G e He). destruct (decide (fst e = soc)) as [Es|Es]; [|rewrite !decide_False by tauto; done].
      rewrite (decide_True (P := sc = _ ∧ _)) by done. rewrite decide_True; [done|]. split; [|done].
      apply soc_index. rewrite <- Es. apply alookup_in; [apply table_nodup|by destruct e].
  - exists v. split; [done|]. split; [done|]. split; [done|]. split; [done|]. split; [done|]. intros e He. rewrite decide_False by tauto. by apply G.
Qed.
Lemma experiment_total w ord now d sc : orders_ok w -> Permutation (ord vss_sensors) vss_sensors ->
  exists v m, init_vehicle ord now sc d = Ok v ∧ separate v ∧ expected_count v simulation_sec = Ok 91080 ∧
    experiment w ord now d sc = Ok m ∧ m_updates m = 34082.
Proof.
  intros Ho P. destruct (init_vehicle_spec ord now sc d P) as (v0 & E0 & L0 & S0 & Sh0 & M0 & _).
  destruct (experiment_start w ord now d sc P) as (v & E & L & S & Sh & M & _).
  pose proof (shape_separate v Sh) as Hs.
  destruct (simulate_total w v (start_state sc) simulation_sec simulation_step Ho Hs S) as (m & Em).
  exists v0, m. split; [done|]. split; [by apply shape_separate|]. split.
  - rewrite (expected_total v0 _ S0). f_equal. by apply shape_planned.
  - split; [by rewrite E|]. rewrite (update_total _ _ _ _ _ _ Em Ho (proj1 Hs)) by (vm_compute; reflexivity).
    rewrite (shape_total _ _ v Sh). vm_compute. reflexivity.
Qed.
