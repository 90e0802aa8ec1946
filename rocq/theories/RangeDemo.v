(** Concrete runs for ranges, lines and transitions. *)
From Verif Require Import Base BaseSpec F64 Tson Bytes GoText TjsonSpec TjsonLemmas Vss VssSpec Sensor Scenario Sim SimSpec SimDocs SimInit SimExp SimDemo RangeSpec.

(** A world with random numbers and a sine as required. *)
Definition square (x : f64) : f64 := if SFltb x zero then f64_of_Z (-1) else f64_of_Z 1.
Definition fair_world : world :=
  World square 0 (fun t p => drawing (if Z.even (t / 100) then num 3 4 else num 1 8)) (fun _ => drawing (num 3 4)) (fun _ _ g => rev g) (fun _ _ g => g).
Lemma fair_orders : orders_ok fair_world.
Proof. split; intros; cbn; [symmetry; apply Permutation_rev|done]. Qed.
Lemma drawing_fair r : unit_float r -> fair (drawing r).
Proof. intros H. split; [done|]. cbn. lia. Qed.
Lemma unit_34 : unit_float (num 3 4).
Proof. assert (E : num 3 4 = S754_finite false 6755399441055744 (-53)) by (vm_compute; reflexivity). rewrite E. constructor; lia. Qed.
Lemma unit_18 : unit_float (num 1 8).
Proof. assert (E : num 1 8 = S754_finite false 4503599627370496 (-55)) by (vm_compute; reflexivity). rewrite E. constructor; lia. Qed.
Lemma fair_random : random_ok fair_world.
Proof. split; intros; cbn; apply drawing_fair; [destruct (Z.even _); [apply unit_34|apply unit_18]|apply unit_34]. Qed.
Lemma square_sine : sine (w_sin fair_world).
Proof. intros x _. cbn. unfold square. destruct (SFltb x zero); repeat split; vm_compute; reflexivity. Qed.

Definition walker : sensor :=
  Sensor "Vehicle.Speed" (PNum (f64_of_Z 50)) "number" 7 200 "random_walk" [("step_size", f64_of_Z 2); ("min", f64_of_Z 0); ("max", f64_of_Z 52)] 0.
Definition noisy_one : sensor :=
  Sensor "Vehicle.Heat" (PNum (f64_of_Z 0)) "number" 7 200 "constant_with_noise" [("baseline", f64_of_Z 25); ("noise", f64_of_Z 4)] 0.
Definition wave : sensor :=
  Sensor "Vehicle.Tilt" (PNum (f64_of_Z 0)) "number" 7 200 "sinusoidal" [("amplitude", f64_of_Z 3); ("period", f64_of_Z 5000); ("baseline", f64_of_Z 1)] 0.
Definition line : sensor :=
  Sensor "Vehicle.Level" (PNum (f64_of_Z 40)) "number" 8 200 "linear" [("slope", f64_of_Z (-100)); ("min", f64_of_Z 0); ("max", f64_of_Z 100)] 0.
Definition slow_line : sensor :=
  Sensor "Vehicle.Slow" (PNum (f64_of_Z 40)) "number" 8 200 "linear" [("slope", f64_of_ratio false 1 100); ("min", f64_of_Z 0); ("max", f64_of_Z 100)] 0.
Definition lab : vehicle :=
  [[("Vehicle.Speed", walker); ("Vehicle.Heat", noisy_one)]; [("Vehicle.Tilt", wave); ("Vehicle.Level", line); ("Vehicle.Slow", slow_line)]; []; []; []; []].
Lemma lab_keys : NoDup (akeys (sensors lab)).
Proof. apply (bool_decide_unpack _). vm_compute. exact I. Qed.
Ltac is_number := split; vm_compute; reflexivity.
Ltac is_has := split; [vm_compute; reflexivity|is_number].
Lemma lab_ranges : range_of walker (f64_of_Z 0) (f64_of_Z 52) ∧ range_of noisy_one (f64_of_Z 21) (f64_of_Z 29)
  ∧ range_of wave (f64_of_Z (-2)) (f64_of_Z 4) ∧ range_of line (f64_of_Z 0) (f64_of_Z 100).
Proof.
  split; [|split; [|split]].
  - apply (rg_walk _ _ _ (f64_of_Z 2) (f64_of_Z 50)); try is_has; try is_number; try done; by vm_compute.
  - assert (E : forall a b, a = minus (f64_of_Z 25) (f64_of_Z 4) -> b = plus (f64_of_Z 25) (f64_of_Z 4) -> range_of noisy_one a b).
    { intros ? ? -> ->. apply (rg_noise _ _ _ (f64_of_Z 0)); try is_has; try done; by vm_compute. }
    apply E; by vm_compute.
  - assert (E : forall a b, a = minus (f64_of_Z 1) (f64_of_Z 3) -> b = plus (f64_of_Z 1) (f64_of_Z 3) -> range_of wave a b).
    { intros ? ? -> ->. apply (rg_wave _ _ _ (f64_of_Z 5000) (f64_of_Z 0)); try is_has; try done; by vm_compute. }
    apply E; by vm_compute.
  - apply (rg_linear _ _ _ (f64_of_Z (-100)) (f64_of_Z 40)); try is_has; try is_number; try done; by vm_compute.
Qed.
Definition lab_run : res run_state := simulate fair_world lab None 1 100.
Definition values_of (p : string) (m : run_state) : list prim := map sp_value (filter (fun q => sp_path q = p) (m_spatches m)).
Lemma lab_values : read (fun m => (values_of "Vehicle.Speed" m, values_of "Vehicle.Heat" m, values_of "Vehicle.Tilt" m, values_of "Vehicle.Level" m)) lab_run
  = Some ([PNum (f64_of_Z 51); PNum (f64_of_Z 52); PNum (f64_of_Z 52); PNum (f64_of_Z 52); PNum (f64_of_Z 52)],
          replicate 5 (PNum (f64_of_Z 27)), replicate 5 (PNum (f64_of_Z 4)),
          [PNum (f64_of_Z 20); PNum (f64_of_Z 0); PNum (f64_of_Z 0); PNum (f64_of_Z 0); PNum (f64_of_Z 0)]).
Proof. vm_compute. reflexivity. Qed.
Lemma lab_slow : read (fun m => (length (values_of "Vehicle.Slow" m), filter (fun q => sp_path q = "Vehicle.Slow") (m_tpatches m))) lab_run = Some (5%nat, []).
Proof. vm_compute. reflexivity. Qed.
Lemma line_has : has line "min" (f64_of_Z 0) ∧ has line "max" (f64_of_Z 100) ∧ has line "slope" (f64_of_Z (-100)).
Proof. split; [|split]; is_has. Qed.
Lemma slow_has : has slow_line "min" (f64_of_Z 0) ∧ has slow_line "max" (f64_of_Z 100) ∧ has slow_line "slope" (f64_of_ratio false 1 100)
  ∧ SFltb (SFabs (minus (f64_of_Z 40) (line_target (f64_of_Z 0) (f64_of_Z 100) (f64_of_ratio false 1 100) 200 (f64_of_Z 40)))) (dec 1 200) = true.
Proof. split; [|split; [|split]]; [is_has..|by vm_compute]. Qed.

(** A battery that is updated every 500 seconds: the scenario changes three times. *)
Definition old_battery : sensor := Sensor soc (PNum (f64_of_Z 9)) "number" 8 500000 "constant" [] 0.
Definition taxi : vehicle := [[("Vehicle.Speed", slow_speed)]; [(soc, old_battery)]; []; []; []; []].
Lemma taxi_keys : NoDup (akeys (sensors taxi)).
Proof. apply (bool_decide_unpack _). vm_compute. exact I. Qed.
Definition long_run : res run_state := simulate fair_world taxi (Some (new_state "urban_traffic" (f64_of_Z 60))) 1600 20000.
Lemma long_transitions : read m_transitions long_run = Some [
  Transition 60000 "urban_traffic" "battery_charging" (f64_of_Z 9) 1;
  Transition 520000 "urban_traffic" "urban_traffic" (f64_of_Z 100) 2;
  Transition 1520000 "urban_traffic" "battery_charging" (f64_of_Z 0) 3].
Proof. vm_compute. reflexivity. Qed.
Lemma fair_experiment sc : orders_ok fair_world ∧ random_ok fair_world ∧ fair (drawing (num 3 4)) ∧ sine (w_sin fair_world)
  ∧ exists m, experiment fair_world (@rev _) (fun _ => 5) (drawing (num 3 4)) sc = Ok m ∧ m_updates m = 34082.
Proof.
  split; [apply fair_orders|]. split; [apply fair_random|]. split; [apply drawing_fair, unit_34|]. split; [apply square_sine|].
  destruct (experiment_total fair_world (@rev _) (fun _ => 5) (drawing (num 3 4)) sc fair_orders) as (v & m & _ & _ & _ & E & U); [|by exists m].
  symmetry. apply Permutation_rev.
Qed.
