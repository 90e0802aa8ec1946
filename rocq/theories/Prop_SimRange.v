(** Properties C79-C80: the ranges of the simulated values and the transitions of the mixed
    scenario. *)
From Verif Require Import Base BaseSpec F64 GoText Tson Bytes Vss VssSpec Sensor Scenario Sim SimSpec SimTrans SimLine RangeSpec SimRange SimTable SimDemo RangeDemo.

(** C79: every value recorded for a sensor is in the range of its pattern and parameters. *)
Theorem C79_range : forall w v sec inc m p s lo hi, simulate w v None sec inc = Ok m -> orders_ok w -> NoDup (akeys (sensors v)) -> 0 < inc ->
  sec * 1000 < 2 ^ 63 -> random_ok w -> sine (w_sin w) -> (p, s) ∈ sensors v -> range_of s lo hi ->
  forall q, q ∈ m_spatches m -> sp_path q = p -> within lo hi (sp_value q).
Proof. exact values_range. Qed.
Print Assumptions C79_range.
Example C79_range_case : orders_ok fair_world ∧ random_ok fair_world ∧ sine (w_sin fair_world) ∧ NoDup (akeys (sensors lab))
  ∧ (range_of walker (f64_of_Z 0) (f64_of_Z 52) ∧ range_of noisy_one (f64_of_Z 21) (f64_of_Z 29)
     ∧ range_of wave (f64_of_Z (-2)) (f64_of_Z 4) ∧ range_of line (f64_of_Z 0) (f64_of_Z 100))
  ∧ read (fun m => (values_of "Vehicle.Speed" m, values_of "Vehicle.Heat" m, values_of "Vehicle.Tilt" m, values_of "Vehicle.Level" m)) lab_run
    = Some ([PNum (f64_of_Z 51); PNum (f64_of_Z 52); PNum (f64_of_Z 52); PNum (f64_of_Z 52); PNum (f64_of_Z 52)],
            replicate 5 (PNum (f64_of_Z 27)), replicate 5 (PNum (f64_of_Z 4)),
            [PNum (f64_of_Z 20); PNum (f64_of_Z 0); PNum (f64_of_Z 0); PNum (f64_of_Z 0); PNum (f64_of_Z 0)]).
Proof. exact (conj fair_orders (conj fair_random (conj square_sine (conj lab_keys (conj lab_ranges lab_values))))). Qed.
(** C79: in every experiment of the program, each number recorded is between the least and the
    greatest value that the table of sensors gives, each boolean sensor has booleans, and the texts
    stay what they are. *)
Theorem C79_table : forall w ord now d sc m p e, experiment w ord now d sc = Ok m -> orders_ok w -> Permutation (ord vss_sensors) vss_sensors ->
  random_ok w -> fair d -> sine (w_sin w) -> (p, e) ∈ vss_sensors ->
  forall q, q ∈ m_spatches m -> sp_path q = p ->
  match vs_default e with
  | PNum _ => within (vs_min e) (vs_max e) (sp_value q)
  | PBool _ => exists b, sp_value q = PBool b
  | PStr x => sp_value q = PStr x
  end.
Proof. exact table_values. Qed.
Print Assumptions C79_table.
(** C79: ... and some stay in narrower ranges, which differ by the scenario. *)
Theorem C79_scenarios : forall w ord now d sc m p lo hi, experiment w ord now d sc = Ok m -> orders_ok w -> Permutation (ord vss_sensors) vss_sensors ->
  random_ok w -> fair d -> sine (w_sin w) -> (sc, p, lo, hi) ∈ scenario_ranges ->
  forall q, q ∈ m_spatches m -> sp_path q = p -> within lo hi (sp_value q).
Proof. exact narrow_values. Qed.
Print Assumptions C79_scenarios.
(** C79: a sensor on a line moves by its slope and interval at each update, whatever the time that
    has passed; it keeps the moves of at least 0.005.  If the first move is smaller, it never
    changes. *)
Theorem C79_line : forall w v sec inc m p s lo hi k x, simulate w v None sec inc = Ok m -> orders_ok w -> NoDup (akeys (sensors v)) ->
  (p, s) ∈ sensors v -> follows s "linear" -> has s "min" lo -> has s "max" hi -> has s "slope" k -> s_value s = PNum x ->
  let target := line_target lo hi k (s_interval s) in
  let updates := filter (fun q => sp_path q = p) (m_spatches m) in
  (forall i q, updates !! i = Some q -> sp_value q = PNum (target (Nat.iter i (taken target) x))) ∧
  (exists s', (p, s') ∈ sensors (m_vehicle m) ∧ s_value s' = PNum (Nat.iter (length updates) (taken target) x)) ∧
  (SFltb (SFabs (minus x (target x))) (dec 1 200) = true -> forall q, q ∈ m_tpatches m -> sp_path q ≠ p).
Proof. exact line_moves. Qed.
Print Assumptions C79_line.
Example C79_line_case : orders_ok fair_world ∧ NoDup (akeys (sensors lab))
  ∧ (has line "min" (f64_of_Z 0) ∧ has line "max" (f64_of_Z 100) ∧ has line "slope" (f64_of_Z (-100)))
  ∧ (has slow_line "min" (f64_of_Z 0) ∧ has slow_line "max" (f64_of_Z 100) ∧ has slow_line "slope" (f64_of_ratio false 1 100)
     ∧ SFltb (SFabs (minus (f64_of_Z 40) (line_target (f64_of_Z 0) (f64_of_Z 100) (f64_of_ratio false 1 100) 200 (f64_of_Z 40)))) (dec 1 200) = true)
  ∧ read (fun m => (length (values_of "Vehicle.Slow" m), filter (fun q => sp_path q = "Vehicle.Slow") (m_tpatches m))) lab_run = Some (5%nat, []).
Proof. exact (conj fair_orders (conj lab_keys (conj line_has (conj slow_has lab_slow)))). Qed.
(** C79: the lines of the program end with the same values in every run; in the highway scenario the
    latitude goes from 37.55 to 52.55 while the longitude does not change at all. *)
Theorem C79_line_results : forall w ord now d sc m p x0 x1, experiment w ord now d sc = Ok m -> orders_ok w -> Permutation (ord vss_sensors) vss_sensors ->
  (sc, p, x0, x1) ∈ line_results ->
  exists s z0 z, (p, s) ∈ sensors (m_vehicle m) ∧ s_value s = PNum x1 ∧ latest (m_tpatches m) p (PNum x0) z0 (PNum x1) z.
Proof. exact line_values. Qed.
Print Assumptions C79_line_results.

(** C80: the transitions of a mixed scenario: numbered from 1, the first to charging with at most 10
    percent left, then alternately; those back are at 99.95 percent or more, and recorded as if the
    scenario had been the urban one all the time.  There are sixty seconds before the first and
    between two, and none is missed. *)
Theorem C80_transitions : forall w v sec inc m l g s x, simulate w v (Some (new_state "urban_traffic" l)) sec inc = Ok m -> orders_ok w ->
  NoDup (akeys (sensors v)) -> 0 < inc -> v !! 1%nat = Some g -> (soc, s) ∈ g -> s_type s = "number" -> s_value s = PNum x ->
  (forall i tr, m_transitions m !! i = Some tr ->
     tr_count tr = Z.of_nat i + 1 ∧ tr_from tr = "urban_traffic" ∧ Row soc (tr_time tr) (PNum (tr_level tr)) ∈ m_rows m ∧
     if Nat.even i then tr_to tr = "battery_charging" ∧ SFleb (tr_level tr) (f64_of_Z 10) = true
     else tr_to tr = "urban_traffic" ∧ SFleb (f64_of_ratio false 9995 100) (tr_level tr) = true) ∧
  (forall tr, m_transitions m !! 0%nat = Some tr -> 60000 <= tr_time tr) ∧
  (forall i a b, m_transitions m !! i = Some a -> m_transitions m !! S i = Some b -> tr_time a + 60000 <= tr_time b) ∧
  (forall t y, Row soc t (PNum y) ∈ m_rows m -> 60000 <= t ->
     let before := filter (fun tr => tr_time tr < t) (m_transitions m) in
     (forall tr, tr ∈ before -> tr_time tr + 60000 <= t) ->
     (if Nat.even (length before) then SFleb y (f64_of_Z 10) = true else SFleb (f64_of_ratio false 9995 100) y = true) ->
     exists tr, tr ∈ m_transitions m ∧ tr_time tr = t).
Proof. exact transitions_spec. Qed.
Print Assumptions C80_transitions.
Example C80_transitions_case : orders_ok fair_world ∧ NoDup (akeys (sensors taxi)) ∧ taxi !! 1%nat = Some [(soc, old_battery)]
  ∧ read m_transitions long_run = Some [
      Transition 60000 "urban_traffic" "battery_charging" (f64_of_Z 9) 1;
      Transition 520000 "urban_traffic" "urban_traffic" (f64_of_Z 100) 2;
      Transition 1520000 "urban_traffic" "battery_charging" (f64_of_Z 0) 3].
Proof. exact (conj fair_orders (conj taxi_keys (conj eq_refl long_transitions))). Qed.
(** C80: no experiment of the program has a transition, not even the mixed one, and so the sensors
    at its end have the values of the TSON patches and the times of the updates. *)
Theorem C80_experiment : forall w ord now d sc m, experiment w ord now d sc = Ok m -> orders_ok w -> Permutation (ord vss_sensors) vss_sensors ->
  m_transitions m = [] ∧ Permutation (akeys (sensors (m_vehicle m))) (akeys vss_sensors) ∧
  forall p, p ∈ akeys vss_sensors -> exists s v0 z0 x z, (p, s) ∈ sensors (m_vehicle m) ∧
    latest (m_tpatches m) p v0 z0 (s_value s) z ∧ latest (m_spatches m) p v0 z0 x (s_stamp s) ∧ close (s_value s) x.
Proof. exact experiment_sensors. Qed.
Print Assumptions C80_experiment.
(** Every experiment ends, in the fair world as in any other. *)
Example C79_experiment_case : forall sc, orders_ok fair_world ∧ random_ok fair_world ∧ fair (drawing (num 3 4)) ∧ sine (w_sin fair_world)
  ∧ exists m, experiment fair_world (@rev _) (fun _ => 5) (drawing (num 3 4)) sc = Ok m ∧ m_updates m = 34082.
Proof. exact fair_experiment. Qed.
