(** The scenarios: exp/vss_config.go 43-445 and exp/scenario.go. *)
From Verif Require Import Base F64 Tson GoText Vss Sensor.

(** [VSSSensor] (exp/vss_config.go 43-55) without path, description, unit and [ChangeParams],
    which are not used; the categories are those of exp/vss_config.go 4-11. *)
Inductive category : Type := CHigh | CMedium | CLow | AHigh | ALow | CAttribute.
Record vss_sensor : Type := VSensor {
  vs_default : prim; vs_type : string; vs_category : category; vs_interval : Z;
  vs_min : f64; vs_max : f64; vs_patterns : list (string * string) }.
Definition in_scenarios (urban highway charging : string) : list (string * string) :=
  [("urban_traffic", urban); ("highway_cruising", highway); ("battery_charging", charging)].
Definition fz : f64 := S754_zero false.
(** [VSSSensors] (exp/vss_config.go 62-445). *)
Definition vss_sensors : list (string * vss_sensor) := [
  ("Vehicle.CurrentLocation.Latitude",
   VSensor (PNum (f64_of_ratio false 375503 10000)) "number" CHigh 50 (f64_of_Z (-90)) (f64_of_Z 90) (in_scenarios "random_walk" "linear" "constant"));
  ("Vehicle.CurrentLocation.Longitude",
   VSensor (PNum (f64_of_ratio false 1269971 10000)) "number" CHigh 50 (f64_of_Z (-180)) (f64_of_Z 180) (in_scenarios "random_walk" "linear" "constant"));
  ("Vehicle.CurrentLocation.Altitude",
   VSensor (PNum (f64_of_Z 10)) "number" CHigh 100 (f64_of_Z (-500)) (f64_of_Z 9000) (in_scenarios "random_walk" "constant_with_noise" "constant"));
  ("Vehicle.Speed",
   VSensor (PNum fz) "number" CHigh 20 fz (f64_of_Z 220) (in_scenarios "random_walk" "constant_with_noise" "constant"));
  ("Vehicle.Acceleration.Longitudinal",
   VSensor (PNum fz) "number" CHigh 20 (f64_of_Z (-20)) (f64_of_Z 20) (in_scenarios "sinusoidal" "constant_with_noise" "constant"));
  ("Vehicle.Acceleration.Lateral",
   VSensor (PNum fz) "number" CHigh 20 (f64_of_Z (-20)) (f64_of_Z 20) (in_scenarios "sinusoidal" "constant_with_noise" "constant"));
  ("Vehicle.Chassis.SteeringWheel.Angle",
   VSensor (PNum fz) "number" CHigh 25 (f64_of_Z (-180)) (f64_of_Z 180) (in_scenarios "random_walk" "constant_with_noise" "constant"));
  ("Vehicle.Powertrain.CombustionEngine.Speed",
   VSensor (PNum (f64_of_Z 800)) "number" CMedium 100 fz (f64_of_Z 8000) (in_scenarios "random_walk" "constant_with_noise" "constant"));
  ("Vehicle.Powertrain.TractionBattery.StateOfCharge.Current",
   VSensor (PNum (f64_of_Z 80)) "number" CMedium 200 fz (f64_of_Z 100) (in_scenarios "linear" "linear" "linear"));
  ("Vehicle.Powertrain.TractionBattery.Temperature",
   VSensor (PNum (f64_of_Z 25)) "number" CMedium 500 (f64_of_Z (-20)) (f64_of_Z 80) (in_scenarios "constant_with_noise" "constant_with_noise" "linear"));
  ("Vehicle.Powertrain.FuelSystem.Level",
   VSensor (PNum (f64_of_Z 80)) "number" CLow 5000 fz (f64_of_Z 100) (in_scenarios "linear" "linear" "constant"));
  ("Vehicle.Chassis.Axle.Row1.Wheel.Left.Tire.Pressure",
   VSensor (PNum (f64_of_ratio false 11 5)) "number" CLow 10000 fz (f64_of_Z 4) (in_scenarios "constant_with_noise" "constant_with_noise" "constant"));
  ("Vehicle.Chassis.Axle.Row1.Wheel.Right.Tire.Pressure",
   VSensor (PNum (f64_of_ratio false 11 5)) "number" CLow 10000 fz (f64_of_Z 4) (in_scenarios "constant_with_noise" "constant_with_noise" "constant"));
  ("Vehicle.Chassis.Brake.PedalPosition",
   VSensor (PNum fz) "number" AHigh 50 fz (f64_of_Z 100) (in_scenarios "random_walk" "toggle" "constant"));
  ("Vehicle.Chassis.Accelerator.PedalPosition",
   VSensor (PNum fz) "number" AHigh 50 fz (f64_of_Z 100) (in_scenarios "random_walk" "constant_with_noise" "constant"));
  ("Vehicle.Body.Lights.Headlight.IsActive",
   VSensor (PBool false) "boolean" ALow 5000 fz fz (in_scenarios "toggle" "toggle" "constant"));
  ("Vehicle.Body.Lights.TurnSignal.Left.IsActive",
   VSensor (PBool false) "boolean" ALow 1000 fz fz (in_scenarios "toggle" "toggle" "constant"));
  ("Vehicle.Body.Lights.TurnSignal.Right.IsActive",
   VSensor (PBool false) "boolean" ALow 1000 fz fz (in_scenarios "toggle" "toggle" "constant"));
  ("Vehicle.VehicleIdentification.VIN",
   VSensor (PStr "1HGCM82633A123456") "string" CAttribute 86400000 fz fz (in_scenarios "constant" "constant" "constant"));
  ("Vehicle.VehicleIdentification.Model",
   VSensor (PStr "Model X") "string" CAttribute 86400000 fz fz (in_scenarios "constant" "constant" "constant"));
  ("Vehicle.Powertrain.TractionBattery.Charging.IsCharging",
   VSensor (PBool false) "boolean" CMedium 1000 fz fz (in_scenarios "constant" "constant" "constant"));
  ("Vehicle.Powertrain.TractionBattery.Charging.ChargingRate",
   VSensor (PNum fz) "number" CMedium 500 fz (f64_of_Z 350) (in_scenarios "constant" "constant" "sinusoidal"));
  ("Vehicle.Powertrain.TractionBattery.Charging.TimeRemaining",
   VSensor (PNum (f64_of_Z 120)) "number" CMedium 1000 fz (f64_of_Z 500) (in_scenarios "constant" "constant" "linear"))].

Definition decimal (n d : positive) : f64 := f64_of_ratio false n d.
Definition minus_decimal (n d : positive) : f64 := f64_of_ratio true n d.
Definition soc : string := "Vehicle.Powertrain.TractionBattery.StateOfCharge.Current".
Definition remaining : string := "Vehicle.Powertrain.TractionBattery.Charging.TimeRemaining".

(** The parameters of a pattern that [InitializeVehicleData] (exp/scenario.go 44-71) and
    [updateAllSensorPatterns] (exp/scenario.go 139-187) set alike: with the slope and the
    baseline they choose. *)
Definition range_part (v : vss_sensor) (x : f64) : f64 := f64_mul (f64_sub (vs_max v) (vs_min v)) x.
Definition pattern_params (v : vss_sensor) (slope baseline : f64) (pattern : string) : list (string * f64) :=
  if decide (pattern = "random_walk") then
    [("step_size", range_part v (decimal 1 100)); ("min", vs_min v); ("max", vs_max v)]
  else if decide (pattern = "linear") then [("slope", slope); ("min", vs_min v); ("max", vs_max v)]
  else if decide (pattern = "sinusoidal") then
    [("amplitude", range_part v (decimal 1 10)); ("period", f64_of_Z 5000);
     ("baseline", f64_mul (f64_add (vs_min v) (vs_max v)) one_half)]
  else if decide (pattern = "constant_with_noise") then
    [("baseline", baseline); ("noise", range_part v (decimal 1 100))]
  else if decide (pattern = "toggle") then [("toggle_probability", decimal 1 20)]
  else [].
(** [x.(float64)]. *)
Definition as_float (x : prim) : res f64 := match x with PNum f => Ok f | _ => Panic end.

(** The sensor made of a table entry (exp/scenario.go 26-71); [now] is the time.  The slope for the
    charging battery is that of the scenario whose pattern is chosen. *)
Definition init_slope (scenario path : string) : f64 :=
  if decide (scenario = "battery_charging" ∧ path = soc) then decimal 1 10
  else if decide (scenario = "battery_charging" ∧ path = remaining) then minus_decimal 1 2
  else minus_decimal 1 25.
Definition init_sensor (scenario : string) (now : Z) (path : string) (v : vss_sensor) : res sensor :=
  let pattern := default "constant" (alookup scenario (vs_patterns v)) in
  do base <- (if decide (pattern = "constant_with_noise") then as_float (vs_default v) else Ok fz);
  Ok (Sensor path (vs_default v) (vs_type v) now (vs_interval v) pattern
        (pattern_params v (init_slope scenario path) base pattern) 0).

(** The map a sensor is put into (exp/scenario.go 74-87), as an index of the vehicle. *)
Definition map_index (c : category) : nat :=
  match c with CHigh => 0 | CMedium => 1 | CLow => 2 | AHigh => 3 | ALow => 4 | CAttribute => 5 end%nat.
Definition put_sensor (i : nat) (path : string) (s : sensor) (v : vehicle) : vehicle := alter (ainsert path s) i v.
Fixpoint init_all (scenario : string) (now : string -> Z) (table : list (string * vss_sensor)) (v : vehicle) : res vehicle :=
  match table with
  | [] => Ok v
  | (path, x) :: table' =>
      do s <- init_sensor scenario (now path) path x;
      init_all scenario now table' (put_sensor (map_index (vs_category x)) path s v)
  end.

(** [updateAllSensorPatterns] (exp/scenario.go 121-191). *)
Definition update_slope (scenario path : string) : f64 :=
  if decide (scenario = "battery_charging" ∧ path = soc) then decimal 1 10
  else if decide (scenario = "battery_charging" ∧ path = remaining) then minus_decimal 1 2
  else if has_part path "Battery" && bool_decide (scenario = "urban_traffic") then minus_decimal 1 10
  else if has_part path "Battery" && bool_decide (scenario = "highway_cruising") then minus_decimal 1 5
  else minus_decimal 1 25.
Definition update_pattern (table : list (string * vss_sensor)) (scenario path : string) (s : sensor) : res sensor :=
  match alookup path table with
  | None => Ok s
  | Some v =>
      match alookup scenario (vs_patterns v) with
      | None => Ok s
      | Some pattern =>
          do base <- (if decide (pattern = "constant_with_noise") then
                        match s_value s with PNum f => Ok f | _ => as_float (vs_default v) end
                      else Ok fz);
          Ok (set_params (pattern_params v (update_slope scenario path) base pattern) (set_pattern pattern s))
      end
  end.
Fixpoint update_map (table : list (string * vss_sensor)) (scenario : string) (g : smap) : res smap :=
  match g with
  | [] => Ok []
  | (path, s) :: g' =>
      do s' <- update_pattern table scenario path s; do r <- update_map table scenario g'; Ok ((path, s') :: r)
  end.
Fixpoint update_patterns (table : list (string * vss_sensor)) (scenario : string) (v : vehicle) : res vehicle :=
  match v with
  | [] => Ok []
  | g :: v' => do g' <- update_map table scenario g; do r <- update_patterns table scenario v'; Ok (g' :: r)
  end.

(** [if sensor, ok := vehicle.Map[path]; ok { ... }]. *)
Definition with_sensor (i : nat) (path : string) (f : sensor -> sensor) (v : vehicle) : vehicle :=
  alter (fun g => match alookup path g with Some s => ainsert path (f s) g | None => g end) i v.
(** [if sensor.ChangePattern == pattern { ... }]. *)
Definition in_pattern (pattern : string) (f : sensor -> sensor) (s : sensor) : sensor :=
  if decide (s_pattern s = pattern) then f s else s.
Definition fl (z : Z) : f64 := f64_of_Z z.
(** [a + rand.Float64()*b]. *)
Definition spread (a b : Z) (r : f64) : f64 := f64_add (fl a) (f64_mul r (fl b)).
Definition left_signal : string := "Vehicle.Body.Lights.TurnSignal.Left.IsActive".
Definition right_signal : string := "Vehicle.Body.Lights.TurnSignal.Right.IsActive".
(** The settings of a scenario: a map, a path and what happens to the sensor there. *)
Record setting : Type := Setting { st_map : nat; st_path : string; st_change : sensor -> sensor }.
Definition apply_settings (fs : list setting) (v : vehicle) : vehicle :=
  fold_left (fun v f => with_sensor (st_map f) (st_path f) (st_change f) v) fs v.

(** [applyUrbanTrafficSettings] (exp/scenario.go 198-268). *)
Definition urban_settings (d : draws) : list setting := [
  Setting 0 "Vehicle.Speed" (fun s =>
    in_pattern "random_walk" (fun s => set_param "max" (fl 70) (set_param "min" fz (set_param "step_size" (fl 2) s)))
      (set_value (PNum (spread 40 20 (d_float d 0))) s));
  Setting 0 "Vehicle.CurrentLocation.Latitude" (in_pattern "random_walk" (set_param "step_size" (fl 1)));
  Setting 0 "Vehicle.CurrentLocation.Longitude" (in_pattern "random_walk" (set_param "step_size" (fl 1)));
  Setting 0 "Vehicle.Chassis.SteeringWheel.Angle" (in_pattern "sinusoidal" (fun s =>
    set_param "baseline" fz (set_param "period" (fl 10000) (set_param "amplitude" (fl 15) s))));
  Setting 0 "Vehicle.Acceleration.Longitudinal" (in_pattern "random_walk" (fun s =>
    set_param "max" (fl 2) (set_param "min" (fl (-3)) (set_param "step_size" one_half s))));
  Setting 3 "Vehicle.Chassis.Brake.PedalPosition" (in_pattern "random_walk" (set_param "step_size" (fl 5)));
  Setting 3 "Vehicle.Chassis.Accelerator.PedalPosition" (in_pattern "random_walk" (set_param "step_size" (fl 3)));
  Setting 4 left_signal (in_pattern "toggle" (set_param "toggle_probability" (decimal 1 50)));
  Setting 4 right_signal (in_pattern "toggle" (set_param "toggle_probability" (decimal 1 50)))].

(** [applyHighwayCruisingSettings] (exp/scenario.go 271-342). *)
Definition noisy (baseline noise : f64) : sensor -> sensor :=
  in_pattern "constant_with_noise" (fun s => set_param "noise" noise (set_param "baseline" baseline s)).
Definition highway_settings (d : draws) : list setting := [
  Setting 0 "Vehicle.Speed" (fun s => noisy (fl 100) one_half (set_value (PNum (spread 90 20 (d_float d 0))) s));
  Setting 0 "Vehicle.Chassis.SteeringWheel.Angle" (noisy fz (decimal 1 5));
  Setting 0 "Vehicle.Acceleration.Longitudinal" (fun s => noisy fz (decimal 1 10) (set_value (PNum fz) s));
  Setting 0 "Vehicle.CurrentLocation.Latitude" (in_pattern "linear" (set_param "slope" (decimal 1 10)));
  Setting 0 "Vehicle.CurrentLocation.Longitude" (in_pattern "linear" (set_param "slope" (decimal 1 10)));
  Setting 3 "Vehicle.Chassis.Brake.PedalPosition" (fun s =>
    in_pattern "toggle" (set_param "toggle_probability" (decimal 1 100)) (set_value (PNum fz) s));
  Setting 3 "Vehicle.Chassis.Accelerator.PedalPosition" (fun s => noisy (fl 25) one_half (set_value (PNum (fl 25)) s));
  Setting 4 left_signal (in_pattern "toggle" (set_param "toggle_probability" (decimal 1 200)));
  Setting 4 right_signal (in_pattern "toggle" (set_param "toggle_probability" (decimal 1 200)))].

(** [applyBatteryChargingSettings] (exp/scenario.go 345-409). *)
Definition charging_settings (d : draws) : list setting := [
  Setting 0 "Vehicle.Speed" (set_value (PNum fz));
  Setting 0 "Vehicle.Chassis.SteeringWheel.Angle" (set_value (PNum fz));
  Setting 0 "Vehicle.Acceleration.Longitudinal" (set_value (PNum fz));
  Setting 3 "Vehicle.Chassis.Brake.PedalPosition" (set_value (PNum fz));
  Setting 3 "Vehicle.Chassis.Accelerator.PedalPosition" (set_value (PNum fz));
  Setting 1 soc (in_pattern "linear" (set_param "slope" (decimal 1 5)));
  Setting 1 "Vehicle.Powertrain.TractionBattery.Temperature" (in_pattern "linear" (set_param "slope" (decimal 1 1000)));
  Setting 1 "Vehicle.Powertrain.TractionBattery.Charging.IsCharging" (set_value (PBool true));
  Setting 1 "Vehicle.Powertrain.TractionBattery.Charging.ChargingRate" (fun s =>
    in_pattern "sinusoidal" (fun s => set_param "baseline" (decimal 23 2) (set_param "period" (fl 15000) (set_param "amplitude" (fl 1) s)))
      (set_value (PNum (spread 11 2 (d_float d 1))) s));
  Setting 1 remaining (fun s =>
    in_pattern "linear" (set_param "slope" (minus_decimal 1 20))
      (match s_value s with
       | PNum x => if SFleb x fz then set_value (PNum (spread 120 60 (d_float d 2))) s else s
       | _ => set_value (PNum (spread 120 60 (d_float d 2))) s
       end))].

(** [applyScenarioSettingsForMixed] (exp/scenario.go 721-734), and the end of
    [applyScenarioSettings] (exp/scenario.go 94-118). *)
Definition settings (scenario : string) (d : draws) (v : vehicle) : vehicle :=
  if decide (scenario = "urban_traffic") then apply_settings (urban_settings d) v
  else if decide (scenario = "highway_cruising") then apply_settings (highway_settings d) v
  else if decide (scenario = "battery_charging") then apply_settings (charging_settings d) v
  else v.
Definition apply_mixed (table : list (string * vss_sensor)) (scenario : string) (d : draws) (v : vehicle) : res vehicle :=
  do v1 <- update_patterns table scenario v; Ok (settings scenario d v1).
Definition apply_scenario (table : list (string * vss_sensor)) (scenario : string) (d : draws) (v : vehicle) : res vehicle :=
  let actual := if decide (scenario = "mixed_scenario") then "urban_traffic" else scenario in
  do v1 <- update_patterns table actual v;
  let v2 := if decide (scenario = "battery_charging")
            then with_sensor 1 soc (set_value (PNum (spread 20 20 (d_float d 0)))) v1 else v1 in
  Ok (settings actual d v2).
(** [InitializeVehicleData] (exp/scenario.go 14-91).  [ord] is the iteration order of the table,
    [now] the times at which its entries are read. *)
Definition init_vehicle (ord : list (string * vss_sensor) -> list (string * vss_sensor)) (now : string -> Z)
    (scenario : string) (d : draws) : res vehicle :=
  do v <- init_all scenario now (ord vss_sensors) (replicate 6 []);
  apply_scenario vss_sensors scenario d v.

(** [ScenarioState] (exp/scenario.go 644-661); the cooldown is always 60000. *)
Record scenario_state : Type := SState {
  ss_current : string; ss_previous : string; ss_level : f64; ss_last : Z }.
Definition cooldown : Z := 60000.
Definition new_state (scenario : string) (level : f64) : scenario_state := SState scenario scenario level 0.
(** [UpdateScenarioState] (exp/scenario.go 664-718): the new state and vehicle, and whether the
    scenario has changed. *)
Definition battery_level (v : vehicle) (old : f64) : f64 :=
  match v !! 1%nat with
  | Some g => match alookup soc g with
              | Some s => match s_value s with PNum f => f | _ => old end
              | None => old
              end
  | None => old
  end.
Definition update_state (table : list (string * vss_sensor)) (d : draws) (t : Z) (v : vehicle) (st : scenario_state)
  : res (scenario_state * vehicle * bool) :=
  let level := battery_level v (ss_level st) in
  let st1 := SState (ss_current st) (ss_previous st) level (ss_last st) in
  if t - ss_last st <? cooldown then Ok (st1, v, false)
  else
    let '(cur, prev) :=
      if decide (ss_current st = "urban_traffic") then
        if SFleb level (fl 10) then ("battery_charging", ss_current st) else (ss_current st, ss_previous st)
      else if decide (ss_current st = "battery_charging") then
        if f64_ge level (decimal 1999 20) then (ss_previous st, ss_previous st) else (ss_current st, ss_previous st)
      else (ss_current st, ss_previous st) in
    if decide (ss_current st = cur) then Ok (SState cur prev level (ss_last st), v, false)
    else do v' <- apply_mixed table cur d v; Ok (SState cur prev level t, v', true).
