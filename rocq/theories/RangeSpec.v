(** The range in which the values of a simulated sensor should stay, stated on its pattern and
    parameters. *)
From Verif Require Import Base F64 Tson GoText Vss VssSpec Sensor Scenario Sim.

(** A finite number. *)
Definition number (x : f64) : Prop := f64_valid x = true ∧ f64_finite x = true.
Definition fl_le (x y : f64) : Prop := SFleb x y = true.
Definition within (lo hi : f64) (v : prim) : Prop := exists x, v = PNum x ∧ fl_le lo x ∧ fl_le x hi.
(** The random numbers are those [math/rand] can return; a sine is between -1 and 1. *)
Definition random_ok (w : world) : Prop := (forall t p, fair (w_draws w t p)) ∧ (forall t, fair (w_setting w t)).
Definition sine (f : f64 -> f64) : Prop :=
  forall x, f64_finite x = true -> number (f x) ∧ fl_le (f64_of_Z (-1)) (f x) ∧ fl_le (f x) (f64_of_Z 1).

Definition zero : f64 := S754_zero false.
Definition minus (x y : f64) : f64 := SFsub f64_prec f64_emax x y.
Definition plus (x y : f64) : f64 := SFadd f64_prec f64_emax x y.
(** The sensor is a number that follows the given pattern. *)
Definition follows (s : sensor) (pattern : string) : Prop := s_type s = "number" ∧ s_pattern s = pattern.
(** The parameter [k] is [x], a finite number. *)
Definition has (s : sensor) (k : string) (x : f64) : Prop := alookup k (s_params s) = Some x ∧ number x.
(** [range_of s lo hi]: the values of the sensor should be from [lo] to [hi]. *)
Inductive range_of (s : sensor) : f64 -> f64 -> Prop :=
| rg_linear lo hi k x : follows s "linear" -> has s "min" lo -> has s "max" hi -> has s "slope" k -> fl_le lo hi ->
    Z.abs (s_interval s) <= 2 ^ 63 -> s_value s = PNum x -> number x -> range_of s lo hi
| rg_walk lo hi k x : follows s "random_walk" -> has s "min" lo -> has s "max" hi -> has s "step_size" k -> fl_le zero k -> fl_le lo hi ->
    s_value s = PNum x -> number x -> range_of s lo hi
| rg_stepped lo hi k x : follows s "stepped" -> has s "min" lo -> has s "max" hi -> has s "step_size" k ->
    s_value s = PNum x -> number x -> fl_le lo x -> fl_le x hi -> range_of s lo hi
| rg_noise b k x : follows s "constant_with_noise" -> has s "baseline" b -> has s "noise" k -> fl_le zero k ->
    s_value s = PNum x -> range_of s (minus b k) (plus b k)
| rg_wave b k l x : follows s "sinusoidal" -> has s "baseline" b -> has s "amplitude" k -> fl_le zero k ->
    has s "period" l -> fl_le (f64_of_Z 1) l -> s_value s = PNum x -> range_of s (minus b k) (plus b k)
| rg_triggered lo hi x : follows s "triggered" -> has s "min_value" lo -> has s "max_value" hi -> fl_le lo hi -> number (minus hi lo) ->
    s_value s = PNum x -> fl_le lo x -> fl_le x (plus lo (minus hi lo)) -> range_of s lo (plus lo (minus hi lo))
| rg_still x : s_type s = "number" ->
    s_pattern s ∉ ["linear"; "random_walk"; "stepped"; "constant_with_noise"; "sinusoidal"; "triggered"] ->
    s_value s = PNum x -> number x -> range_of s x x.

(** Narrower ranges of some sensors in the scenarios of the program: scenario, path, least and
    greatest value. *)
Definition dec (n d : positive) : f64 := f64_of_ratio false n d.
Definition neg (n d : positive) : f64 := f64_of_ratio true n d.
Definition scenario_ranges : list (string * string * f64 * f64) := [
  ("urban_traffic", "Vehicle.Speed", zero, dec 70 1);
  ("urban_traffic", "Vehicle.Acceleration.Longitudinal", neg 4 1, dec 4 1);
  ("urban_traffic", "Vehicle.Acceleration.Lateral", neg 4 1, dec 4 1);
  ("urban_traffic", "Vehicle.Powertrain.TractionBattery.Temperature", dec 24 1, dec 26 1);
  ("urban_traffic", "Vehicle.Chassis.Axle.Row1.Wheel.Left.Tire.Pressure", dec 216 100, dec 224 100);
  ("urban_traffic", "Vehicle.Chassis.Axle.Row1.Wheel.Right.Tire.Pressure", dec 216 100, dec 224 100);
  ("urban_traffic", "Vehicle.Powertrain.TractionBattery.Charging.ChargingRate", zero, zero);
  ("urban_traffic", "Vehicle.Powertrain.TractionBattery.Charging.TimeRemaining", dec 120 1, dec 120 1);
  ("mixed_scenario", "Vehicle.Speed", zero, dec 70 1);
  ("mixed_scenario", "Vehicle.Acceleration.Longitudinal", neg 4 1, dec 4 1);
  ("mixed_scenario", "Vehicle.Acceleration.Lateral", neg 4 1, dec 4 1);
  ("mixed_scenario", "Vehicle.Powertrain.TractionBattery.Temperature", dec 24 1, dec 26 1);
  ("mixed_scenario", "Vehicle.Chassis.Axle.Row1.Wheel.Left.Tire.Pressure", dec 216 100, dec 224 100);
  ("mixed_scenario", "Vehicle.Chassis.Axle.Row1.Wheel.Right.Tire.Pressure", dec 216 100, dec 224 100);
  ("mixed_scenario", "Vehicle.Powertrain.TractionBattery.Charging.ChargingRate", zero, zero);
  ("mixed_scenario", "Vehicle.Powertrain.TractionBattery.Charging.TimeRemaining", dec 120 1, dec 120 1);
  ("highway_cruising", "Vehicle.Speed", dec 199 2, dec 201 2);
  ("highway_cruising", "Vehicle.Acceleration.Longitudinal", neg 1 10, dec 1 10);
  ("highway_cruising", "Vehicle.Acceleration.Lateral", neg 2 5, dec 2 5);
  ("highway_cruising", "Vehicle.Chassis.SteeringWheel.Angle", neg 1 5, dec 1 5);
  ("highway_cruising", "Vehicle.Powertrain.CombustionEngine.Speed", dec 720 1, dec 880 1);
  ("highway_cruising", "Vehicle.CurrentLocation.Altitude", neg 85 1, dec 105 1);
  ("highway_cruising", "Vehicle.Chassis.Accelerator.PedalPosition", dec 49 2, dec 51 2);
  ("highway_cruising", "Vehicle.Chassis.Brake.PedalPosition", zero, zero);
  ("highway_cruising", "Vehicle.Powertrain.TractionBattery.Temperature", dec 24 1, dec 26 1);
  ("battery_charging", "Vehicle.Speed", zero, zero);
  ("battery_charging", "Vehicle.Acceleration.Longitudinal", zero, zero);
  ("battery_charging", "Vehicle.Chassis.SteeringWheel.Angle", zero, zero);
  ("battery_charging", "Vehicle.Chassis.Brake.PedalPosition", zero, zero);
  ("battery_charging", "Vehicle.Chassis.Accelerator.PedalPosition", zero, zero);
  ("battery_charging", "Vehicle.Powertrain.CombustionEngine.Speed", dec 800 1, dec 800 1);
  ("battery_charging", "Vehicle.Powertrain.TractionBattery.Charging.ChargingRate", dec 21 2, dec 25 2)].

(** ** Lines *)
Definition limit (lo hi x : f64) : f64 := if SFltb x lo then lo else if SFltb hi x then hi else x.
(** Where a slope of [k] per second leads in [i] milliseconds ... *)
Definition line_target (lo hi k : f64) (i : Z) (x : f64) : f64 :=
  limit lo hi (plus x (SFdiv f64_prec f64_emax (SFmul f64_prec f64_emax k (f64_of_Z i)) (f64_of_Z 1000))).
(** ... and what a sensor keeps of it: differences below 0.005 are ignored. *)
Definition taken (target : f64 -> f64) (x : f64) : f64 :=
  if SFltb (SFabs (minus x (target x))) (dec 1 200) then x else target x.
(** Lines of the program: scenario, path, value at the start and at the end. *)
Definition location (axis : string) : string := "Vehicle.CurrentLocation." +++ axis.
Definition battery (what : string) : string := "Vehicle.Powertrain.TractionBattery." +++ what.
Definition line_results : list (string * string * f64 * f64) := [
  ("urban_traffic", battery "StateOfCharge.Current", dec 80 1, dec 50000000000000995 1000000000000000);
  ("highway_cruising", battery "StateOfCharge.Current", dec 80 1, dec 19999999999998444 1000000000000000);
  ("mixed_scenario", battery "StateOfCharge.Current", dec 60 1, dec 2999999999999567 100000000000000);
  ("highway_cruising", location "Latitude", dec 375503 10000, dec 52550300000007674 1000000000000000);
  ("highway_cruising", location "Longitude", dec 1269971 10000, dec 1269971 10000);
  ("urban_traffic", "Vehicle.Powertrain.FuelSystem.Level", dec 80 1, dec 6799999999999983 100000000000000);
  ("battery_charging", battery "Temperature", dec 25 1, dec 25 1);
  ("battery_charging", battery "Charging.TimeRemaining", dec 120 1, dec 10500000000000085 100000000000000)].
