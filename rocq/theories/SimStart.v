(** The sensors at the start of the experiments of the program. *)
From Verif Require Import Base BaseSpec BaseLemmas F64 GoText Tson Bytes TjsonSpec TjsonLemmas Vss VssSpec Sensor Scenario Sim SimSpec SimTrace SimLemmas SimTimes SimDocs SimFinal SimInit SimPlace SimExp SimRows SimTrans SimQuiet.

Definition still_draws : draws := {| d_float := fun _ => fz; d_int := fun _ _ => 0 |}.
Definition base_sensor (sc : string) (e : string * vss_sensor) : sensor := start_sensor sc (fun _ => 0) still_draws e.
Definition program_scenarios : list string := ["urban_traffic"; "highway_cruising"; "battery_charging"; "mixed_scenario"].
Definition rate : string := "Vehicle.Powertrain.TractionBattery.Charging.ChargingRate".
(** The value of a sensor at the start: drawn for some. *)
Definition start_prim (sc : string) (d : draws) (e : string * vss_sensor) : prim :=
  if decide (fst e = "Vehicle.Speed" ∧ (sc = "urban_traffic" ∨ sc = "mixed_scenario")) then PNum (spread 40 20 (d_float d 0))
  else if decide (fst e = "Vehicle.Speed" ∧ sc = "highway_cruising") then PNum (spread 90 20 (d_float d 0))
  else if decide (fst e = soc ∧ sc = "battery_charging") then PNum (spread 20 20 (d_float d 0))
  else if decide (fst e = rate ∧ sc = "battery_charging") then PNum (spread 11 2 (d_float d 1))
  else s_value (base_sensor sc e).
Definition same_kind (s s0 : sensor) : Prop :=
  s_type s = s_type s0 ∧ s_interval s = s_interval s0 ∧ s_pattern s = s_pattern s0 ∧ s_params s = s_params s0.
Ltac each_in H := repeat (apply elem_of_cons in H as [->|H]; [|]); [..|by apply elem_of_nil in H].
Lemma start_kind sc now d e : sc ∈ program_scenarios -> e ∈ vss_sensors ->
  same_kind (start_sensor sc now d e) (base_sensor sc e) ∧ s_value (start_sensor sc now d e) = start_prim sc d e.
Proof.
  intros Hs He. unfold program_scenarios in Hs. unfold vss_sensors in He. each_in Hs.
  all: each_in He. all: repeat split; vm_compute; reflexivity.
Qed.
