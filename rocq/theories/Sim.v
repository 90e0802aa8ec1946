(** The simulation of a vehicle: [runRealisticExperiment] (exp/exp_scenario.go 314-629) without the
    measured times, the progress display and the writing of files. *)
From Verif Require Import Base F64 Tson Bytes Vss Sensor Scenario.

(** [JsonPatch] and [TsonPatch] (exp/exp_scenario.go 44-57); the operation is always "replace". *)
Inductive patch_value : Type := PVal (v : prim) | PTime (t : Z).
Record jpatch : Type := JPatch { jp_path : string; jp_value : patch_value }.
Record spatch : Type := SPatch { sp_path : string; sp_value : prim; sp_ts : Z }.
(** [TimingRecord] (exp/exp_scenario.go 91-98) without the measured times. *)
Record timing : Type := Timing { tm_index : Z; tm_time : Z; tm_path : string; tm_changed : bool }.
(** [ScenarioTransition] (exp/exp_scenario.go 60-66). *)
Record transition : Type := Transition { tr_time : Z; tr_from : string; tr_to : string; tr_level : f64; tr_count : Z }.
(** A row of the sensor data files (exp/sensor_data_save.go 71-130) without the measured time; the
    value is not yet formatted. *)
Record row : Type := Row { rw_path : string; rw_time : Z; rw_value : prim }.

(** The variables of the loop (exp/exp_scenario.go 345-393). *)
Record run_state : Type := Sim {
  m_vehicle : vehicle; m_scenario : option scenario_state; m_transitions : list transition;
  m_json : doc; m_tson : doc;
  m_jpatches : list jpatch; m_tpatches : list spatch; m_spatches : list spatch;
  m_updates : Z; m_changes : Z; m_stamps : Z;
  m_timing : list timing; m_rows : list row;
  m_times : list Z; m_jcounts : list nat; m_tcounts : list nat }.

(** What the run does not determine: [math.Sin], the results of [math/rand] for a sensor and at the
    scenario's settings, the iteration orders of the maps, and how far an unbounded loop is
    followed. *)
Record world : Type := World {
  w_sin : f64 -> f64; w_fuel : nat; w_draws : Z -> string -> draws; w_setting : Z -> draws;
  w_order : Z -> nat -> smap -> smap; w_doc_order : string -> nat -> smap -> smap }.

(** ** One sensor (exp/exp_scenario.go 460-565) *)
(** What an update adds to the variables: documents, patches, counters and the timing record. *)
Definition note_update (path : string) (v : prim) (t : Z) (changed : bool) (m : run_state) : run_state :=
  Sim (m_vehicle m) (m_scenario m) (m_transitions m)
    (update_json path v t (m_json m))
    (if changed then update_tson path v t (m_tson m) else m_tson m)
    (m_jpatches m ++ JPatch (path +++ "/timestamp") (PTime t)
       :: (if changed then [JPatch (path +++ "/value") (PVal v)] else []))
    (if changed then m_tpatches m ++ [SPatch path v t] else m_tpatches m)
    (m_spatches m ++ [SPatch path v t])
    (m_updates m + 1)
    (if changed then m_changes m + 1 else m_changes m)
    (if changed then m_stamps m else m_stamps m + 1)
    (m_timing m ++ [Timing (m_updates m + 1) t path changed])
    (m_rows m) (m_times m) (m_jcounts m) (m_tcounts m).
Definition run_sensor (w : world) (t : Z) (path : string) (s : sensor) (m : run_state) : res (sensor * run_state) :=
  if decide (s_interval s = 0) then Panic
  else if decide (Z.rem t (s_interval s) = 0) then
    do r <- new_value (w_sin w) (w_fuel w) (w_draws w t path) t s;
    let '(s1, v) := r in
    let changed := negb (is_equal (s_value s) v) in
    Ok (set_stamp t (if changed then set_value v s1 else s1), note_update path v t changed m)
  else Ok (s, m).
(** The sensors of a map in the given order, and those of all maps (exp/exp_scenario.go 451-459). *)
Fixpoint run_map (w : world) (t : Z) (g : smap) (m : run_state) : res (smap * run_state) :=
  match g with
  | [] => Ok ([], m)
  | (path, s) :: g' =>
      do r <- run_sensor w t path s m;
      do r' <- run_map w t g' (snd r);
      Ok ((path, fst r) :: fst r', snd r')
  end.
Fixpoint run_maps (w : world) (t : Z) (i : nat) (v : vehicle) (m : run_state) : res (vehicle * run_state) :=
  match v with
  | [] => Ok ([], m)
  | g :: v' =>
      do r <- run_map w t (w_order w t i g) m;
      do r' <- run_maps w t (S i) v' (snd r);
      Ok (fst r :: fst r', snd r')
  end.

(** ** One time step (exp/exp_scenario.go 396-567) *)
Definition set_vehicle (v : vehicle) (m : run_state) : run_state :=
  Sim v (m_scenario m) (m_transitions m) (m_json m) (m_tson m) (m_jpatches m) (m_tpatches m) (m_spatches m)
    (m_updates m) (m_changes m) (m_stamps m) (m_timing m) (m_rows m) (m_times m) (m_jcounts m) (m_tcounts m).
(** The scenario transitions (exp/exp_scenario.go 400-420); there is a state in the mixed scenario
    only. *)
Definition switch (w : world) (t : Z) (m : run_state) : res run_state :=
  match m_scenario m with
  | None => Ok m
  | Some st =>
      do r <- update_state vss_sensors (w_setting w t) t (m_vehicle m) st;
      let '(st', v', changed) := r in
      let n := Z.of_nat (length (m_transitions m)) in
      Ok (Sim v' (Some st')
            (if changed : bool then m_transitions m ++ [Transition t (ss_previous st') (ss_current st') (ss_level st') (n + 1)]
             else m_transitions m)
            (m_json m) (m_tson m) (m_jpatches m) (m_tpatches m) (m_spatches m)
            (m_updates m) (m_changes m) (m_stamps m) (m_timing m) (m_rows m) (m_times m) (m_jcounts m) (m_tcounts m))
  end.
(** The vectors (exp/exp_scenario.go 423-427) and [RecordSensorData] (exp/sensor_data_save.go
    12-18, 71-130). *)
Definition key_sensors : list string := [
  "Vehicle.CurrentLocation.Latitude"; "Vehicle.CurrentLocation.Longitude"; "Vehicle.Speed"; soc; left_signal].
Fixpoint find_sensor (path : string) (v : vehicle) : option sensor :=
  match v with
  | [] => None
  | g :: v' => match alookup path g with Some s => Some s | None => find_sensor path v' end
  end.
Definition record (t : Z) (m : run_state) : run_state :=
  let cum := Z.rem t 10000 =? 0 in
  Sim (m_vehicle m) (m_scenario m) (m_transitions m) (m_json m) (m_tson m) (m_jpatches m) (m_tpatches m) (m_spatches m)
    (m_updates m) (m_changes m) (m_stamps m) (m_timing m)
    (m_rows m ++ omap (fun p => match find_sensor p (m_vehicle m) with
                                | Some s => Some (Row p t (s_value s))
                                | None => None
                                end) key_sensors)
    (if cum then m_times m ++ [t] else m_times m)
    (if cum then m_jcounts m ++ [length (m_jpatches m)] else m_jcounts m)
    (if cum then m_tcounts m ++ [length (m_tpatches m)] else m_tcounts m).
Definition tick (w : world) (t : Z) (m : run_state) : res run_state :=
  do m1 <- switch w t m;
  let m2 := record t m1 in
  do r <- run_maps w t 0 (m_vehicle m2) m2;
  Ok (set_vehicle (fst r) (snd r)).

(** ** The run *)
Fixpoint run_times (w : world) (ts : list Z) (m : run_state) : res run_state :=
  match ts with
  | [] => Ok m
  | t :: ts' => do m' <- tick w t m; run_times w ts' m'
  end.
(** [for t := 0; t < duration; t += inc]. *)
Definition loop_times (duration inc : Z) : list Z :=
  map (fun i => Z.of_nat i * inc) (seq 0 (Z.to_nat ((duration + inc - 1) / inc))).
(** The documents (exp/exp_scenario.go 351-353): each is built in an iteration order of its own. *)
Fixpoint reorder (ord : nat -> smap -> smap) (i : nat) (v : vehicle) : vehicle :=
  match v with [] => [] | g :: v' => ord i g :: reorder ord (S i) v' end.
Definition start (w : world) (v : vehicle) (sc : option scenario_state) : res run_state :=
  do j <- vehicle_doc "timestamp" (reorder (w_doc_order w "timestamp") 0 v);
  do s <- vehicle_doc "_ts" (reorder (w_doc_order w "_ts") 0 v);
  Ok (Sim v sc [] j s [] [] [] 0 0 0 [] [] [] [] []).
(** The loop with the duration and time step of the program (exp/exp_scenario.go 17-19). *)
Definition simulation_sec : Z := 300.
Definition simulation_step : Z := 100.
Definition simulate (w : world) (v : vehicle) (sc : option scenario_state) (sec inc : Z) : res run_state :=
  do m <- start w v sc;
  do _ <- expected_count v sec;
  run_times w (loop_times (sec * 1000) inc) m.
(** [runRealisticExperiment]; [ord], [now] and [d] are those of [InitializeVehicleData]. *)
Definition experiment (w : world) (ord : list (string * vss_sensor) -> list (string * vss_sensor)) (now : string -> Z)
    (d : draws) (scenario : string) : res run_state :=
  do v <- init_vehicle ord now scenario d;
  if decide (scenario = "mixed_scenario") then
    simulate w (with_sensor 1 soc (set_value (PNum (fl 60))) v) (Some (new_state "urban_traffic" (fl 60)))
      simulation_sec simulation_step
  else simulate w v None simulation_sec simulation_step.
