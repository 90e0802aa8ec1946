(** Properties C77-C78: the simulation of a vehicle. *)
From Verif Require Import Base BaseSpec F64 GoText Tson Bytes TjsonSpec Vss Sensor Scenario Sim SimSpec SimLemmas SimDocs SimFinal SimPlace SimExp SimRows SimDemo.

(** C77: the counters of a run and the lengths of the patch lists fit together ... *)
Theorem C77_counts : forall w v sc sec inc m, simulate w v sc sec inc = Ok m ->
  m_updates m = m_changes m + m_stamps m ∧
  Z.of_nat (length (m_jpatches m)) = m_updates m + m_changes m ∧
  Z.of_nat (length (m_tpatches m)) = m_changes m ∧
  Z.of_nat (length (m_spatches m)) = m_updates m ∧
  Z.of_nat (length (m_timing m)) = m_updates m.
Proof. exact counts. Qed.
Print Assumptions C77_counts.
(** ... and so do their entries: the TSON patches are the updates with a change of value, the JSON
    patches set the timestamp at each update and the value at each change, and the timing records
    number the updates from 1. *)
Theorem C77_outputs : forall w v sc sec inc m, simulate w v sc sec inc = Ok m ->
  exists cs, selects cs (m_spatches m) (m_tpatches m) ∧ json_patches cs (m_spatches m) (m_jpatches m) ∧
    forall i, m_timing m !! i =
      match m_spatches m !! i, cs !! i with
      | Some q, Some c => Some (Timing (Z.of_nat i + 1) (sp_ts q) (sp_path q) c)
      | _, _ => None
      end.
Proof. exact outputs. Qed.
Print Assumptions C77_outputs.
Example C77_case : orders_ok (plain_world (num 3 4)) ∧ separate car ∧ (forall x, x ∈ sensors car -> s_interval (snd x) <> 0)
  ∧ read (fun m => (m_updates m, m_changes m, m_stamps m)) trip = Some (19, 6, 13)
  ∧ read (fun m => (length (m_jpatches m), map sp_ts (filter (fun q => sp_path q = "Vehicle.Speed") (m_spatches m)),
      map (fun q => (sp_path q, sp_ts q)) (m_tpatches m))) trip
    = Some (25%nat, [0; 200; 400; 600; 800],
        [("Vehicle.Speed", 0); ("Vehicle.Light", 0); ("Vehicle.Speed", 200); ("Vehicle.Light", 300); ("Vehicle.Light", 600); ("Vehicle.Light", 900)])
  ∧ total_updates 1000 100 (map (fun x => s_interval (snd x)) (sensors car)) = 19.
Proof. exact (conj (plain_orders _) (conj car_separate (conj car_steady (conj trip_counts (conj trip_lists trip_total))))). Qed.
(** C77: each sensor is updated at exactly the time steps that are multiples of its interval, in
    ascending order, and nothing else is updated. *)
Theorem C77_times : forall w v sc sec inc m, simulate w v sc sec inc = Ok m -> orders_ok w -> NoDup (akeys (sensors v)) -> 0 < inc ->
  StronglySorted Z.le (map sp_ts (m_spatches m)) ∧
  (forall q, q ∈ m_spatches m -> sp_path q ∈ akeys (sensors v)) ∧
  forall p s, (p, s) ∈ sensors v -> s_interval s <> 0 ->
    let ts := map sp_ts (filter (fun q => sp_path q = p) (m_spatches m)) in
    StronglySorted Z.lt ts ∧ forall t, t ∈ ts <-> time_step (sec * 1000) inc t ∧ (s_interval s | t).
Proof. exact update_times. Qed.
Print Assumptions C77_times.
(** C77: a run of positive length ends only if no interval is 0 ... *)
Theorem C77_interval : forall w v sc sec inc m p s, simulate w v sc sec inc = Ok m -> orders_ok w -> NoDup (akeys (sensors v)) ->
  0 < inc -> 0 < sec -> (p, s) ∈ sensors v -> s_interval s <> 0.
Proof. exact no_zero_interval. Qed.
Print Assumptions C77_interval.
(** ... and the number of its updates depends on the intervals alone. *)
Theorem C77_total : forall w v sc sec inc m, simulate w v sc sec inc = Ok m -> orders_ok w -> NoDup (akeys (sensors v)) -> 0 < inc -> 0 < sec ->
  m_updates m = total_updates (sec * 1000) inc (map (fun x => s_interval (snd x)) (sensors v)).
Proof. exact update_total. Qed.
Print Assumptions C77_total.
(** C77: the cumulative counts are taken every ten seconds and count the patches of the updates
    before. *)
Theorem C77_cumulative : forall w v sc sec inc m, simulate w v sc sec inc = Ok m -> orders_ok w -> NoDup (akeys (sensors v)) -> 0 < inc ->
  StronglySorted Z.lt (m_times m) ∧ (forall t, t ∈ m_times m <-> time_step (sec * 1000) inc t ∧ (10000 | t)) ∧
  m_tcounts m = map (fun t => length (List.filter (fun r => (tm_time r <? t) && tm_changed r) (m_timing m))) (m_times m) ∧
  m_jcounts m = map (fun t => (length (List.filter (fun r => (tm_time r <? t)%Z) (m_timing m)) +
                               length (List.filter (fun r => (tm_time r <? t)%Z && tm_changed r) (m_timing m)))%nat) (m_times m).
Proof. exact cumulative. Qed.
Print Assumptions C77_cumulative.
Example C77_cumulative_case : orders_ok (plain_world (num 3 4)) ∧ separate car
  ∧ read (fun m => (m_times m, m_jcounts m, m_tcounts m)) (simulate (plain_world (num 3 4)) car None 30 2000)
    = Some ([0; 10000; 20000], [0%nat; 16%nat; 30%nat], [0%nat; 4%nat; 6%nat]).
Proof. exact (conj (plain_orders _) (conj car_separate trip_cumulative)). Qed.
(** C77: every experiment of the program comes to its end, after 34082 updates, although 91080 are
    announced. *)
Theorem C77_experiment : forall w ord now d sc, orders_ok w -> Permutation (ord vss_sensors) vss_sensors ->
  exists v m, init_vehicle ord now sc d = Ok v ∧ separate v ∧ expected_count v simulation_sec = Ok 91080 ∧
    experiment w ord now d sc = Ok m ∧ m_updates m = 34082.
Proof. exact experiment_total. Qed.
Print Assumptions C77_experiment.

(** C78: the final documents hold a leaf for each sensor and nothing else: the JSON document with
    value and time of its last update, the TSON document with those of its last change. *)
Theorem C78_documents : forall w v sc sec inc m, simulate w v sc sec inc = Ok m -> orders_ok w -> separate v -> 0 < inc ->
  holds_leaves (m_json m) (fun l n => exists p s x z, (p, s) ∈ sensors v ∧ dotted p l ∧
    latest (m_spatches m) p (s_value s) (s_stamp s) x z ∧ leaf_of "timestamp" x z n) ∧
  holds_leaves (m_tson m) (fun l n => exists p s x z, (p, s) ∈ sensors v ∧ dotted p l ∧
    latest (m_tpatches m) p (s_value s) (s_stamp s) x z ∧ leaf_of "_ts" x z n).
Proof. exact documents. Qed.
Print Assumptions C78_documents.
(** C78: replaying the JSON patches gives the timestamps of the JSON document and the values of the
    TSON document. *)
Theorem C78_patches : forall w v sc sec inc m p o o' v0 z0 x z x' z', simulate w v sc sec inc = Ok m ->
  last_json (m_jpatches m) (p +++ "/timestamp") o -> last_json (m_jpatches m) (p +++ "/value") o' ->
  latest (m_spatches m) p v0 z0 x z -> latest (m_tpatches m) p v0 z0 x' z' ->
  (match o with Some y => y = PTime z | None => z = z0 end) ∧ (match o' with Some y => y = PVal x' | None => x' = v0 end).
Proof. exact patches_replay. Qed.
Print Assumptions C78_patches.
(** C78: without changes of the scenario the sensors have the values of the TSON document; those of
    the JSON document are no further than 0.005 away, and the timestamps are its timestamps. *)
Theorem C78_sensors : forall w v sec inc m, simulate w v None sec inc = Ok m -> orders_ok w -> NoDup (akeys (sensors v)) ->
  Permutation (akeys (sensors (m_vehicle m))) (akeys (sensors v)) ∧
  forall p s, (p, s) ∈ sensors v -> exists s' z x, (p, s') ∈ sensors (m_vehicle m) ∧
    latest (m_tpatches m) p (s_value s) (s_stamp s) (s_value s') z ∧
    latest (m_spatches m) p (s_value s) (s_stamp s) x (s_stamp s') ∧ close (s_value s') x.
Proof. exact final_sensors. Qed.
Print Assumptions C78_sensors.
(** C78: the sensor data files have one row for each step, with the value before the updates of
    the step. *)
Theorem C78_rows : forall w v sec inc m p s, simulate w v None sec inc = Ok m -> orders_ok w -> NoDup (akeys (sensors v)) -> 0 < inc ->
  (p, s) ∈ sensors v -> p ∈ key_sensors ->
  StronglySorted Z.lt (map rw_time (filter (fun r => rw_path r = p) (m_rows m))) ∧
  (forall t, (exists x, Row p t x ∈ m_rows m) <-> time_step (sec * 1000) inc t) ∧
  (forall t x, Row p t x ∈ m_rows m -> exists z, latest (filter (fun q => sp_ts q < t) (m_tpatches m)) p (s_value s) (s_stamp s) x z).
Proof. exact rows. Qed.
Print Assumptions C78_rows.
Example C78_case : orders_ok (plain_world (num 3 4)) ∧ separate car
  ∧ read m_tson trip = Some [("Vehicle", WObj [
      ("Speed", leaf_obj "_ts" (PNum (f64_of_Z 52)) 200);
      ("Fuel", WObj [("Level", leaf_obj "_ts" (PNum (f64_of_Z 40)) 8)]);
      ("Light", leaf_obj "_ts" (PBool false) 900)])]
  ∧ read (fun m => map (fun r => (rw_time r, rw_value r)) (take 4 (m_rows m))) trip
    = Some [(0, PNum (f64_of_Z 50)); (100, PNum (f64_of_Z 51)); (200, PNum (f64_of_Z 51)); (300, PNum (f64_of_Z 52))].
Proof. exact (conj (plain_orders _) (conj car_separate (conj trip_tson trip_rows))). Qed.
(** C78: the values of the JSON document are not those of the patches: small steps add up to
    nothing in the patches but show in the document. *)
Theorem C78_values_refuted : exists m v z v', trip = Ok m ∧
  wbelow ["Vehicle"; "Fuel"; "Level"] (WObj (m_json m)) = Some (WObj [("value", write_prim v); ("timestamp", WInt z)]) ∧
  wbelow ["Vehicle"; "Fuel"; "Level"] (WObj (m_tson m)) = Some (WObj [("value", write_prim v'); ("_ts", WInt 8)]) ∧
  v <> v' ∧ last_json (m_jpatches m) "Vehicle.Fuel.Level/value" None.
Proof. exact trip_drift. Qed.
Print Assumptions C78_values_refuted.
(** C78: in the mixed scenario a change of the scenario sets values without a patch: the documents
    do not show the sensors' values. *)
Theorem C78_mixed_refuted : exists m s, stop = Ok m ∧ ("Vehicle.Speed", s) ∈ sensors (m_vehicle m) ∧ s_value s = PNum (f64_of_Z 0) ∧
  wbelow ["Vehicle"; "Speed"] (WObj (m_tson m)) = Some (WObj [("value", write_prim (PNum (f64_of_Z 50))); ("_ts", WInt 7)]) ∧
  m_tpatches m = [].
Proof. exact stop_silent. Qed.
Print Assumptions C78_mixed_refuted.
