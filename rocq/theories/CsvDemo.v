(** Concrete tables. *)
From Verif Require Import Base BaseSpec F64 GoText Tson Serial Bytes Vss VssSpec Sensor Scenario Sim SimSpec SimDemo RangeSpec RangeDemo Report ReportDemo Temporal Csv CsvSpec TableSpec.

Definition q := String "034" "".
Definition nl := String "010" "".
Lemma quoted_text : csv_text [["plain"; "a,b"; ""]; ["say " +++ q +++ "hi" +++ q; "two" +++ nl +++ "lines"; " x"]; [""]; ["\."]]
  = "plain," +++ q +++ "a,b" +++ q +++ "," +++ nl
    +++ q +++ "say " +++ q +++ q +++ "hi" +++ q +++ q +++ q +++ "," +++ q +++ "two" +++ nl +++ "lines" +++ q +++ "," +++ q +++ " x" +++ q +++ nl
    +++ nl +++ q +++ "\." +++ q +++ nl.
Proof. vm_compute. reflexivity. Qed.
Lemma fixed_texts : map (fixed_text 2) [f64_of_Z 0; f64_of_Z 50; dec 1 8; f64_of_ratio true 5 1000; dec 3 8; dec 9999 1000; f64_of_Z (-3)]
  = ["0.00"; "50.00"; "0.12"; "-0.01"; "0.38"; "10.00"; "-3.00"].
Proof. vm_compute. reflexivity. Qed.
Lemma trip_speed : read (fun m => sensor_csv (fun t => 1700000000000 + t) "Vehicle.Speed" m) (simulate (plain_world (num 3 4)) car None 1 500)
  = Some ("TimestampMs,SimulationTimeMs,Value" +++ nl +++ "1700000000000,0,50.0000" +++ nl +++ "1700000000500,500,51.0000" +++ nl).
Proof. vm_compute. reflexivity. Qed.
Lemma trip_timing : read (fun m => timing_csv (fun i => (1000 * i, 900 * i + 7)) None m) (simulate (plain_world (num 3 4)) car None 1 500)
  = Some ("UpdateIndex,TimeMs,SensorPath,JsonProcessingTimeNs,TsonProcessingTimeNs,ValueChanged,ProcessingTimeDiffPct" +++ nl
    +++ "1,0,Vehicle.Speed,1000,907,true,9.30" +++ nl +++ "2,0,Vehicle.Light,2000,1807,true,9.65" +++ nl
    +++ "3,0,Vehicle.Fuel.Level,3000,2707,false,9.77" +++ nl +++ "4,500,Vehicle.Fuel.Level,4000,3607,false,9.82" +++ nl).
Proof. vm_compute. reflexivity. Qed.
Lemma trip_counted : read cumulative_csv (simulate (plain_world (num 3 4)) car None 30 2000)
  = Some (Ok ("TimeMs,JsonPatchCount,TsonPatchCount" +++ nl +++ "0,0,0" +++ nl +++ "10000,16,4" +++ nl +++ "20000,30,6" +++ nl)).
Proof. vm_compute. reflexivity. Qed.
Lemma trip_results : read (fun m => results_csv 1700000000 5000 4000 1 (report_of digits 1 m)) trip
  = Some ("Timestamp,SimulationTimeMs,TotalUpdates,ValueChanges,TimestampOnlyChanges,JsonPatchCount,TsonPatchCount,SetTsonPatchCount,JsonPatchSize,TsonPatchSize,SetTsonPatchSize,JsonProcessingTimeNs,TsonProcessingTimeNs,JsonBandwidthUsage,TsonBandwidthUsage,PatchReduction" +++ nl
    +++ "1700000000,1000,19,6,13,25,6,19,1579,413,1358,5000,4000,1.54,0.40,76.00" +++ nl).
Proof. vm_compute. reflexivity. Qed.
Lemma long_table : read (transitions_csv true) long_run
  = Some (Some ("Timestamp,FromScenario,ToScenario,BatteryLevel,TransitionCount" +++ nl +++ "60000,urban_traffic,battery_charging,9.00,1" +++ nl
    +++ "520000,urban_traffic,urban_traffic,100.00,2" +++ nl +++ "1520000,urban_traffic,battery_charging,0.00,3" +++ nl)).
Proof. vm_compute. reflexivity. Qed.
Lemma asked_table : query_csv [QueryResult "urban_traffic" "snapshot" "0,5" 1500 2000 10 10; QueryResult "urban_traffic" "event" "" 3 0 0 0]
  = "Scenario,QueryType,Parameter,LogumentTimeNs,TJSONTimeNs,TimeDiffPct,LogumentResultSize,TJSONResultSize,SizeDiffPct" +++ nl
    +++ "urban_traffic,snapshot," +++ q +++ "0,5" +++ q +++ ",1500,2000,-25.00,10,10,0.00" +++ nl +++ "urban_traffic,event,,3,0,0.00,0,0,0.00" +++ nl.
Proof. vm_compute. reflexivity. Qed.
Lemma speed_key : "Vehicle.Speed" ∈ key_sensors.
Proof. apply (bool_decide_unpack _). vm_compute. exact I. Qed.
Lemma trip_fit : exists m, trip = Ok m ∧ (forall q, q ∈ m_spatches m -> finite (sp_value q) = true) ∧ 0 < m_updates m.
Proof.
  destruct trip_figures as (m & E & F & _). exists m. split; [done|]. split; [done|]. pose proof trip_counts as C. rewrite E in C. by injection C as -> _ _.
Qed.
