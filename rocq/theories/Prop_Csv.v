(** Properties C88-C91: the tables that the experiments write. *)
From Verif Require Import Base BaseSpec F64 GoText Tson Serial Bytes Vss VssSpec Sensor Scenario Sim SimSpec RangeSpec Temporal Report Csv CsvSpec TableSpec CsvLemmas CsvFiles
  SimDemo RangeDemo ReportDemo CsvDemo.

(** C88: the text written for a table, whatever is in its cells, is the text of that table in RFC 4180's
    syntax and of no other. *)
Theorem C88_table : forall rs, [] ∉ rs -> reads_as (csv_text rs) rs.
Proof. exact text_reads. Qed.
Print Assumptions C88_table.
Example C88_case : csv_text [["plain"; "a,b"; ""]; ["say " +++ q +++ "hi" +++ q; "two" +++ nl +++ "lines"; " x"]; [""]; ["\."]]
  = "plain," +++ q +++ "a,b" +++ q +++ "," +++ nl
    +++ q +++ "say " +++ q +++ q +++ "hi" +++ q +++ q +++ q +++ "," +++ q +++ "two" +++ nl +++ "lines" +++ q +++ "," +++ q +++ " x" +++ q +++ nl
    +++ nl +++ q +++ "\." +++ q +++ nl.
Proof. exact quoted_text. Qed.

(** C89: an integer is written as itself and no other; a finite float64 with [d] decimals is the nearest
    such number, the even one of two, with its sign. *)
Theorem C89_integer : forall z, integer (z_text z) z ∧ forall z', integer (z_text z) z' -> z' = z.
Proof. exact z_written. Qed.
Print Assumptions C89_integer.
Theorem C89_fixed : forall d x, (0 < d)%nat -> f64_finite x = true -> rounded d x (fixed_text d x).
Proof. exact fixed_rounded. Qed.
Print Assumptions C89_fixed.
(** C89: a text shows one number only, and greater floats show greater or equal ones. *)
Theorem C89_one : forall d s n n', shows d s n -> shows d s n' -> n = n'.
Proof. exact shows_one. Qed.
Print Assumptions C89_one.
Theorem C89_order : forall d x y n n', (0 < d)%nat -> number x -> number y -> fl_le x y ->
  shows d (fixed_text d x) n -> shows d (fixed_text d y) n' -> n <= n'.
Proof. exact fixed_order. Qed.
Print Assumptions C89_order.
Example C89_case : map (fixed_text 2) [f64_of_Z 0; f64_of_Z 50; dec 1 8; f64_of_ratio true 5 1000; dec 3 8; dec 9999 1000; f64_of_Z (-3)]
  = ["0.00"; "50.00"; "0.12"; "-0.01"; "0.38"; "10.00"; "-3.00"].
Proof. exact fixed_texts. Qed.

(** C90: the table of a recorded sensor has one line for each time step of a run, with the value that its
    TSON patches leave then. *)
Theorem C90_sensor : forall clock w v sec inc m p s, simulate w v None sec inc = Ok m -> orders_ok w -> NoDup (akeys (sensors v)) -> 0 < inc ->
  (p, s) ∈ sensors v -> p ∈ key_sensors -> exists ts rows,
  reads_as (sensor_csv clock p m) (["TimestampMs"; "SimulationTimeMs"; "Value"] :: rows) ∧
  StronglySorted Z.lt ts ∧ (forall t, t ∈ ts <-> time_step (sec * 1000) inc t) ∧
  Forall2 (sensor_line clock (m_tpatches m) p (s_value s) (s_stamp s)) ts rows.
Proof. exact sensor_file. Qed.
Print Assumptions C90_sensor.
Example C90_sensor_case : orders_ok (plain_world (num 3 4)) ∧ separate car ∧ "Vehicle.Speed" ∈ key_sensors
  ∧ read (fun m => sensor_csv (fun t => 1700000000000 + t) "Vehicle.Speed" m) (simulate (plain_world (num 3 4)) car None 1 500)
    = Some ("TimestampMs,SimulationTimeMs,Value" +++ nl +++ "1700000000000,0,50.0000" +++ nl +++ "1700000000500,500,51.0000" +++ nl).
Proof. exact (conj (plain_orders _) (conj car_separate (conj speed_key trip_speed))). Qed.
(** C90: the table of the updates has one line for each of them, in their order, and says which ones
    changed the value: exactly those become TSON patches.  The percentage compares the two measured times. *)
Theorem C90_timing : forall ns cur w v sc sec inc m, simulate w v sc sec inc = Ok m -> exists cs h rows,
  selects cs (m_spatches m) (m_tpatches m) ∧ reads_as (timing_csv ns cur m) (h :: rows) ∧ rectangular (h :: rows) ∧ length rows = length (m_spatches m) ∧
  forall i q c, m_spatches m !! i = Some q -> cs !! i = Some c -> exists r, rows !! i = Some r ∧
    let k := Z.of_nat i + 1 in timing_line k (fst (ns k)) (snd (ns k)) q c (match cur with Some name => [name k] | None => [] end) r.
Proof. exact timing_file. Qed.
Print Assumptions C90_timing.
Example C90_timing_case : read (fun m => timing_csv (fun i => (1000 * i, 900 * i + 7)) None m) (simulate (plain_world (num 3 4)) car None 1 500)
  = Some ("UpdateIndex,TimeMs,SensorPath,JsonProcessingTimeNs,TsonProcessingTimeNs,ValueChanged,ProcessingTimeDiffPct" +++ nl
    +++ "1,0,Vehicle.Speed,1000,907,true,9.30" +++ nl +++ "2,0,Vehicle.Light,2000,1807,true,9.65" +++ nl
    +++ "3,0,Vehicle.Fuel.Level,3000,2707,false,9.77" +++ nl +++ "4,500,Vehicle.Fuel.Level,4000,3607,false,9.82" +++ nl).
Proof. exact trip_timing. Qed.
(** C90: the table of the cumulative counts has one line for each time recorded. *)
Theorem C90_cumulative : forall w v sc sec inc m, simulate w v sc sec inc = Ok m -> orders_ok w -> NoDup (akeys (sensors v)) -> 0 < inc ->
  exists s rows, cumulative_csv m = Ok s ∧ reads_as s (["TimeMs"; "JsonPatchCount"; "TsonPatchCount"] :: rows) ∧ length rows = length (m_times m) ∧
  forall i t j c, m_times m !! i = Some t -> m_jcounts m !! i = Some j -> m_tcounts m !! i = Some c ->
    exists r, rows !! i = Some r ∧ integers [t; Z.of_nat j; Z.of_nat c] r.
Proof. exact cumulative_file. Qed.
Print Assumptions C90_cumulative.
Example C90_cumulative_case : orders_ok (plain_world (num 3 4)) ∧ separate car ∧ read cumulative_csv (simulate (plain_world (num 3 4)) car None 30 2000)
  = Some (Ok ("TimeMs,JsonPatchCount,TsonPatchCount" +++ nl +++ "0,0,0" +++ nl +++ "10000,16,4" +++ nl +++ "20000,30,6" +++ nl)).
Proof. exact (conj (plain_orders _) (conj car_separate trip_counted)). Qed.
(** C90: the table of the results has one line, with the figures of the report; the bandwidths and the
    reduction are within 0.01 of the exact quotients, and the reduction shown is from 50 to 100. *)
Theorem C90_results : forall num stamp jns tns w v sc sec inc m, simulate w v sc sec inc = Ok m -> (forall q, q ∈ m_spatches m -> finite (sp_value q) = true) ->
  0 < sec < 2 ^ 31 -> 0 < m_updates m ->
  let f := report_of num sec m in exists h r, reads_as (results_csv stamp jns tns sec f) [h; r] ∧ length h = length r ∧ results_line stamp jns tns sec f r.
Proof. exact results_file. Qed.
Print Assumptions C90_results.
Example C90_results_case : (exists m, trip = Ok m ∧ (forall q, q ∈ m_spatches m -> finite (sp_value q) = true) ∧ 0 < m_updates m)
  ∧ read (fun m => results_csv 1700000000 5000 4000 1 (report_of digits 1 m)) trip
  = Some ("Timestamp,SimulationTimeMs,TotalUpdates,ValueChanges,TimestampOnlyChanges,JsonPatchCount,TsonPatchCount,SetTsonPatchCount,JsonPatchSize,TsonPatchSize,SetTsonPatchSize,JsonProcessingTimeNs,TsonProcessingTimeNs,JsonBandwidthUsage,TsonBandwidthUsage,PatchReduction" +++ nl
    +++ "1700000000,1000,19,6,13,25,6,19,1579,413,1358,5000,4000,1.54,0.40,76.00" +++ nl).
Proof. exact (conj trip_fit trip_results). Qed.
(** C90: the table of the transitions is written only for a mixed scenario that has some, with a line for
    each. *)
Theorem C90_transitions : forall mixed m, match transitions_csv mixed m with
  | Some s => mixed = true ∧ m_transitions m ≠ [] ∧ exists rows, reads_as s (["Timestamp"; "FromScenario"; "ToScenario"; "BatteryLevel"; "TransitionCount"] :: rows) ∧
      Forall2 transition_line (m_transitions m) rows
  | None => mixed = false ∨ m_transitions m = []
  end.
Proof. exact transitions_file. Qed.
Print Assumptions C90_transitions.
Example C90_transitions_case : read (transitions_csv true) long_run
  = Some (Some ("Timestamp,FromScenario,ToScenario,BatteryLevel,TransitionCount" +++ nl +++ "60000,urban_traffic,battery_charging,9.00,1" +++ nl
    +++ "520000,urban_traffic,urban_traffic,100.00,2" +++ nl +++ "1520000,urban_traffic,battery_charging,0.00,3" +++ nl)).
Proof. exact long_table. Qed.
(** C90: no experiment of the program writes a table of transitions, and the reduction that each of them
    writes is 34082 patches of 34082 and the TSON patches, from 50 to 100 percent. *)
Theorem C90_experiment : forall num stamp jns tns mixed w ord now d sc m, experiment w ord now d sc = Ok m -> orders_ok w -> Permutation (ord vss_sensors) vss_sensors ->
  random_ok w -> fair d -> sine (w_sin w) -> let f := report_of num 300 m in
  transitions_csv mixed m = None ∧ exists h l b1 b2 b3, reads_as (results_csv stamp jns tns 300 f) [h; l ++ [b1; b2; b3]] ∧
    results_line stamp jns tns 300 f (l ++ [b1; b2; b3]) ∧ percent b3 34082 (34082 + rp_tcount f) ∧ exists n, shows 2 b3 n ∧ 5000 <= n <= 10000.
Proof. exact experiment_files. Qed.
Print Assumptions C90_experiment.
Example C90_experiment_case : orders_ok fair_world ∧ random_ok fair_world ∧ fair (drawing (num 3 4)) ∧ sine (w_sin fair_world)
  ∧ exists m, experiment fair_world (@rev _) (fun _ => 5) (drawing (num 3 4)) "mixed_scenario" = Ok m ∧ m_updates m = 34082.
Proof. exact (fair_experiment "mixed_scenario"). Qed.

(** C91: the table of the queries has one line for each of them; the percentages are within 0.01 of the
    difference of the log's figure over that of the temporal JSON document, and 0.00 if that is 0. *)
Theorem C91_queries : forall qs, exists h rows, reads_as (query_csv qs) (h :: rows) ∧ rectangular (h :: rows) ∧ Forall2 query_line qs rows.
Proof. exact query_file. Qed.
Print Assumptions C91_queries.
Example C91_case : query_csv [QueryResult "urban_traffic" "snapshot" "0,5" 1500 2000 10 10; QueryResult "urban_traffic" "event" "" 3 0 0 0]
  = "Scenario,QueryType,Parameter,LogumentTimeNs,TJSONTimeNs,TimeDiffPct,LogumentResultSize,TJSONResultSize,SizeDiffPct" +++ nl
    +++ "urban_traffic,snapshot," +++ q +++ "0,5" +++ q +++ ",1500,2000,-25.00,10,10,0.00" +++ nl +++ "urban_traffic,event,,3,0,0.00,0,0,0.00" +++ nl.
Proof. exact asked_table. Qed.
