(** Properties C81-C83: the files of a simulation and the temporal experiment run on them. *)
From Verif Require Import Base BaseSpec F64 GoText Tson TsonSpec Bytes Heap Patch PatchSpec Logument LogSpec ReplaySpec TjsonSpec Tjson Initial InitialSpec Query QuerySpec
  Vss VssSpec Sensor Scenario Sim SimSpec SimInit RangeSpec RangeDemo Temporal TemporalSpec TempRun TempUrban TempZero TempCharge TempDir TjsonDemo InitialDemo TempDemo.

(** C81: the log made from the initial file of a run and from its TSON patches, asked at ascending
    times, answers null before the first patch and afterwards shows exactly the sensors of the run, each
    with the value and the time of its last patch, or its initial value and -1. *)
Theorem C81_log : forall T w v sc sec inc m m0 file h qs, simulate w v sc sec inc = Ok m -> start w v sc = Ok m0 -> orders_ok w -> separate v -> 0 < inc ->
  plain_paths v -> writable v m -> decoded (WObj (m_json m0)) file -> Forall (fun q => oracle_ok (fst q)) qs -> StronglySorted Z.le (map snd qs) ->
  exists h' L st ds, create_logument T file (map loaded (m_tpatches m)) h = (h', Ok L) ∧ snapshot_run qs (h', L) = (st, Ok ds) ∧
    Forall2 (fun q => answer_ok v m (snd q)) qs ds.
Proof. exact log_of_run. Qed.
Print Assumptions C81_log.
Example C81_case : orders_ok fair_world ∧ separate cab ∧ plain_paths cab
  ∧ exists m m0, ride = Ok m ∧ start fair_world cab None = Ok m0 ∧ writable cab m ∧ decoded (WObj (m_json m0)) ride_file
    ∧ spans m 0 12500 ∧ later m "Vehicle.Speed" ∧ (exists q, q ∈ m_tpatches m ∧ sp_path q = "Vehicle.CurrentLocation.Latitude" ∧ sp_ts q = 0).
Proof. exact (conj fair_orders (conj cab_separate (conj cab_plain ride_ok))). Qed.

(** C82: on the files of a run whose patches span at least ten seconds, the experiment ends.  It asks at 61
    times spread from the first patch to the last; the log shows the run at each; the temporal JSON
    document agrees at the sensors not patched at time 0; the tracks are the patches of the sensors;
    and the events found are the patches above the threshold in a window of ten seconds, by the log and,
    apart from those before the window, by the document. *)
Theorem C82_experiment : forall w v sec inc m m0 file file' b h lo hi, simulate w v None sec inc = Ok m -> start w v None = Ok m0 -> orders_ok w -> separate v -> 0 < inc ->
  plain_paths v -> writable v m -> decoded (WObj (m_json m0)) file -> decoded (WObj (m_json m0)) file' -> lab_ok b ->
  (forall p, p ∈ watched -> p ∈ akeys (sensors v)) -> spans m lo hi -> 10000 <= hi - lo -> 60 * (hi - lo) < 2 ^ 52 ->
  exists a, temporal_experiment b file file' (map loaded (m_tpatches m)) h = Ok a ∧ correct v m (lb_now b) lo hi a.
Proof. exact experiment_correct. Qed.
Print Assumptions C82_experiment.
Example C82_case : lab_ok bench ∧ (forall p, p ∈ watched -> p ∈ akeys (sensors cab))
  ∧ option_map an_window ride_answers = Some (2500, 12500)
  ∧ option_map an_events ride_answers = Some (Ok [([2500; 5000; 7500; 10000; 12500], [2500; 5000; 7500; 10000; 12500]); ([5000; 10000], [5000; 10000]); ([], [])]).
Proof. exact (conj bench_ok (conj cab_tracked ride_found)). Qed.
(** C82: the scenario on which the program runs the experiment meets all that, for all random numbers. *)
Theorem C82_urban : forall w ord now d v m0 m file file' b h, experiment w ord now d "urban_traffic" = Ok m -> orders_ok w -> Permutation (ord vss_sensors) vss_sensors ->
  random_ok w -> fair d -> sine (w_sin w) -> init_vehicle ord now "urban_traffic" d = Ok v -> start w v None = Ok m0 -> decoded (WObj (m_json m0)) file -> decoded (WObj (m_json m0)) file' -> lab_ok b ->
  exists hi a, 299800 <= hi <= 299900 ∧ temporal_experiment b file file' (map loaded (m_tpatches m)) h = Ok a ∧ correct v m (lb_now b) 0 hi a.
Proof. exact urban_correct. Qed.
Print Assumptions C82_urban.
Example C82_urban_case : exists v m0 m file, experiment fair_world (@rev _) (fun _ => 5) (SimDemo.drawing (SimDemo.num 3 4)) "urban_traffic" = Ok m
  ∧ orders_ok fair_world ∧ Permutation (rev vss_sensors) vss_sensors ∧ random_ok fair_world ∧ fair (SimDemo.drawing (SimDemo.num 3 4)) ∧ sine (w_sin fair_world)
  ∧ init_vehicle (@rev _) (fun _ => 5) "urban_traffic" (SimDemo.drawing (SimDemo.num 3 4)) = Ok v ∧ start fair_world v None = Ok m0
  ∧ decoded (WObj (m_json m0)) file ∧ lab_ok bench ∧ 1 <= lb_now bench < 2 ^ 63.
Proof. exact urban_case. Qed.
(** C82: with patches spanning less than ten seconds, or none, it panics. *)
Theorem C82_short : forall m file file' b h lo hi, spans m lo hi -> hi - lo < 10000 ->
  temporal_experiment b file file' (map loaded (m_tpatches m)) h = Panic.
Proof. exact experiment_short. Qed.
Print Assumptions C82_short.
Theorem C82_still : forall b file file' h, temporal_experiment b file file' [] h = Panic.
Proof. exact experiment_still. Qed.
Print Assumptions C82_still.
(** C56: an update at time 0 that changes a scalar is missed at time 0 or at time 1, however the patches
    are sorted, unless another update follows at time 1. *)
Theorem C56_zero : forall srt ord now file m us l v u0 a c, transform file = JObj m -> named simple_name (JObj m) -> json_encodable (JObj m) = true ->
  (forall u, u ∈ us -> 0 <= tp_ts u < 2 ^ 63 ∧ exists l' v', InitialSpec.place (JObj m) l' v' ∧ scalar v' ∧ sets u l') ->
  sorting tp_ts srt -> (forall x, Permutation (ord x) x) -> 1 <= now < 2 ^ 63 ->
  InitialSpec.place (JObj m) l v -> scalar v -> v <> JNull -> (2 <= length l)%nat ->
  us = a ++ u0 :: c -> sets u0 l -> tp_ts u0 = 0 -> ~ alike (tp_value u0) v -> (forall u, u ∈ a ++ c -> sets u l -> 2 <= tp_ts u) ->
  below l (JObj (tj_snapshot (from_patches srt ord now (initial_patches file ++ us)) 0)) = Some v ∨
  below l (JObj (tj_snapshot (from_patches srt ord now (initial_patches file ++ us)) 1)) = Some v.
Proof. exact zero_file. Qed.
Print Assumptions C56_zero.
Example C56_zero_case : named simple_name (JObj car_members) ∧ json_encodable (JObj car_members) = true ∧ InitialSpec.place (JObj car_members) ["Vehicle"; "Speed"] (jn 0)
  ∧ (forall u, u ∈ zero_updates -> 0 <= tp_ts u < 2 ^ 63 ∧ exists l' v', InitialSpec.place (JObj car_members) l' v' ∧ scalar v' ∧ sets u l')
  ∧ sets (TPatch "replace" "/Vehicle/Speed" (jn 50) 0) ["Vehicle"; "Speed"] ∧ ~ alike (jn 50) (jn 0).
Proof. exact zero_case. Qed.
(** C82: a sensor patched at time 0 is shown wrong by the temporal JSON document at time 0 or 1, however
    the patches are sorted. *)
Theorem C82_zero : forall w v sec inc m m0 file b p s l q0, simulate w v None sec inc = Ok m -> start w v None = Ok m0 -> orders_ok w -> separate v -> 1 < inc ->
  plain_paths v -> writable v m -> decoded (WObj (m_json m0)) file -> lab_ok b -> sec * 1000 < 2 ^ 63 -> 1 <= lb_now b < 2 ^ 63 ->
  (p, s) ∈ sensors v -> dotted p l -> (2 <= length l)%nat -> q0 ∈ m_tpatches m -> sp_path q0 = p -> sp_ts q0 = 0 ->
  exists t u x z, 0 <= t <= 1 ∧ known m t p (s_value s) x z ∧
    below l (JObj (tj_snapshot (temporal_doc b file (map loaded (m_tpatches m))) t)) = Some u ∧ ~ alike u (json_of_prim x).
Proof. exact zero_of_run. Qed.
Print Assumptions C82_zero.
(** C82: in every urban run this happens to the charge of the battery. *)
Theorem C82_urban_zero : forall w ord now d v m0 m file b, experiment w ord now d "urban_traffic" = Ok m -> orders_ok w -> Permutation (ord vss_sensors) vss_sensors ->
  random_ok w -> fair d -> sine (w_sin w) -> init_vehicle ord now "urban_traffic" d = Ok v -> start w v None = Ok m0 -> decoded (WObj (m_json m0)) file -> lab_ok b ->
  1 <= lb_now b < 2 ^ 63 ->
  exists s t u x z, ("Vehicle.Powertrain.TractionBattery.StateOfCharge.Current", s) ∈ sensors v ∧ 0 <= t <= 1
    ∧ known m t "Vehicle.Powertrain.TractionBattery.StateOfCharge.Current" (s_value s) x z
    ∧ below ["Vehicle"; "Powertrain"; "TractionBattery"; "StateOfCharge"; "Current"] (JObj (tj_snapshot (temporal_doc b file (map loaded (m_tpatches m))) t)) = Some u
    ∧ ~ alike u (json_of_prim x).
Proof. exact urban_zero. Qed.
Print Assumptions C82_urban_zero.

(** C83: the directory found is that of the latest run. *)
Theorem C83_latest : forall entries s, latest_dir entries = Ok s ->
  (s, true) ∈ entries ∧ exists n, is_run s n ∧ forall s' n', (s', true) ∈ entries -> is_run s' n' -> n' <= n.
Proof. exact latest_spec. Qed.
Print Assumptions C83_latest.
(** C83: none is found, with an error, exactly if no directory is one of a run. *)
Theorem C83_none : forall entries, latest_dir entries <> Panic ∧ (latest_dir entries = Err <-> forall s n, (s, true) ∈ entries -> ~ is_run s n).
Proof. exact (fun entries => conj (latest_total entries) (latest_none entries)). Qed.
Print Assumptions C83_none.
Example C83_case : latest_dir run_dirs = Ok "20250601_120000" ∧ is_run "20250601_120000" 20250601120000 ∧ latest_dir [("notes", true)] = Err.
Proof. exact run_dirs_latest. Qed.
