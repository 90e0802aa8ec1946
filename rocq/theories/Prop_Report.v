(** Property C84: the results of the experiments. *)
From Verif Require Import Base BaseSpec F64 Tson Bytes Vss VssSpec Sensor Scenario Sim SimSpec RangeSpec Temporal Report ReportLemmas SimDemo RangeDemo ReportDemo.

(** C84: the counts of the results: every update is a value change or a timestamp-only one, a TSON
    patch stands for each value change, and there is one JSON patch more for every update. *)
Theorem C84_counts : forall num w v sc sec inc m, simulate w v sc sec inc = Ok m -> let r := report_of num sec m in
  rp_updates r = rp_changes r + rp_stamps r ∧ rp_jcount r = rp_updates r + rp_changes r ∧ rp_tcount r = rp_changes r ∧ rp_scount r = rp_updates r ∧
  0 <= rp_changes r ∧ 0 <= rp_stamps r.
Proof. exact report_counts. Qed.
Print Assumptions C84_counts.
(** C84: the reported reduction, as it is rounded, is never less than 50 percent: it is 50 if every
    update changes the value and 100 if none does.  It is the share of the JSON patches that TSON does
    not need: compared with a number of percent it is on the right side, or off by a thousandth. *)
Theorem C84_reduction : forall num w v sc sec inc m, simulate w v sc sec inc = Ok m -> let r := report_of num sec m in 0 < rp_updates r < 2 ^ 52 ->
  fl_le (f64_of_Z 50) (rp_reduction r) ∧ fl_le (rp_reduction r) (f64_of_Z 100) ∧
  (rp_stamps r = 0 -> rp_reduction r = f64_of_Z 50) ∧ (rp_changes r = 0 -> rp_reduction r = f64_of_Z 100) ∧
  forall k, 0 <= k <= 100 ->
    (k * rp_jcount r <= 100 * (rp_jcount r - rp_tcount r) -> fl_le (f64_sub (f64_of_Z k) (dec 1 1000)) (rp_reduction r)) ∧
    (100 * (rp_jcount r - rp_tcount r) <= k * rp_jcount r -> fl_le (rp_reduction r) (f64_add (f64_of_Z k) (dec 1 1000))).
Proof. exact report_reduction. Qed.
Print Assumptions C84_reduction.
(** C84: ... and of two runs with as many updates, the one with more changes has no greater one. *)
Theorem C84_fewer : forall num w v sc sec inc m w' v' sc' sec' inc' m', simulate w v sc sec inc = Ok m -> simulate w' v' sc' sec' inc' = Ok m' ->
  let r := report_of num sec m in let r' := report_of num sec' m' in
  rp_updates r = rp_updates r' -> 0 < rp_updates r < 2 ^ 52 -> rp_changes r <= rp_changes r' -> fl_le (rp_reduction r') (rp_reduction r).
Proof. exact report_fewer. Qed.
Print Assumptions C84_fewer.
(** C84: the percentages of the updates are on the right side of every number of percent ... *)
Theorem C84_shares : forall num w v sc sec inc m, simulate w v sc sec inc = Ok m -> let r := report_of num sec m in
  0 < rp_updates r -> 100 * rp_updates r < 2 ^ 53 -> forall k, 0 <= k < 2 ^ 53 ->
  (k * rp_updates r <= 100 * rp_changes r -> fl_le (f64_of_Z k) (rp_changed r)) ∧ (100 * rp_changes r <= k * rp_updates r -> fl_le (rp_changed r) (f64_of_Z k)) ∧
  (k * rp_updates r <= 100 * rp_stamps r -> fl_le (f64_of_Z k) (rp_unchanged r)) ∧ (100 * rp_stamps r <= k * rp_updates r -> fl_le (rp_unchanged r) (f64_of_Z k)).
Proof. exact report_shares. Qed.
Print Assumptions C84_shares.
(** C84: ... and without updates neither they nor the reduction are numbers. *)
Theorem C84_idle : forall num w v sc sec inc m, simulate w v sc sec inc = Ok m -> let r := report_of num sec m in rp_updates r = 0 ->
  rp_reduction r = S754_nan ∧ rp_changed r = S754_nan ∧ rp_unchanged r = S754_nan.
Proof. exact report_idle. Qed.
Print Assumptions C84_idle.
Example C84_case : (exists m, trip = Ok m ∧ (forall q, q ∈ m_spatches m -> finite (sp_value q) = true) ∧
      SFltb (f64_of_Z 75) (rp_reduction (report_of digits 1 m)) = true ∧ SFltb (rp_reduction (report_of digits 1 m)) (f64_of_Z 77) = true)
  ∧ read (fun m => let r := report_of digits 1 m in
      ((rp_updates r, rp_changes r, rp_stamps r), (rp_jcount r, rp_tcount r, rp_scount r), (rp_jsize r, rp_tsize r, rp_ssize r))) trip
    = Some ((19, 6, 13), (25, 6, 19), (1579, 413, 1358))
  ∧ (read (fun m => let r := report_of digits 1 m in (rp_updates r, rp_stamps r, rp_reduction r)) (simulate (plain_world (num 3 4)) blinker None 1 100)
       = Some (4, 0, f64_of_Z 50)
     ∧ read (fun m => let r := report_of digits 1 m in (rp_updates r, rp_changes r, rp_reduction r)) (simulate (plain_world (num 3 4)) parked None 1 100)
       = Some (10, 0, f64_of_Z 100))
  ∧ read (fun m => rp_updates (report_of digits 0 m)) (simulate (plain_world (num 3 4)) car None 0 100) = Some 0.
Proof. exact (conj trip_figures (conj trip_report (conj extremes parked_idle))). Qed.
(** C84: if all values are finite, the JSON patches are longer than the TSON patches by at least 39
    bytes for each update, and those by which every update is set longer than the TSON patches by at
    least 49 for each that changed nothing, whatever the text of numbers is. *)
Theorem C84_sizes : forall num w v sc sec inc m, simulate w v sc sec inc = Ok m -> let r := report_of num sec m in
  (forall q, q ∈ m_spatches m -> finite (sp_value q) = true) ->
  2 <= rp_tsize r ∧ rp_tsize r + 39 * rp_updates r <= rp_jsize r ∧ rp_tsize r + 49 * rp_stamps r <= rp_ssize r.
Proof. exact report_sizes. Qed.
Print Assumptions C84_sizes.
(** C84: ... and the bandwidth reported for TSON is not greater than that for JSON; both are on the
    right side of every number of kilobytes per second. *)
Theorem C84_bandwidth : forall num w v sc sec inc m, simulate w v sc sec inc = Ok m -> let r := report_of num sec m in
  (forall q, q ∈ m_spatches m -> finite (sp_value q) = true) -> 0 < sec < 2 ^ 53 -> rp_jsize r < 2 ^ 53 ->
  fl_le (rp_tband r) (rp_jband r) ∧ forall k, 0 <= k < 2 ^ 43 ->
    (k * 1024 * sec <= rp_jsize r -> fl_le (f64_of_Z k) (rp_jband r)) ∧ (rp_jsize r <= k * 1024 * sec -> fl_le (rp_jband r) (f64_of_Z k)) ∧
    (k * 1024 * sec <= rp_tsize r -> fl_le (f64_of_Z k) (rp_tband r)) ∧ (rp_tsize r <= k * 1024 * sec -> fl_le (rp_tband r) (f64_of_Z k)).
Proof. exact report_bands. Qed.
Print Assumptions C84_bandwidth.
(** C84: a single change to a value that is not finite makes all sizes 0. *)
Theorem C84_unsized : forall num w v sc sec inc m, simulate w v sc sec inc = Ok m -> let r := report_of num sec m in
  forall q, q ∈ m_tpatches m -> finite (sp_value q) = false -> rp_jsize r = 0 ∧ rp_tsize r = 0 ∧ rp_ssize r = 0.
Proof. exact report_unsized. Qed.
Print Assumptions C84_unsized.
Example C84_unsized_case : exists m q, burst = Ok m ∧ q ∈ m_tpatches m ∧ finite (sp_value q) = false ∧ 0 < m_updates m.
Proof. exact burst_infinite. Qed.
(** C84: in every experiment of the program there are 34082 updates, the JSON patches are at least
    1329198 bytes longer than the TSON patches, and the reduction is between 50 and 100. *)
Theorem C84_experiment : forall num w ord now d sc m, experiment w ord now d sc = Ok m -> orders_ok w -> Permutation (ord vss_sensors) vss_sensors ->
  random_ok w -> fair d -> sine (w_sin w) -> let r := report_of num simulation_sec m in
  rp_updates r = 34082 ∧ rp_jcount r = 34082 + rp_tcount r ∧ rp_scount r = 34082 ∧
  2 <= rp_tsize r ∧ rp_tsize r + 1329198 <= rp_jsize r ∧ rp_tsize r <= rp_ssize r ∧
  fl_le (f64_of_Z 50) (rp_reduction r) ∧ fl_le (rp_reduction r) (f64_of_Z 100) ∧
  (rp_jsize r < 2 ^ 53 -> fl_le (rp_tband r) (rp_jband r)).
Proof. exact experiment_report. Qed.
Print Assumptions C84_experiment.
Example C84_experiment_case : orders_ok fair_world ∧ random_ok fair_world ∧ fair (drawing (num 3 4)) ∧ sine (w_sin fair_world)
  ∧ exists m, experiment fair_world (@rev _) (fun _ => 5) (drawing (num 3 4)) "urban_traffic" = Ok m ∧ m_updates m = 34082.
Proof. exact (fair_experiment "urban_traffic"). Qed.
(** C84: the rows of the cumulative counts are written without a panic, one for each time recorded. *)
Theorem C84_rows : forall w v sc sec inc m, simulate w v sc sec inc = Ok m -> orders_ok w -> NoDup (akeys (sensors v)) -> 0 < inc ->
  exists rows, cumulative_rows m = Ok rows ∧ map (fun x => fst (fst x)) rows = m_times m ∧ map (fun x => snd (fst x)) rows = m_jcounts m ∧ map snd rows = m_tcounts m.
Proof. exact row_list. Qed.
Print Assumptions C84_rows.
Example C84_rows_case : orders_ok (plain_world (num 3 4)) ∧ separate car
  ∧ read cumulative_rows (simulate (plain_world (num 3 4)) car None 30 2000) = Some (Ok [(0, 0%nat, 0%nat); (10000, 16%nat, 4%nat); (20000, 30%nat, 6%nat)]).
Proof. exact (conj (plain_orders _) (conj car_separate trip_long_rows)). Qed.
