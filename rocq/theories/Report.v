(** The results of a simulation: the end of [runRealisticExperiment] (exp/exp_scenario.go 571-607)
    and the figures of [RealworldScenario] (exp/exp_scenario.go 108-311). *)
From Verif Require Import Base F64 Tson Bytes Json Vss Sensor Scenario Sim Temporal.

(** The text of the patches (struct tags at exp/exp_scenario.go 44-57; the operation is always
    "replace"). *)
Definition value_written (v : patch_value) : wjson := match v with PVal v => write_prim v | PTime t => WInt t end.
Definition jpatch_written (p : jpatch) : wjson :=
  WObj [("op", WStr "replace"); ("path", WStr (jp_path p)); ("value", value_written (jp_value p))].
Definition spatch_written (p : spatch) : wjson :=
  WObj [("op", WStr "replace"); ("path", WStr (sp_path p)); ("value", write_prim (sp_value p)); ("timestamp", WInt (sp_ts p))].
(** [len] of the bytes of [json.Marshal], whose error is dropped.  [num] is the text of a finite
    float64. *)
Definition marshal_size (num : f64 -> string) (l : list wjson) : Z :=
  if forallb marshals l then Z.of_nat (slength (wtext num (WArr l))) else 0.

(** [ExperimentResult] (exp/exp_scenario.go 69-89) without the clock, the measured times, the vectors and
    the transitions, which are in the run, with the figures printed and written to results.csv. *)
Record report : Type := Report {
  rp_updates : Z; rp_changes : Z; rp_stamps : Z;
  rp_jcount : Z; rp_tcount : Z; rp_scount : Z;
  rp_jsize : Z; rp_tsize : Z; rp_ssize : Z;
  rp_jband : f64; rp_tband : f64;
  rp_changed : f64; rp_unchanged : f64; rp_reduction : f64 }.
(** Kilobytes per second (exp/exp_scenario.go 582-585). *)
Definition bandwidth (sec size : Z) : f64 := f64_div (f64_div (f64_of_Z size) (f64_of_Z sec)) (f64_of_Z 1024).
(** [float64(n)*100/float64(total)] (exp/exp_scenario.go 205-210). *)
Definition percentage (n total : Z) : f64 := f64_div (f64_mul (f64_of_Z n) (f64_of_Z 100)) (f64_of_Z total).
(** exp/exp_scenario.go 213-214, 238. *)
Definition reduction (tcount jcount : Z) : f64 :=
  f64_mul (f64_sub (f64_of_Z 1) (f64_div (f64_of_Z tcount) (f64_of_Z jcount))) (f64_of_Z 100).
Definition report_of (num : f64 -> string) (sec : Z) (m : run_state) : report :=
  let jsize := marshal_size num (map jpatch_written (m_jpatches m)) in
  let tsize := marshal_size num (map spatch_written (m_tpatches m)) in
  let ssize := marshal_size num (map spatch_written (m_spatches m)) in
  let jcount := Z.of_nat (length (m_jpatches m)) in
  let tcount := Z.of_nat (length (m_tpatches m)) in
  Report (m_updates m) (m_changes m) (m_stamps m) jcount tcount (Z.of_nat (length (m_spatches m)))
    jsize tsize ssize (bandwidth sec jsize) (bandwidth sec tsize)
    (percentage (m_changes m) (m_updates m)) (percentage (m_stamps m) (m_updates m)) (reduction tcount jcount).
(** A row of cumulative.csv (exp/exp_scenario.go 261-268): it panics if the vectors have different
    lengths. *)
Definition cumulative_rows (m : run_state) : res (list (Z * nat * nat)) :=
  (fix go (ts : list Z) (js cs : list nat) : res (list (Z * nat * nat)) :=
     match ts, js, cs with
     | [], _, _ => Ok []
     | t :: ts', j :: js', c :: cs' => do r <- go ts' js' cs'; Ok ((t, j, c) :: r)
     | _, _, _ => Panic
     end) (m_times m) (m_jcounts m) (m_tcounts m).
