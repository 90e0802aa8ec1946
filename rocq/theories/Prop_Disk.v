(** Property C95: the program as a whole on a disk with the results of earlier runs. *)
From Verif Require Import Base BaseSpec F64 Tson TsonSpec Heap Vss VssSpec Sensor Scenario Sim SimSpec SimInit RangeSpec Temporal TemporalSpec TempDemo Json JsonSpec Store StoreSpec ExactNum StoreDemo
  Disk DiskSpec DiskLemmas DiskDemo.

(** C95: the program ends, and each scenario whose directory can be used has a directory with a run of
    it, whose files read back as that run. *)
Theorem C95_saved : forall T num jobs dk, reads_back T num -> (forall sc, sc ∈ scenario_list -> job_ok (jobs sc)) ->
  exists dk', main_program num jobs dk = Ok dk' ∧ forall sc, sc ∈ scenario_list -> usable (dir_of dk sc) (jb_clock (jobs sc)) ->
    exists v m0 m, run_of sc (jobs sc) v m0 m ∧ holds_run T (files_of (dir_of dk' sc) (run_dir (jb_clock (jobs sc)))) m0 m.
Proof. exact main_saved. Qed.
Print Assumptions C95_saved.
Example C95_saved_case : (forall sc, job_ok (at_noon sc)) ∧ usable (dir_of old_disk "urban_traffic") noon ∧ usable (dir_of old_disk "highway_cruising") noon
  ∧ reads_back (lb_text bench) exact_num ∧ scenario_list = ["urban_traffic"; "highway_cruising"; "battery_charging"].
Proof. exact (conj at_noon_ok (conj (proj1 old_usable) (conj (proj1 (proj2 old_usable)) (conj (exact_reads_back _) eq_refl)))). Qed.
(** C95: nothing else is touched; above all no directory of another run. *)
Theorem C95_kept : forall num jobs dk dk' sc name, main_program num jobs dk = Ok dk' ->
  sc ∉ scenario_list ∨ name <> run_dir (jb_clock (jobs sc)) ∧ name <> "sensor_data" ∧ name ∉ ["results.csv"; "cumulative.csv"; "timing.csv"] ->
  alookup name (dir_of dk' sc) = alookup name (dir_of dk sc).
Proof. exact main_kept. Qed.
Print Assumptions C95_kept.
(** C95: a scenario one of whose tables cannot be made is skipped, and the others are not. *)
Theorem C95_skipped : forall num jobs dk dk' sc t fs name, main_program num jobs dk = Ok dk' -> t ∈ ["results.csv"; "cumulative.csv"; "timing.csv"] ->
  alookup t (dir_of dk sc) = Some (EDir fs) -> name ∉ ["results.csv"; "cumulative.csv"; "timing.csv"] -> alookup name (dir_of dk' sc) = alookup name (dir_of dk sc).
Proof. exact main_skipped. Qed.
Print Assumptions C95_skipped.
Example C95_skipped_case : alookup "timing.csv" (dir_of old_disk "battery_charging") = Some (EDir []) ∧ exists dk', main_program exact_num at_noon old_disk = Ok dk'.
Proof. exact (conj eq_refl (main_total exact_num at_noon old_disk (fun sc _ => at_noon_ok sc))). Qed.
(** C95: the temporal queries asked afterwards are answered correctly about the urban run just made, if
    the directory has no run with a later time. *)
Theorem C95_then : forall b num order jobs dk h, let jb := jobs "urban_traffic" in let d := dir_of dk "urban_traffic" in
  reads_back (lb_text b) num -> (forall sc, sc ∈ scenario_list -> job_ok (jobs sc)) -> lab_ok b -> reorders order -> usable d (jb_clock jb) ->
  (forall s n, (s, true) ∈ entries_of d -> is_run s n -> n <= clock_number (jb_clock jb)) ->
  exists dk' v m0 m hi a, main_program num jobs dk = Ok dk' ∧ run_of "urban_traffic" jb v m0 m ∧ 299800 <= hi <= 299900 ∧
    temporal_main b order dk' h = Ok (Some a) ∧ correct v m (lb_now b) 0 hi a.
Proof. exact main_then. Qed.
Print Assumptions C95_then.
Example C95_then_case : (forall sc, job_ok (at_noon sc)) ∧ reads_back (lb_text bench) exact_num ∧ lab_ok bench ∧ reorders turned ∧ usable (dir_of old_disk "urban_traffic") noon
  ∧ forall s n, (s, true) ∈ entries_of (dir_of old_disk "urban_traffic") -> is_run s n -> n <= clock_number noon.
Proof. exact (conj at_noon_ok (conj (exact_reads_back _) (conj bench_ok (conj turned_reorders (conj (proj1 old_usable) (proj2 (proj2 old_usable))))))). Qed.
(** C95: if it has one, as after the clock was set back, they are answered as if the run had not been made. *)
Theorem C95_stale : forall b num order jobs dk dk' h s n, let jb := jobs "urban_traffic" in let d := dir_of dk "urban_traffic" in
  main_program num jobs dk = Ok dk' -> clock_ok (jb_clock jb) -> (s, true) ∈ entries_of d -> is_run s n -> clock_number (jb_clock jb) < n ->
  temporal_main b order dk' h = temporal_main b order dk h.
Proof. exact main_stale. Qed.
Print Assumptions C95_stale.
Example C95_stale_case : ("20250602_080000", true) ∈ entries_of (dir_of odd_disk "urban_traffic") ∧ is_run "20250602_080000" 20250602080000 ∧ clock_number noon < 20250602080000.
Proof. exact odd_later. Qed.
