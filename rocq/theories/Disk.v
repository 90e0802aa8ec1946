(** The program as a whole on a disk: main.go 35-48, exp/exp_scenario.go 30-36 and 108-310, the
    directories made by exp/doc_data_save.go 18-33 and exp/sensor_data_save.go 30-35, and
    exp/exp_temporal.go 19-45. *)
From Verif Require Import Base F64 Tson Heap Vss Sensor Scenario Sim Temporal Report Store.

(** An entry in the directory of a scenario: a file, whose text is not modelled here (the tables are
    in Csv.v), or a directory with the texts of its files. *)
Inductive entry : Type := EFile | EDir (fs : text_folder).
Notation dir := (list (string * entry)).
(** The directories of the scenarios below [outputDir] (exp/exp_scenario.go 18 and 117). *)
Notation disk := (list (string * dir)).
Definition dir_of (dk : disk) (sc : string) : dir := default [] (alookup sc dk).
(** [os.Create]: it fails on a directory. *)
Definition make_file (name : string) (d : dir) : option dir :=
  match alookup name d with Some (EDir _) => None | _ => Some (ainsert name EFile d) end.
(** [os.MkdirAll], whose error is not looked at (exp/doc_data_save.go 26) or only reported
    (exp/exp_scenario.go 321-326). *)
Definition make_dir (name : string) (d : dir) : dir :=
  match alookup name d with Some _ => d | None => ainsert name (EDir []) d end.
(** Writing below a directory; below a file every write fails, and the errors are only printed. *)
Definition change_dir (name : string) (f : text_folder -> text_folder) (d : dir) : dir :=
  match alookup name d with Some (EDir fs) => ainsert name (EDir (f fs)) d | _ => d end.
(** The tables of a scenario (exp/exp_scenario.go 120-178) in the order they are made; the first that
    cannot be made ends the scenario. *)
Definition tables : list string := ["results.csv"; "cumulative.csv"; "timing.csv"].
Fixpoint make_tables (names : list string) (d : dir) : dir * bool :=
  match names with
  | [] => (d, true)
  | name :: names' => match make_file name d with Some d' => make_tables names' d' | None => (d, false) end
  end.
(** What is not determined by the program in a run: the time it starts at, the iteration orders, the
    clock of the sensors and the random numbers. *)
Record job : Type := Job {
  jb_clock : clock; jb_world : world; jb_order : list (string * vss_sensor) -> list (string * vss_sensor);
  jb_now : string -> Z; jb_draws : draws }.
(** [runRealisticExperiment] (exp/exp_scenario.go 314-629) for a scenario other than the mixed one. *)
Definition run_in (num : f64 -> string) (sc : string) (jb : job) (d : dir) : res dir :=
  let c := run_dir (jb_clock jb) in
  do v <- init_vehicle (jb_order jb) (jb_now jb) sc (jb_draws jb);
  do m0 <- start (jb_world jb) v None;
  do m <- experiment (jb_world jb) (jb_order jb) (jb_now jb) (jb_draws jb) sc;
  Ok (change_dir c (saved_files num m0 m) (make_dir "sensor_data" (make_dir c d))).
(** The body of the loop of [RealworldScenario]. *)
Definition scenario_in (num : f64 -> string) (sc : string) (jb : job) (d : dir) : res dir :=
  match make_tables tables d with (d', true) => run_in num sc jb d' | (d', false) => Ok d' end.
(** [RealworldScenario] for a list of scenarios. *)
Fixpoint realworld (num : f64 -> string) (jobs : string -> job) (scs : list string) (dk : disk) : res disk :=
  match scs with
  | [] => Ok dk
  | sc :: scs' => do d <- scenario_in num sc (jobs sc) (dir_of dk sc); realworld num jobs scs' (ainsert sc d dk)
  end.
(** The scenarios (exp/exp_scenario.go 30-36) and the program (main.go 35-44). *)
Definition scenario_list : list string := ["urban_traffic"; "highway_cruising"; "battery_charging"].
Definition main_program (num : f64 -> string) (jobs : string -> job) (dk : disk) : res disk :=
  realworld num jobs scenario_list dk.
(** [TemporalQueryExperiment] (main.go 46-48): what [os.ReadDir] and the reads below it meet.  Without
    a directory of the scenario [os.ReadDir] fails, which is reported like a directory without runs. *)
Definition entries_of (d : dir) : list (string * bool) :=
  map (fun e => (fst e, match snd e with EDir _ => true | EFile => false end)) d.
Definition files_of (d : dir) (name : string) : text_folder :=
  match alookup name d with Some (EDir fs) => fs | _ => [] end.
Definition temporal_main (b : lab) (order : nat -> json -> json) (dk : disk) (h : heap) : res (option answers) :=
  let d := dir_of dk "urban_traffic" in temporal_program b order (entries_of d) (files_of d) h.
