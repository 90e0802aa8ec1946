(** What the program should leave on the disk. *)
From Verif Require Import Base BaseSpec F64 Tson TsonSpec Bytes Serial TextSpec Heap Patch Vss VssSpec Sensor Scenario Sim SimSpec SimInit Temporal TemporalSpec RangeSpec Tjson TjsonSpec Json JsonSpec Temporal TemporalSpec Store StoreSpec Disk.

(** What is not determined by the program is as its sources promise. *)
Record job_ok (jb : job) : Prop := {
  jo_clock : clock_ok (jb_clock jb); jo_world : orders_ok (jb_world jb); jo_random : random_ok (jb_world jb); jo_sine : sine (w_sin (jb_world jb));
  jo_order : Permutation (jb_order jb vss_sensors) vss_sensors; jo_draws : fair (jb_draws jb); jo_now : forall p, int64 (jb_now jb p) }.
(** [run_of sc jb v m0 m]: the run of the scenario, its vehicle and its states before and after. *)
Record run_of (sc : string) (jb : job) (v : vehicle) (m0 m : run_state) : Prop := {
  ro_vehicle : init_vehicle (jb_order jb) (jb_now jb) sc (jb_draws jb) = Ok v;
  ro_start : start (jb_world jb) v None = Ok m0;
  ro_end : experiment (jb_world jb) (jb_order jb) (jb_now jb) (jb_draws jb) sc = Ok m }.
(** The files [fs] hold the run. *)
Record holds_run (T : textlib) (fs : list (string * string)) (m0 m : run_state) : Prop := {
  hr_json0 : file_holds T fs "initial_json.json" (WObj (m_json m0)); hr_tson0 : file_holds T fs "initial_tson.json" (WObj (m_tson m0));
  hr_json : file_holds T fs "final_json.json" (WObj (m_json m)); hr_tson : file_holds T fs "final_tson.json" (WObj (m_tson m));
  hr_jpatches : file_says T fs "all_json_patches.json" (JArr (map patch_data (m_jpatches m)));
  hr_tpatches : exists s, alookup "all_tson_patches.json" fs = Some s ∧ patches_text T s (map loaded (m_tpatches m)) }.
(** The scenario directory [d] takes a run started at [c]: no directory has the name of a table, and
    no file that of the run. *)
Definition usable (d : dir) (c : clock) : Prop :=
  (forall t, t ∈ tables -> ~ (t, true) ∈ entries_of d) ∧ ~ (run_dir c, false) ∈ entries_of d.
