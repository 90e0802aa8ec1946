(** The files of a run as texts: exp/doc_data_save.go, the reading of them in exp/exp_temporal.go
    108-154 and exp/utils_temporal.go 352-365 and 502-516, and the program run on a directory of
    runs, exp/exp_temporal.go 19-105. *)
From Verif Require Import Base F64 Tson Bytes Serial Heap Patch Tjson Initial Json Vss Sensor Sim Temporal Report.

(** ** Indented text *)
Section write.
(** The text encoding/json writes for a finite float64, and the indentation. *)
Context (num : f64 -> string) (ind : string).
Fixpoint blanks (d : nat) : string := match d with O => "" | S d' => ind +++ blanks d' end.
Definition line (d : nat) : string := String (ascii_of_N 10) (blanks d).
(** [json.MarshalIndent] with an empty prefix, at the depth [d]: [json.Indent] puts every member on a
    line of its own and leaves empty arrays and objects as they are. *)
Fixpoint indented (d : nat) (w : wjson) : string :=
  match w with
  | WNull => "null"
  | WBool b => if b then "true" else "false"
  | WNum f => num f
  | WInt z => z_text z
  | WStr s => json_string s
  | WArr [] => "[]"
  | WArr l => "[" +++ line (S d) +++ String.concat ("," +++ line (S d)) (map (indented (S d)) l) +++ line d +++ "]"
  | WObj [] => "{}"
  | WObj m => "{" +++ line (S d) +++
      String.concat ("," +++ line (S d)) (map (fun kv => json_string (fst kv) +++ ": " +++ indented (S d) (snd kv)) m) +++
      line d +++ "}"
  end.
(** The error of a number that is no JSON number is [None]. *)
Definition marshal_indent (w : wjson) : option string :=
  if marshals w then Some (indented 0 w) else None.
End write.
(** [ToCompatibleTsonString] (internal/tson/serialization.go 19-26). *)
Definition compatible_string (num : f64 -> string) (t : tson) : res string :=
  match marshal_indent num "    " (json_written t) with Some s => Ok s | None => Panic end.

(** ** The files of a run *)
(** The files in the directory of a run by their names. *)
Notation text_folder := (list (string * string)).
(** A number with at least [k] digits: [fmt.Sprintf("%04d")] and the like of a number that is not
    negative, and the parts of [time.Format]. *)
Definition padded (k : nat) (n : Z) : string :=
  let s := dec_text (Z.to_N n) in foldr (fun _ r => String "0" r) s (seq 0 (k - slength s)).
(** A local time: year, month, day, hour, minute and second. *)
Record clock : Type := Clock { ck_year : Z; ck_month : Z; ck_day : Z; ck_hour : Z; ck_minute : Z; ck_second : Z }.
(** The directory made by [NewDataStorage] (exp/doc_data_save.go 18-33), below that of the scenario:
    the layout is "20060102_150405". *)
Definition run_dir (c : clock) : string :=
  padded 4 (ck_year c) +++ padded 2 (ck_month c) +++ padded 2 (ck_day c) +++ "_" +++
  padded 2 (ck_hour c) +++ padded 2 (ck_minute c) +++ padded 2 (ck_second c).
(** [saveJSONToFile] (exp/doc_data_save.go 89-106).  If the data cannot be marshalled, no file is
    written, and the callers only print the error.  Writing the file itself does not fail. *)
Definition save_json (num : f64 -> string) (name : string) (w : wjson) (fs : text_folder) : text_folder :=
  match marshal_indent num "  " w with Some s => ainsert name s fs | None => fs end.
(** What [runRealisticExperiment] saves at its start and at its end (exp/exp_scenario.go 351-356 and
    609-622) with the methods of exp/doc_data_save.go 36-75: [m0] is the state before the loop, [m] the
    one after it.  The members of maps are sorted, those of structs (exp/exp_scenario.go 44-57) are not. *)
Definition saved_files (num : f64 -> string) (m0 m : run_state) (fs : text_folder) : text_folder :=
  let fs := save_json num "initial_json.json" (write_any (WObj (m_json m0))) fs in
  let fs := save_json num "initial_tson.json" (write_any (WObj (m_tson m0))) fs in
  let fs := save_json num "final_json.json" (write_any (WObj (m_json m))) fs in
  let fs := save_json num "final_tson.json" (write_any (WObj (m_tson m))) fs in
  let fs := save_json num "all_json_patches.json" (WArr (map jpatch_written (m_jpatches m))) fs in
  save_json num "all_tson_patches.json" (WArr (map spatch_written (m_tpatches m))) fs.

(** ** Reading *)
Section read.
Context (T : textlib).
(** [json.Unmarshal] into [TsonPatch] (struct tags at exp/exp_scenario.go 52-57), member by member. *)
Definition set_tfield (u : tpatch) (k : string) (t : jtree) : res tpatch :=
  let name := fold_name k in
  if decide (name = "op") then
    match t with
    | JtNull => Ok u
    | JtStr s => Ok (TPatch s (tp_path u) (tp_value u) (tp_ts u))
    | _ => Err
    end
  else if decide (name = "path") then
    match t with
    | JtNull => Ok u
    | JtStr s => Ok (TPatch (tp_op u) s (tp_value u) (tp_ts u))
    | _ => Err
    end
  else if decide (name = "value") then
    do v <- to_any T t; Ok (TPatch (tp_op u) (tp_path u) v (tp_ts u))
  else if decide (name = "timestamp") then
    match t with
    | JtNull => Ok u
    | JtNum lit => match parse_int lit with
                   | Some z => Ok (TPatch (tp_op u) (tp_path u) (tp_value u) z)
                   | None => Err
                   end
    | _ => Err
    end
  else Ok u.
Definition zero_tpatch : tpatch := TPatch "" "" JNull 0.
Fixpoint set_tfields (u : tpatch) (m : list (string * jtree)) : res tpatch :=
  match m with
  | [] => Ok u
  | (k, t) :: m' => do u' <- set_tfield u k t; set_tfields u' m'
  end.
Definition to_tpatch (t : jtree) : res tpatch :=
  match t with
  | JtNull => Ok zero_tpatch
  | JtObj m => set_tfields zero_tpatch m
  | _ => Err
  end.
Fixpoint to_tpatches (l : list jtree) : res (list tpatch) :=
  match l with
  | [] => Ok []
  | t :: l' => do u <- to_tpatch t; do us <- to_tpatches l'; Ok (u :: us)
  end.
Definition read_patches (s : string) : res (list tpatch) :=
  match scan s with
  | None => Err
  | Some JtNull => Ok []
  | Some (JtArr l) => to_tpatches l
  | Some _ => Err
  end.
(** [loadTSONPatches] (exp/exp_temporal.go 108-154).  The directory of a run has no directories below
    it, so one file at most has the name. *)
Definition load_patches (fs : text_folder) : res (list tpatch) :=
  match alookup "all_tson_patches.json" fs with Some s => read_patches s | None => Ok [] end.
(** [json.Unmarshal] into [map[string]interface{}] (exp/utils_temporal.go 359-362 and 509-512); the nil
    map left by null is an empty object to the callers. *)
Definition read_map (s : string) : res json :=
  match scan s with
  | None => Err
  | Some JtNull => Ok (JObj [])
  | Some (JtObj m) => to_any T (JtObj m)
  | Some _ => Err
  end.
End read.

(** ** The program *)
(** [RunTemporalQueryExperiments] (exp/exp_temporal.go 19-105) for its one scenario: [entries] are the
    names in the directory of the scenario with whether they are directories, [content] the files of
    each.  [None] if the program only prints an error.  A file with the initial document that cannot
    be read makes it panic (exp/utils_temporal.go 67-70 and 352-362).  [order] is the iteration order of
    the decoded maps, each time the file is read. *)
Definition temporal_program (b : lab) (order : nat -> json -> json) (entries : list (string * bool)) (content : string -> text_folder) (h : heap)
  : res (option answers) :=
  match latest_dir entries with
  | Ok dir =>
      match load_patches (lb_text b) (content dir) with
      | Ok us =>
          match alookup "initial_json.json" (content dir) with
          | Some s =>
              match read_map (lb_text b) s with
              | Ok file => do a <- temporal_experiment b (order 0%nat file) (order 1%nat file) us h; Ok (Some a)
              | _ => Panic
              end
          | None => Panic
          end
      | _ => Ok None
      end
  | _ => Ok None
  end.
