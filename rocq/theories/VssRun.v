(** The runs of the vehicle data generator and the web demo: internal/vssgen/args.go, web_demo.go. *)
From Verif Require Import Base F64 Tson Bytes Json Serial GoText Heap Patch Diff Logument Vss.

(** The files below the output directory, by their names relative to it. *)
Definition files : Type := list (string * string).

(** What a run finds: [e_read name] is the JSON file of that name, null if it cannot be read,
    [e_draws i j] are the random numbers for file [j] of car [i], [e_nodes i] and [e_maps i j] the orders in
    which Go visits maps, [e_time i j] the time. *)
Record env : Type := Env {
  e_read : string -> wjson;
  e_draws : Z -> Z -> string -> draws;
  e_nodes : Z -> list (string * members) -> list (string * members);
  e_maps : Z -> Z -> tson -> tson;
  e_time : Z -> Z -> Z
}.

(** The names of the files (internal/vssgen/args.go 90-91, 103-104, 110-111); slashes between names
    stand for [filepath.Join]. *)
Definition tson_name (i j : Z) : string :=
  "car_" +++ z_text i +++ "/tson" +++ "/" +++ z_text i +++ "_" +++ z_text j +++ ".tson".
Definition patch_name (i j : Z) : string :=
  "car_" +++ z_text i +++ "/patches" +++ "/" +++ z_text i +++ "_" +++ z_text j +++ ".json".

(** ** Options *)
(** The values of the flags (internal/vssgen/args.go 17-23). *)
Record flags : Type := Flags {
  fl_dataset : string; fl_cars : Z; fl_files : Z; fl_change : f64; fl_size : f64
}.
(** [ParseArgs] (internal/vssgen/args.go 16-46) after the flags are parsed; [None] when the program
    exits. *)
Definition parse_args (f : flags) : option members :=
  if (fl_cars f <? 0) || (fl_files f <? 0) then None
  else Some [("dataset", WStr (fl_dataset f)); ("cars", WInt (fl_cars f)); ("files", WInt (fl_files f));
             ("change_rate", WNum (fl_change f)); ("size", WNum (fl_size f))].
(** The options of the web demo (web_demo.go 48-54, main.go 9-13). *)
Definition default_options : members :=
  [("dataset", WStr "internal/vssgen/vss.json"); ("cars", WInt 5); ("files", WInt 10);
   ("change_rate", WNum (SFdiv f64_prec f64_emax (f64_of_Z 2) (f64_of_Z 10)));
   ("size", WNum (SFdiv f64_prec f64_emax (f64_of_Z 1) (f64_of_Z 10)))].
(** [metadata\[k\].(string)] and so on. *)
Definition opt_text (k : string) (o : members) : res string :=
  match alookup k o with Some (WStr s) => Ok s | _ => Panic end.
Definition opt_int (k : string) (o : members) : res Z :=
  match alookup k o with Some (WInt z) => Ok z | _ => Panic end.
Definition opt_float (k : string) (o : members) : res f64 :=
  match alookup k o with Some (WNum f) => Ok f | _ => Panic end.

Section run.
(** [num] is the text of a number in JSON, the other functions are those of [save_data] and
    [save_patch]. *)
Context (T : textlib) (num fmt0 : f64 -> string) (compound : json -> string) (no_text : option json -> string) (e : env).

(** [SaveMetadata] (internal/vssgen/args.go 67-71): the content of metadata.json, empty if a number has
    no JSON text. *)
Definition metadata_text (o : members) : string :=
  if any_encodable (WObj o) then
    match o with
    | [] => "{}"
    | _ => "{" +++ newline +++
           join_lines (map (fun kv => "    " +++ json_string (fst kv) +++ ": " +++ wtext num (write_any (snd kv))) (sort_members o)) +++
           newline +++ "}"
    end
  else "".

(** ** Generate *)
(** The inner loop (internal/vssgen/args.go 108-113): in every turn [data] is the first data set, as
    the assignment in the body declares another variable.  Files written before a panic stay. *)
Fixpoint next_files (change maintain : f64) (i : Z) (js : list Z) (data : vss) (fs : files) : files * res unit :=
  match js with
  | [] => (fs, Ok tt)
  | j :: js' =>
      match generate_next T num change maintain (e_draws e i j) (e_maps e i j) (e_time e i j) data with
      | Ok (data', patch) =>
          let fs1 := ainsert (tson_name i j) (save_data T fmt0 (v_data data')) fs in
          match save_patch T compound no_text patch with
          | Ok s => next_files change maintain i js' data (ainsert (patch_name i j) s fs1)
          | _ => (fs1, Panic)
          end
      | _ => (fs, Panic)
      end
  end.
(** The outer loop (internal/vssgen/args.go 88-114); directories and the progress bar are left out,
    and writing a file succeeds. *)
Fixpoint car_files (change maintain size : f64) (n : Z) (is : list Z) (v : vss) (fs : files) : files * res unit :=
  match is with
  | [] => (fs, Ok tt)
  | i :: is' =>
      match generate size (e_draws e i 1) (e_nodes e i) (e_time e i 1) v with
      | Ok data =>
          let s := save_data T fmt0 (v_data data) in
          let fs1 := ainsert (patch_name i 1) s (ainsert (tson_name i 1) s fs) in
          match next_files change maintain i (seqZ 2 (n - 1)) data fs1 with
          | (fs2, Ok _) => car_files change maintain size n is' v fs2
          | r => r
          end
      | _ => (fs, Panic)
      end
  end.
(** [Generate] (internal/vssgen/args.go 74-115). *)
Definition run_options (o : members) : res (string * Z * Z * f64 * f64 * f64) :=
  do dataset <- opt_text "dataset" o;
  do cars <- opt_int "cars" o;
  do n <- opt_int "files" o;
  do change <- opt_float "change_rate" o;
  do maintain <- opt_float "maintain_rate" o;
  do size <- opt_float "size" o;
  Ok (dataset, cars, n, change, maintain, size).
Definition run_generate (o : members) (fs : files) : files * res unit :=
  match run_options o with
  | Ok (dataset, cars, n, change, maintain, size) =>
      match new_vss (e_read e dataset) with
      | Ok v => car_files change maintain size n (seqZ 1 cars) v fs
      | _ => (fs, Panic)
      end
  | _ => (fs, Panic)
  end.
(** [generateVss] (web_demo.go 41-63) with [PrepareOutputDir] (internal/vssgen/args.go 49-64), of which
    removing the old files is assumed to work; [args] are the flags if there are any, and [old] the
    files before the call.  [None] when the program exits. *)
Definition generate_vss (args : option flags) (old : files) : option (files * res unit) :=
  match match args with Some f => parse_args f | None => Some default_options end with
  | None => None
  | Some o => Some (run_generate o [("metadata.json", metadata_text o)])
  end.

(** ** The handlers of the web demo *)
(** [os.ReadFile] without its error. *)
Definition read_file (n : string) (fs : files) : string := default "" (alookup n fs).
(** [updateHandler] (web_demo.go 73-83); the arguments are the query parameters. *)
Definition update_handler (car patch : string) (fs : files) : string :=
  if decide (patch = "") then read_file ("car_" +++ car +++ "/tson/" +++ car +++ "_1.tson") fs
  else read_file ("car_" +++ car +++ "/patches/" +++ car +++ "_" +++ patch +++ ".json") fs.
(** The loop of [patchHandler] (web_demo.go 94-101). *)
Fixpoint store_files (car : Z) (is : list Z) (fs : files) (st : state) : state * res unit :=
  match is with
  | [] => (st, Ok tt)
  | i :: is' =>
      match store (PI_json (read_patch T (read_file (patch_name car i) fs))) st with
      | (st', Ok _) => store_files car is' fs st'
      | (st', _) => (st', Panic)
      end
  end.
(** [strconv.Atoi] without its error, of which the value is 0 or, out of range, a bound of int64. *)
Definition patch_handler (car maxpatch : Z) (fs : files) (h : heap) : heap * res string :=
  match new_logument T (SI_text (read_file (tson_name car 1) fs)) None h with
  | (h, Ok L) =>
      match store_files car (seqZ 2 (maxpatch - 1)) fs (h, L) with
      | ((h, L), Ok _) =>
          match append (h, L) with
          | (st, Panic) => (fst st, Panic)
          | (st, _) =>
              match snapshot 1 st with
              | ((h, _), Ok v) =>
                  match read h v with
                  | Some t => (h, Ok (marshal_indent T t "" "  "))
                  | None => (h, Panic)
                  end
              | ((h, _), _) => (h, Panic)
              end
          end
      | ((h, _), _) => (h, Panic)
      end
  | (h, _) => (h, Panic)
  end.
End run.
