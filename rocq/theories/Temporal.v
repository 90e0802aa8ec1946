(** The files a simulation leaves and the temporal experiment run on them: exp/doc_data_save.go,
    exp/exp_temporal.go and the rest of exp/utils_temporal.go. *)
From Verif Require Import Base F64 GoText Tson Bytes Serial Heap Patch Logument Tjson Initial Json Query Sensor Sim.

(** ** Reading the files *)
(** [decoded w j]: [json.Unmarshal] into [map[string]any] of the text written for [w] by
    [saveJSONToFile] (exp/doc_data_save.go 89-106) gives [j]; the order of the members of an object
    is that of an iteration over the map and may be any. *)
Inductive decoded : wjson -> json -> Prop :=
| dec_scalar w : (forall l, w <> WArr l) -> (forall m, w <> WObj m) -> decoded w (unmarshal_any w)
| dec_arr l l' : Forall2 decoded l l' -> decoded (WArr l) (JArr l')
| dec_obj m m1 m2 : Permutation m m1 -> Forall2 (fun x y => fst x = fst y ∧ decoded (snd x) (snd y)) m1 m2 ->
    decoded (WObj m) (JObj m2).
(** [MarshalIndent] fails on a number that is no JSON number. *)
Definition finite (p : prim) : bool := match p with PNum f => f64_finite f | _ => true end.
Fixpoint marshals (w : wjson) : bool :=
  match w with
  | WNum f => f64_finite f
  | WArr l => forallb marshals l
  | WObj m => forallb (fun kv => marshals (snd kv)) m
  | _ => true
  end.
(** [SaveAllTSONPatches] (exp/doc_data_save.go 62-65) and the file read back by [loadTSONPatches]
    (exp/exp_temporal.go 108-154), which finds one file of that name in the directory of a run.  The
    operation of every patch is "replace" (exp/exp_scenario.go 509-517). *)
Definition loaded (q : spatch) : tpatch := TPatch "replace" (sp_path q) (json_of_prim (sp_value q)) (sp_ts q).
Definition saved_patches (ps : list spatch) : res (list tpatch) :=
  if forallb (fun q => finite (sp_value q)) ps then Ok (map loaded ps) else Err.

(** ** The directory of the latest run *)
(** The pattern of [filepath.Match] (exp/exp_temporal.go 225-229): eight digits, "_" and six
    digits. *)
Definition is_digit (a : ascii) : bool := let n := nat_of_ascii a in (48 <=? n)%nat && (n <=? 57)%nat.
Fixpoint matches_run (pattern : list bool) (s : string) : bool :=
  match pattern, s with
  | [], EmptyString => true
  | d :: pattern', String a s' =>
      (if (d : bool) then is_digit a else bool_decide (a = "_"%char)) && matches_run pattern' s'
  | _, _ => false
  end.
Definition run_pattern : list bool := repeat true 8 ++ [false] ++ repeat true 6.
(** [findLatestTimestampDir] (exp/exp_temporal.go 215-242): [entries] are the names in the directory,
    each with whether it is a directory; the joining with the directory is left out. *)
Fixpoint insert_string (s : string) (l : list string) : list string :=
  match l with
  | [] => [s]
  | x :: l' => if str_lt x s then x :: insert_string s l' else s :: l
  end.
Definition sort_strings (l : list string) : list string := foldr insert_string [] l.
Definition latest_dir (entries : list (string * bool)) : res string :=
  match last (sort_strings (map fst (List.filter (fun e => snd e && matches_run run_pattern (fst e)) entries))) with
  | Some s => Ok s
  | None => Err
  end.

(** ** Times *)
(** [getTimeRange] (exp/exp_temporal.go 193-212), also the first part of [generateTimestamps]
    (157-178).  [now] is the clock in seconds. *)
Definition time_range (now : Z) (us : list tpatch) : Z * Z :=
  match us with
  | [] => (now - 3600, now)
  | u :: _ =>
      fold_left (fun r u => (if tp_ts u <? fst r then tp_ts u else fst r, if snd r <? tp_ts u then tp_ts u else snd r))
        us (tp_ts u, tp_ts u)
  end.
(** [generateTimestamps] (exp/exp_temporal.go 157-190).  The additions on int64 do not wrap around. *)
Definition time_at (lo hi : Z) (count i : nat) : Z :=
  let position := SFdiv f64_prec f64_emax (f64_of_Z (Z.of_nat i)) (f64_of_Z (Z.of_nat count - 1)) in
  lo + f64_to_int64 (SFmul f64_prec f64_emax position (f64_of_Z (hi - lo))).
Definition generate_timestamps (now : Z) (us : list tpatch) (count : nat) : list Z :=
  let '(lo, hi) := time_range now us in map (time_at lo hi count) (seq 0 count).

(** ** The experiment *)
(** What the run does not determine: the library for texts, the iteration orders met by the log's
    snapshots, [sort.Slice] on the patches (in [NewTemporalQueryExperiment] and in
    [FromTSONPatches]) and on the periods, the iteration orders of [lastValues] and of the tracks, the
    clock, and [Int64N]. *)
Record lab : Type := Lab {
  lb_text : textlib; lb_oracle : nat -> oracle;
  lb_sort1 : list tpatch -> list tpatch; lb_sort2 : list tpatch -> list tpatch;
  lb_periods : list (string * json) -> list (string * json);
  lb_values : list (string * (Z * json)) -> list (string * (Z * json));
  lb_track : list (N * list operation) -> list (N * list operation);
  lb_now : Z; lb_draw : Z -> Z }.
(** The document of [NewTemporalQueryExperiment] (exp/utils_temporal.go 66-85): the initial patches
    and the loaded ones are sorted before [FromTSONPatches] sorts them again. *)
Definition temporal_doc (b : lab) (file : json) (us : list tpatch) : tdoc :=
  from_patches (fun x => lb_sort2 b (lb_sort1 b x)) (lb_values b) (lb_now b) (initial_patches file ++ us).
(** [RunTemporalTrackExperiment] (exp/utils_temporal.go 161-217): the track of each path on the log
    and on the document.  The measurements and files are left out. *)
Fixpoint track_run (b : lab) (d : tdoc) (paths : list string) (s e : Z) (st : state)
  : state * res (list (gmap N (list operation) * list (string * json))) :=
  match paths with
  | [] => (st, Ok [])
  | p :: paths' =>
      match temporal_track s e st with
      | (st1, Ok m) =>
          match tj_track (lb_periods b) d p s e with
          | Ok rs =>
              match track_run b d paths' s e st1 with
              | (st2, Ok xs) => (st2, Ok ((filter_track m p, rs) :: xs))
              | x => x
              end
          | _ => (st1, Err)
          end
      | (st1, Err) => (st1, Err)
      | (st1, Panic) => (st1, Panic)
      end
  end.
(** [RunEventSearchExperiment] (exp/utils_temporal.go 220-290) for one path. *)
Fixpoint event_run (b : lab) (d : tdoc) (path : string) (s e : Z) (thresholds : list f64) (st : state)
  : state * res (list (list Z * list Z)) :=
  match thresholds with
  | [] => (st, Ok [])
  | thr :: rest =>
      match find_events (lb_track b) path s e thr st with
      | (st1, Ok zs) =>
          match tj_events (lb_periods b) d path s e (over_threshold thr) with
          | Ok xs =>
              match event_run b d path s e rest st1 with
              | (st2, Ok r) => (st2, Ok ((zs, xs) :: r))
              | x => x
              end
          | _ => (st1, Err)
          end
      | (st1, Err) => (st1, Err)
      | (st1, Panic) => (st1, Panic)
      end
  end.
(** What a run of the experiment leaves: the times asked for, the answers of the log and of the
    document, the tracks, the window of the event search and the events.  The tracks and the events
    are missing ([Err]) if the document reports an error, which is only printed. *)
Record answers : Type := Answers {
  an_times : list Z; an_log : list tson; an_doc : list (list (string * json));
  an_tracks : res (list (gmap N (list operation) * list (string * json)));
  an_window : Z * Z; an_events : res (list (list Z * list Z)) }.
Definition tracked_paths : list string := [
  "Vehicle.Speed"; "Vehicle.CurrentLocation.Latitude"; "Vehicle.CurrentLocation.Longitude";
  "Vehicle.Powertrain.TractionBattery.StateOfCharge.Current"].
Definition thresholds : list f64 := [f64_of_Z 10; f64_of_Z 30; f64_of_Z 50].
Definition search_gap : Z := 10000.
(** [NewTemporalQueryExperiment] (exp/utils_temporal.go 45-101) and the body of the loop of
    [RunTemporalQueryExperiments] (exp/exp_temporal.go 26-101) on the decoded initial file and the
    loaded patches.  The file is read twice, so the members of its objects are met in two orders:
    [file] is what the document is made from, [file'] what the log is made from.  [Int64N] panics on a
    bound that is not positive. *)
Definition temporal_experiment (b : lab) (file file' : json) (us : list tpatch) (h : heap) : res answers :=
  match create_logument (lb_text b) file' us h with
  | (h1, Ok L) =>
      let d := temporal_doc b file us in
      let times := generate_timestamps (lb_now b) us 61 in
      match snapshot_run (imap (fun i t => (lb_oracle b i, t)) times) (h1, L) with
      | (st1, Ok ds) =>
          let '(s, e) := time_range (lb_now b) us in
          match track_run b d tracked_paths s e st1 with
          | (_, Panic) => Panic
          | (st2, tracks) =>
              if e - s <? search_gap then Panic
              else if e - search_gap - s + 1 <=? 0 then Panic
              else
                let left := lb_draw b (e - search_gap - s + 1) + s in
                match event_run b d "Vehicle.Speed" left (left + search_gap) thresholds st2 with
                | (_, Panic) => Panic
                | (_, events) =>
                    Ok (Answers times ds (map (tj_snapshot d) times) tracks (left, left + search_gap) events)
                end
          end
      | _ => Panic
      end
  | _ => Panic
  end.
