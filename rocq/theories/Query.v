(** The queries of the temporal experiments on the log: exp/utils_temporal.go 104-157, 352-390
    and 443-479. *)
From Verif Require Import Base F64 Tson Serial Heap Patch Logument Tjson Initial Json.

(** The operation made of a loaded patch (exp/utils_temporal.go 378-385). *)
Definition operation_of (u : tpatch) : operation :=
  Op (op_of_name (tp_op u)) (tp_path u) (any_of_json (tp_value u)) (tp_ts u).

(** [createLogumentFromPatches] (exp/utils_temporal.go 352-390) on the decoded file.  The patches
    are handed to [NewLogument] as a slice that is never nil. *)
Definition create_logument (T : textlib) (file : json) (us : list tpatch) (h : heap)
  : heap * res logument :=
  match snd (from_json (transform file)) with
  | Ok t =>
      let '(h', v) := alloc_tree h t in
      new_logument T (SI_doc v) (Some (PI_patch (Some (map operation_of us)))) h'
  | _ => (h, Panic)
  end.

(** The calls of [TemporalSnapshot] in [RunTemporalSnapshotExperiment]
    (exp/utils_temporal.go 104-157): the content of each result is written out before the next
    call.  The results on the other document are in [Tjson.v]; the measurements are left out. *)
Fixpoint snapshot_run (qs : list (oracle * Z)) (st : state) : state * res (list tson) :=
  match qs with
  | [] => (st, Ok [])
  | (orc, t) :: qs' =>
      match temporal_snapshot orc t st with
      | (st1, Ok r) =>
          match read (fst st1) r with
          | Some d =>
              match snapshot_run qs' st1 with
              | (st2, Ok ds) => (st2, Ok (d :: ds))
              | x => x
              end
          | None => (st1, Panic)
          end
      | (st1, _) => (st1, Panic)
      end
  end.

(** [filterTrackByPath] (exp/utils_temporal.go 443-458). *)
Definition filter_track (m : gmap N (list operation)) (path : string) : gmap N (list operation) :=
  omap (fun ps => match List.filter (fun p => bool_decide (op_path p = path)) ps with
                  | [] => None
                  | l => Some l
                  end) m.

(** [findEventsInLogument] (exp/utils_temporal.go 461-479); [ord] is the iteration order of the
    track. *)
Definition exceeds (threshold : f64) (v : any) : bool :=
  match v with ANum f => SFltb threshold f | _ => false end.
Definition events_of (path : string) (threshold : f64) (ps : list operation) : list Z :=
  map op_ts (List.filter (fun p => bool_decide (op_path p = path) && exceeds threshold (op_value p)) ps).
Definition find_events (ord : list (N * list operation) -> list (N * list operation))
    (path : string) (s e : Z) (threshold : f64) (st : state) : state * res (list Z) :=
  match temporal_track s e st with
  | (st', Ok m) => (st', Ok (concat (map (fun x => events_of path threshold (snd x)) (ord (map_to_list m)))))
  | (st', Err) => (st', Err)
  | (st', Panic) => (st', Panic)
  end.
(** The predicate handed to [FindEvents] (exp/utils_temporal.go 258-264). *)
Definition over_threshold (threshold : f64) (v : json) : bool :=
  match v with JNum f => SFltb threshold f | _ => false end.
