(** Properties C74-C76: the queries of the temporal experiments. *)
From Verif Require Import Base BaseSpec F64 Tson TsonSpec TextSpec Heap Patch PatchSpec Serial Logument LogSpec ReplaySpec Json
  Tjson TjsonSpec TjsonDemo Initial InitialSpec InitialDemo Query QuerySpec QueryLemmas QueryTrack QueryAgree LogDemo QueryDemo QueryCreate QueryCreateDemo QueryFail.

(** C74: the log made of a file without nulls and of updates of its scalars answers snapshot
    queries at ascending times: null before the first update, and from then on the document of that
    time, each scalar with its latest value and that value's timestamp. *)
Theorem C74_snapshots : forall T file m us h qs,
  transform file = JObj m -> named path_name (JObj m) -> json_encodable (JObj m) = true -> jnull_free (JObj m) = true ->
  (forall u, u ∈ us -> exists l, updates m u l) ->
  Forall (fun q => oracle_ok (fst q)) qs -> StronglySorted Z.le (map snd qs) ->
  exists h' L d0 st ds, create_logument T file us h = (h', Ok L) ∧ plain_json d0 = JObj m ∧ every_stamp (fun z => z = -1) d0 ∧
    snapshot_run qs (h', L) = (st, Ok ds) ∧
    Forall2 (fun q d => ((forall u, u ∈ us -> snd q < tp_ts u) -> d = TNil) ∧
                        ((exists u, u ∈ us ∧ tp_ts u <= snd q) -> state_at m d0 us (snd q) d)) qs ds.
Proof. exact snapshot_log_run. Qed.
Print Assumptions C74_snapshots.
Example C74_case : transform car_file = JObj car_members ∧ named both_name (JObj car_members)
  ∧ json_encodable (JObj car_members) = true ∧ jnull_free (JObj car_members) = true
  ∧ (forall u, u ∈ drive -> 0 <= tp_ts u < 2 ^ 63 ∧ exists l, updates car_members u l)
  ∧ (Forall (fun q => oracle_ok (fst q)) asks ∧ StronglySorted Z.le (map snd asks) ∧ asks <> [])
  ∧ (stands drive ["Vehicle"; "Speed"] (jn 0) 25 (jn 80) 20
     ∧ stands drive ["Vehicle"; "Body"; "Door"] (JStr "shut") 12 (JStr "shut") (-1))
  ∧ ask asks = Ok [TNil; car_then 50 10 "shut" (-1); car_then 80 20 "open" 15].
Proof.
  exact (conj (proj2 car_plain) (conj car_both (conj car_encodable (conj car_full (conj drive_ok (conj asks_ok (conj drive_stands asks_answers))))))).
Qed.
(** C74: the log can be made exactly of the files whose plain structure is an object or array
    without nulls; otherwise createLogumentFromPatches panics.  It starts with version 0 and all
    patches pending. *)
Theorem C74_creates : forall T file us h, json_encodable (transform file) = true ->
  match create_logument T file us h with
  | (_, Ok L) => jcontainer (transform file) ∧ jnull_free (transform file) = true ∧
      l_version L = [0%N] ∧ l_patches L = ∅ ∧ l_pool L = Some (map operation_of us)
  | (_, Err) => False
  | (h', Panic) => h' = h ∧ (jcontainer (transform file) -> jnull_free (transform file) = false)
  end.
Proof. exact creates. Qed.
Print Assumptions C74_creates.
Example C74_creates_case : json_encodable (transform gap_file) = true ∧ json_encodable (transform leaf_file) = true ∧
  snd (create_logument drive_lib gap_file drive []) = Panic ∧ snd (create_logument drive_lib leaf_file drive []) = Panic ∧
  exists L, snd (create_logument drive_lib car_file drive []) = Ok L.
Proof. exact gap_case. Qed.
(** C74: a query that panics stops the run there, with its state; the others before it were answered. *)
Theorem C74_stops : forall orc t qs2 qs1 st st1 ds st2, snapshot_run qs1 st = (st1, Ok ds) ->
  temporal_snapshot orc t st1 = (st2, Panic) -> snapshot_run (qs1 ++ (orc, t) :: qs2) st = (st2, Panic).
Proof. exact run_stops. Qed.
Print Assumptions C74_stops.
Example C74_stops_case : exists h L st1 ds st2, create_logument drive_lib car_file astray [] = (h, Ok L) ∧
  snapshot_run [(fwd, 25); (fwd, 80)] (h, L) = (st1, Ok ds) ∧ length ds = 2%nat ∧ temporal_snapshot fwd 95 st1 = (st2, Panic).
Proof. exact stops_case. Qed.
(** C74: asked for an earlier time after a later one, it still shows later values. *)
Theorem C74_back_refuted : ask [(fwd, 25); (fwd, 12)] = Ok [car_then 80 20 "open" 15; car_then 50 10 "open" 15]
  ∧ stands drive ["Vehicle"; "Body"; "Door"] (JStr "shut") 12 (JStr "shut") (-1).
Proof. exact asks_back. Qed.
Print Assumptions C74_back_refuted.

(** C75: the track of one path holds, version by version, the operations of the window on the path
    that change its value ... *)
Theorem C75_filter : forall s e path h L st m, consistent L -> temporal_track s e (h, L) = (st, Ok m) ->
  forall v, filter_track m path !! v =
    match changes (filter (on_path path s e) (ops_between L 0 v)) (filter (on_path path s e) (patch_at L v)) with
    | [] => None
    | ps => Some ps
    end.
Proof. exact filter_track_spec. Qed.
Print Assumptions C75_filter.
(** ... the event search the times of those that set a number above the threshold. *)
Theorem C75_search : forall ord path s e thr h L st zs, consistent L -> (forall x, Permutation (ord x) x) ->
  find_events ord path s e thr (h, L) = (st, Ok zs) ->
  Permutation zs (map op_ts (filter (over thr) (changes [] (filter (on_path path s e) (all_ops L))))).
Proof. exact find_events_spec. Qed.
Print Assumptions C75_search.
(** C75: the search changes nothing, and panics exactly if the window ends before it begins or values of
    one path in it cannot be compared. *)
Theorem C75_fails : forall ord path s e thr h L, consistent L ->
  fst (find_events ord path s e thr (h, L)) = (h, L) ∧ snd (find_events ord path s e thr (h, L)) <> Err ∧
  (snd (find_events ord path s e thr (h, L)) = Panic <-> e < s ∨ LogSpec.clash (filter (LogSpec.in_range s e) (all_ops L))).
Proof. exact search_fails. Qed.
Print Assumptions C75_fails.
Example C75_fails_case : reachable demo_st ∧ snd (find_events (fun x => x) "a" 11 8 (f64_of_Z 0) demo_st) = Panic.
Proof. exact (conj demo_reachable eq_refl). Qed.
(** C75: in the experiment, after at least one snapshot query: exactly the times of the events in
    ascending order. *)
Theorem C75_run : forall T file m us h qs ord path s e thr,
  transform file = JObj m -> named path_name (JObj m) -> json_encodable (JObj m) = true -> jnull_free (JObj m) = true ->
  (forall u, u ∈ us -> exists l, updates m u l) ->
  Forall (fun q => oracle_ok (fst q)) qs -> StronglySorted Z.le (map snd qs) -> qs <> [] ->
  (forall x, Permutation (ord x) x) -> s <= e -> distinct_times us path ->
  exists h' L st ds zs, create_logument T file us h = (h', Ok L) ∧ snapshot_run qs (h', L) = (st, Ok ds) ∧
    find_events ord path s e thr st = (st, Ok zs) ∧ StronglySorted Z.lt zs ∧
    forall z, z ∈ zs <-> event us path s e thr z.
Proof. exact search_run. Qed.
Print Assumptions C75_run.
Example C75_case : distinct_times drive "Vehicle.Speed" ∧ event drive "Vehicle.Speed" 1 40 (f64_of_Z 40) 20
  ∧ (search asks 1 40 40 = Ok [10; 20] ∧ search [] 1 40 40 = Ok [])
  ∧ track_of "Vehicle.Speed" 12 40 =
    Some [operation_of (TPatch "replace" "Vehicle.Speed" (jn 80) 20); operation_of (TPatch "replace" "Vehicle.Speed" (jn 30) 30)].
Proof. exact (conj drive_distinct (conj drive_event (conj drive_found drive_track))). Qed.
(** C75: before the first snapshot query every track is empty and no event is found. *)
Theorem C75_fresh : forall T file us h h' L ord path s e thr, (forall x, Permutation (ord x) x) -> s <= e ->
  create_logument T file us h = (h', Ok L) ->
  temporal_track s e (h', L) = ((h', L), Ok ∅) ∧ find_events ord path s e thr (h', L) = ((h', L), Ok []).
Proof. exact search_fresh. Qed.
Print Assumptions C75_fresh.

(** C76: the log and the temporal JSON document of an experiment show the same value at every
    scalar below the top level that is not updated twice at one time nor at time 0. *)
Theorem C76_snapshots : forall T srt ord now file m us h qs,
  transform file = JObj m -> named both_name (JObj m) -> json_encodable (JObj m) = true -> jnull_free (JObj m) = true ->
  (forall u, u ∈ us -> 0 <= tp_ts u < 2 ^ 63 ∧ exists l, updates m u l) ->
  Forall (fun q => oracle_ok (fst q)) qs -> StronglySorted Z.le (map snd qs) ->
  sorting tp_ts srt -> (forall x, Permutation (ord x) x) -> 0 <= now < 2 ^ 63 ->
  exists h' L st ds, create_logument T file us h = (h', Ok L) ∧ snapshot_run qs (h', L) = (st, Ok ds) ∧
    Forall2 (fun q d => snd q <= now -> (exists u, u ∈ us ∧ tp_ts u <= snd q) ->
      forall l v, below l (JObj m) = Some v -> scalar v -> (2 <= length l)%nat -> distinct_times us (String.concat "." l) ->
        (forall u, u ∈ us -> tp_path u = String.concat "." l -> 1 <= tp_ts u) ->
        exists x z w, at_path d (keys l) = Some (TLeaf x z) ∧
          below l (JObj (tj_snapshot (from_patches srt ord now (initial_patches file ++ us)) (snd q))) = Some w ∧
          alike w (json_of_prim x)) qs ds.
Proof. exact run_agree. Qed.
Print Assumptions C76_snapshots.
(** C76: if every update of the scalar changes it, both find the same events in the window. *)
Theorem C76_events : forall T srt pord ord tsrt now file m us h qs path l v s e thr,
  transform file = JObj m -> named both_name (JObj m) -> json_encodable (JObj m) = true -> jnull_free (JObj m) = true ->
  (forall u, u ∈ us -> 0 <= tp_ts u < 2 ^ 63 ∧ exists l, updates m u l) ->
  Forall (fun q => oracle_ok (fst q)) qs -> StronglySorted Z.le (map snd qs) -> qs <> [] ->
  sorting tp_ts srt -> (forall x, Permutation (pord x) x) -> by_start tsrt -> (forall x, Permutation (ord x) x) ->
  below l (JObj m) = Some v -> scalar v -> (2 <= length l)%nat -> path = String.concat "." l ->
  distinct_times us path -> changing us l v -> (forall u, u ∈ us -> tp_path u = path -> 1 <= tp_ts u) ->
  1 <= s -> s <= e <= now -> now < 2 ^ 63 ->
  exists h' L st ds zs xs, create_logument T file us h = (h', Ok L) ∧ snapshot_run qs (h', L) = (st, Ok ds) ∧
    find_events ord path s e thr st = (st, Ok zs) ∧
    tj_events tsrt (from_patches srt pord now (initial_patches file ++ us)) path s e (over_threshold thr) = Ok xs ∧
    forall z, z ∈ zs <-> z ∈ xs ∧ s <= z.
Proof. exact events_agree. Qed.
Print Assumptions C76_events.
Example C76_case : (below ["Vehicle"; "Speed"] (JObj (tj_snapshot drive_doc 25)) = Some (jn 80)
     ∧ at_path (car_then 80 20 "open" 15) (keys ["Vehicle"; "Speed"]) = Some (TLeaf (PNum (f64_of_Z 80)) 20))
  ∧ changing drive ["Vehicle"; "Speed"] (jn 0) ∧ (forall u, u ∈ drive -> 1 <= tp_ts u)
  ∧ tj_events tsort drive_doc "Vehicle.Speed" 1 40 (over_threshold (f64_of_Z 40)) = Ok [10; 20].
Proof. exact (conj drive_snapshots (conj drive_changing (conj drive_late drive_doc_found))). Qed.
(** C76: before the first update of anything the log answers null, the document has the initial
    values. *)
Theorem C76_null_refuted : ask [(fwd, 5)] = Ok [TNil]
  ∧ below ["Vehicle"; "Speed"] (JObj (tj_snapshot drive_doc 5)) = Some (jn 0).
Proof. exact drive_null. Qed.
Print Assumptions C76_null_refuted.
(** C76: the document also reports the start of a period begun before the window. *)
Theorem C76_before_refuted :
  tj_events tsort drive_doc "Vehicle.Speed" 15 40 (over_threshold (f64_of_Z 40)) = Ok [10; 20] ∧ search asks 15 40 40 = Ok [20].
Proof. exact drive_before. Qed.
Print Assumptions C76_before_refuted.
(** C76: an update setting the value that is there already is an event for the log if it is the
    first in the window, and none for the document. *)
Theorem C76_idle_refuted : (exists h L st ds, create_logument drive_lib car_file idle [] = (h, Ok L) ∧ snapshot_run asks (h, L) = (st, Ok ds)
    ∧ snd (find_events (fun x => x) "Vehicle.Speed" 15 40 (f64_of_Z 40) st) = Ok [20])
  ∧ tj_events tsort (from_patches psort ord0 1000 (initial_patches car_file ++ idle)) "Vehicle.Speed" 15 40 (over_threshold (f64_of_Z 40)) = Ok [10].
Proof. exact idle_found. Qed.
Print Assumptions C76_idle_refuted.
