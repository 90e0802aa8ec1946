(** Property C85: the snapshot files of [CreateSnapshot]. *)
From stdpp Require Import pretty.
From Verif Require Import Base BaseSpec F64 Tson TsonSpec TextSpec Bytes Heap Patch PatchSpec Tjson TjsonSpec TjsonDemo Initial InitialSpec InitialDemo Query QuerySpec QueryDemo
  Sensor Sim SimSpec RangeDemo Temporal TemporalSpec TempDemo Snaps SnapsSpec SnapsLemmas SnapsDemo.

(** C85: given a file without nulls and updates of its scalars, the file number [k] is the document
    after the first [k] updates in the order of their list, and no other file is touched. *)
Theorem C85_files : forall file m us h dir,
  transform file = JObj m -> named path_name (JObj m) -> json_encodable (JObj m) = true -> jnull_free (JObj m) = true ->
  (forall u, u ∈ us -> exists l, updates m u l) -> Forall (fun u => json_encodable (tp_value u) = true) us ->
  exists dir' ds d0, create_snapshots file us h dir = (dir', Ok tt) ∧ plain_json d0 = JObj m ∧ every_stamp (fun z => z = -1) d0 ∧
    length ds = S (length us) ∧ (forall i d, ds !! i = Some d -> state_after m d0 (take i us) d) ∧ filed dir' 0 ds ∧ else_same dir dir' 0 (S (length us)).
Proof. exact snapshot_files. Qed.
Print Assumptions C85_files.
Example C85_case : Forall (fun u => json_encodable (tp_value u) = true) drive
  ∧ (last_set drive ["Vehicle"; "Speed"] (jn 0) (jn 30) 30 ∧ last_set (take 3 drive) ["Vehicle"; "Speed"] (jn 0) (jn 80) 20
     ∧ last_set (take 1 drive) ["Vehicle"; "Body"; "Door"] (JStr "shut") (JStr "shut") (-1))
  ∧ (numbered 0 = "snapshot_0.json" ∧ numbered 12 = "snapshot_12.json")
  ∧ create_snapshots car_file drive [] old_files =
  ([("notes.json", WNull); ("snapshot_1.json", json_written (car_then 50 10 "shut" (-1))); ("snapshot_5.json", WStr "old");
    ("snapshot_0.json", json_written (car_then 0 (-1) "shut" (-1))); ("snapshot_2.json", json_written (car_then 50 10 "open" 15));
    ("snapshot_3.json", json_written (car_then 80 20 "open" 15)); ("snapshot_4.json", json_written (car_then 30 30 "open" 15))], Ok tt).
Proof. exact (conj drive_finite (conj drive_last (conj drive_numbered drive_files))). Qed.

(** C85: at the first patch on a scalar that is refused it panics, with the files of the updates before it
    written. *)
Theorem C85_stop : forall file m us u rest l h dir,
  transform file = JObj m -> named path_name (JObj m) -> json_encodable (JObj m) = true -> jnull_free (JObj m) = true ->
  (forall u, u ∈ us -> exists l, updates m u l) -> Forall (fun u => json_encodable (tp_value u) = true) us ->
  tp_path u = String.concat "." l -> (exists v, below l (JObj m) = Some v ∧ scalar v) -> refused u ->
  exists dir' ds d0, create_snapshots file (us ++ u :: rest) h dir = (dir', Panic) ∧ plain_json d0 = JObj m ∧ every_stamp (fun z => z = -1) d0 ∧
    length ds = S (length us) ∧ (forall i d, ds !! i = Some d -> state_after m d0 (take i us) d) ∧ filed dir' 0 ds ∧ else_same dir dir' 0 (S (length us)).
Proof. exact snapshot_stop. Qed.
Print Assumptions C85_stop.
Example C85_stop_case : (refused broken ∧ tp_path broken = String.concat "." ["Vehicle"; "Speed"] ∧ (exists v, below ["Vehicle"; "Speed"] (JObj car_members) = Some v ∧ scalar v))
  ∧ create_snapshots car_file (take 1 drive ++ broken :: drop 1 drive) [] [] =
  ([("snapshot_0.json", json_written (car_then 0 (-1) "shut" (-1))); ("snapshot_1.json", json_written (car_then 50 10 "shut" (-1)))], Panic).
Proof. exact (conj broken_refused broken_files). Qed.

(** C85: the files of an earlier call with more patches stay. *)
Theorem C85_earlier : forall file us h dir n, (length us < n)%nat ->
  alookup (numbered n) (fst (create_snapshots file us h dir)) = alookup (numbered n) dir.
Proof. exact earlier_files. Qed.
Print Assumptions C85_earlier.
Example C85_earlier_case : (length drive < 5)%nat ∧ alookup (numbered 5) old_files = Some (WStr "old").
Proof. split; vm_compute; reflexivity. Qed.

(** C85: on the files of a run, the file number [k] shows exactly the sensors of the run, each as the
    first [k] patches leave it. *)
Theorem C85_run : forall w v sc sec inc m m0 file h dir, simulate w v sc sec inc = Ok m -> start w v sc = Ok m0 -> orders_ok w -> separate v -> 0 < inc ->
  plain_paths v -> writable v m -> decoded (WObj (m_json m0)) file ->
  exists dir' ds, create_snapshots file (map loaded (m_tpatches m)) h dir = (dir', Ok tt) ∧ length ds = S (length (m_tpatches m)) ∧
    (forall i d, ds !! i = Some d -> shows_after v (take i (m_tpatches m)) d) ∧ filed dir' 0 ds ∧ else_same dir dir' 0 (S (length (m_tpatches m))).
Proof. exact run_snapshots. Qed.
Print Assumptions C85_run.
(** C85: the file numbered by the patches up to a time shows what is known of the run at that time. *)
Theorem C85_moment : forall w v sc sec inc m m0 file h dir t, simulate w v sc sec inc = Ok m -> start w v sc = Ok m0 -> orders_ok w -> separate v -> 0 < inc ->
  plain_paths v -> writable v m -> decoded (WObj (m_json m0)) file ->
  exists d, shows_run v m t d ∧
    alookup (numbered (length (filter (fun q => sp_ts q <= t) (m_tpatches m)))) (fst (create_snapshots file (map loaded (m_tpatches m)) h dir)) = Some (json_written d).
Proof. exact run_moment. Qed.
Print Assumptions C85_moment.
Example C85_run_case : orders_ok fair_world ∧ separate cab ∧ plain_paths cab
  ∧ exists m m0, ride = Ok m ∧ start fair_world cab None = Ok m0 ∧ writable cab m ∧ decoded (WObj (m_json m0)) ride_file
    ∧ spans m 0 12500 ∧ later m "Vehicle.Speed" ∧ (exists q, q ∈ m_tpatches m ∧ sp_path q = "Vehicle.CurrentLocation.Latitude" ∧ sp_ts q = 0).
Proof. exact (conj fair_orders (conj cab_separate (conj cab_plain ride_ok))). Qed.
