(** Concrete cases for [QueryCreate.v]. *)
From Verif Require Import Base F64 Tson TsonSpec Heap Patch Serial Logument Json Tjson TjsonDemo Initial InitialDemo Query LogDemo QueryDemo.

(** A file with a null, and one that reads as a single leaf. *)
Definition gap_file : json := JObj [("a", JObj [("b", JNull)]); ("c", jn 1)].
Definition leaf_file : json := JObj [("timestamp", jn 5); ("value", jn 1)].
Lemma gap_case : json_encodable (transform gap_file) = true ∧ json_encodable (transform leaf_file) = true ∧
  snd (create_logument drive_lib gap_file drive []) = Panic ∧ snd (create_logument drive_lib leaf_file drive []) = Panic ∧
  exists L, snd (create_logument drive_lib car_file drive []) = Ok L.
Proof.
  split; [vm_compute; reflexivity|]. split; [vm_compute; reflexivity|]. split; [vm_compute; reflexivity|].
  split; [vm_compute; reflexivity|]. eexists. vm_compute. reflexivity.
Qed.

(** An update below a scalar: the queries before its time are answered, the next one stops the run. *)
Definition astray : list tpatch := drive ++ [TPatch "replace" "Vehicle.Speed.Unit" (jn 1) 90].
Lemma stops_case : exists h L st1 ds st2, create_logument drive_lib car_file astray [] = (h, Ok L) ∧
  snapshot_run [(fwd, 25); (fwd, 80)] (h, L) = (st1, Ok ds) ∧ length ds = 2%nat ∧ temporal_snapshot fwd 95 st1 = (st2, Panic).
Proof.
  do 5 eexists. split; [vm_compute; reflexivity|]. split; [vm_compute; reflexivity|]. split; vm_compute; reflexivity.
Qed.
