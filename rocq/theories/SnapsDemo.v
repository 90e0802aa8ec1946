(** The files of the snapshots of a drive, in a directory with files of a longer one. *)
From stdpp Require Import pretty.
From Verif Require Import Base BaseSpec F64 Tson TsonSpec Bytes Patch PatchSpec Tjson TjsonSpec TjsonDemo Initial InitialSpec InitialDemo Query QuerySpec QueryDemo Snaps SnapsSpec.

Definition old_files : list (string * wjson) := [("notes.json", WNull); ("snapshot_1.json", WStr "old"); ("snapshot_5.json", WStr "old")].
Lemma drive_finite : Forall (fun u => json_encodable (tp_value u) = true) drive.
Proof. repeat constructor. Qed.
Lemma drive_files : create_snapshots car_file drive [] old_files =
  ([("notes.json", WNull); ("snapshot_1.json", json_written (car_then 50 10 "shut" (-1))); ("snapshot_5.json", WStr "old");
    ("snapshot_0.json", json_written (car_then 0 (-1) "shut" (-1))); ("snapshot_2.json", json_written (car_then 50 10 "open" 15));
    ("snapshot_3.json", json_written (car_then 80 20 "open" 15)); ("snapshot_4.json", json_written (car_then 30 30 "open" 15))], Ok tt).
Proof. vm_compute. reflexivity. Qed.
Lemma drive_numbered : numbered 0 = "snapshot_0.json" ∧ numbered 12 = "snapshot_12.json".
Proof. split; vm_compute; reflexivity. Qed.
Lemma drive_last : last_set drive ["Vehicle"; "Speed"] (jn 0) (jn 30) 30 ∧ last_set (take 3 drive) ["Vehicle"; "Speed"] (jn 0) (jn 80) 20
  ∧ last_set (take 1 drive) ["Vehicle"; "Body"; "Door"] (JStr "shut") (JStr "shut") (-1).
Proof.
  split; [|split].
  - eapply (ls_last _ _ _ _ (TPatch "replace" "Vehicle.Speed" (jn 30) 30) []); [by instantiate (1 := [_; _; _])|done|by intros ? ?%elem_of_nil].
  - eapply (ls_last _ _ _ _ (TPatch "replace" "Vehicle.Speed" (jn 80) 20) []); [by instantiate (1 := [_; _])|done|by intros ? ?%elem_of_nil].
  - apply ls_none. cbn [take drive]. intros u H%elem_of_list_singleton. by subst u.
Qed.
Definition broken : tpatch := TPatch "replace" "Vehicle.Speed" JNull 17.
Lemma broken_refused : refused broken ∧ tp_path broken = String.concat "." ["Vehicle"; "Speed"] ∧ (exists v, below ["Vehicle"; "Speed"] (JObj car_members) = Some v ∧ scalar v).
Proof. split; [right; split; [by right|by left]|]. split; [done|]. exists (jn 0). split; [done|by apply scalar_by]. Qed.
Lemma broken_files : create_snapshots car_file (take 1 drive ++ broken :: drop 1 drive) [] [] =
  ([("snapshot_0.json", json_written (car_then 0 (-1) "shut" (-1))); ("snapshot_1.json", json_written (car_then 50 10 "shut" (-1)))], Panic).
Proof. vm_compute. reflexivity. Qed.
