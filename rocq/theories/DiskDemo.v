(** A disk with earlier runs. *)
From Verif Require Import Base BaseSpec BaseLemmas F64 GoText Tson TsonSpec Bytes Serial TextSpec Heap Patch Json JsonSpec Tjson TjsonSpec Vss VssSpec Sensor Scenario Sim SimSpec SimInit SimDemo RangeSpec RangeDemo Temporal TemporalSpec TempDir TempDemo Store StoreSpec StoreFiles
  ExactNum StoreDemo RangeDemo Disk DiskSpec.

Definition nine : clock := Clock 2025 6 1 9 30 0.
(** All scenarios are started at noon, with every random number 3/4. *)
Definition at_noon (sc : string) : job := Job noon fair_world (@rev _) (fun _ => 5) (drawing (num 3 4)).
Lemma at_noon_ok sc : job_ok (at_noon sc).
Proof.
  destruct (fair_experiment sc) as (H1 & H2 & H3 & H4 & _). constructor; [exact noon_ok|exact H1|exact H2|exact H4| |exact H3|cbn [at_noon jb_now]; unfold int64; lia].
  cbn [at_noon jb_order]. symmetry. apply Permutation_rev.
Qed.
(** There is a run of the morning, and a directory in the way of a table. *)
Definition old_disk : disk := [("urban_traffic", [("results.csv", EFile); (run_dir nine, EDir [("notes.txt", "x")])]); ("battery_charging", [("timing.csv", EDir [])])].
Lemma old_usable : usable (dir_of old_disk "urban_traffic") noon ∧ usable (dir_of old_disk "highway_cruising") noon
  ∧ forall s n, (s, true) ∈ entries_of (dir_of old_disk "urban_traffic") -> is_run s n -> n <= clock_number noon.
Proof.
  split; [|split].
  - split; [|by apply (bool_decide_unpack _); vm_compute].
    intros t Ht. unfold tables in Ht. apply elem_of_cons in Ht as [->|Ht]; [by apply (bool_decide_unpack _); vm_compute|].
    apply elem_of_cons in Ht as [->|Ht]; [by apply (bool_decide_unpack _); vm_compute|]. apply elem_of_list_singleton in Ht as ->. by apply (bool_decide_unpack _); vm_compute.
  - split; [|by apply (bool_decide_unpack _); vm_compute].
    intros t _. apply not_elem_of_nil.
  - intros s n [[= ]|[[= ->]|[]%elem_of_nil]%elem_of_cons]%elem_of_cons Hn. apply run_number in Hn. rewrite <- Hn. vm_compute. discriminate.
Qed.
(** There is a run of the next day. *)
Definition odd_disk : disk := [("urban_traffic", [("20250602_080000", EDir [])])].
Lemma odd_later : ("20250602_080000", true) ∈ entries_of (dir_of odd_disk "urban_traffic") ∧ is_run "20250602_080000" 20250602080000 ∧ clock_number noon < 20250602080000.
Proof. split; [left|]. split; [split; [lia|vm_compute; reflexivity]|vm_compute; reflexivity]. Qed.
