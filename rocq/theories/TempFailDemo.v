(** Concrete cases for [TempFail.v]. *)
From Verif Require Import Base BaseSpec BaseSpecLemmas F64 Tson TsonSpec BaseLemmas Serial GoText Heap HeapSpec Own Patch PatchSpec TreePatch PatchLemmas
  PatchDemo Logument LogSpec LogLemmas LogDemo ReplaySpec ReplayLemmas SetLemmas CompactReplay ReplayDemo TempFail.

(** After asking for a version without operations, and with an operation that does not fit. *)
Definition hollow : state := run (pheap, plog) [CStore (PI_patch (Some [])); CAppend; CSnapshot 1].
Definition misfit : state := run (pheap, plog) [CStore (PI_op (Op OReplace "a/b" (n1 4) 10))].
Lemma fails_case : reachable hollow ∧ reachable misfit ∧ oracle_ok fwd ∧
  snd (temporal_snapshot fwd 100 hollow) = Panic ∧ snd (temporal_snapshot fwd 100 misfit) = Panic ∧
  exists r, snd (temporal_snapshot fwd 9 misfit) = Ok r.
Proof.
  split; [apply run_reachable; [apply plog_reachable|repeat constructor]|].
  split; [apply run_reachable; [apply plog_reachable|repeat constructor]|].
  split; [exact fwd_ok|]. split; [vm_compute; reflexivity|]. split; [vm_compute; reflexivity|].
  eexists. vm_compute. reflexivity.
Qed.
