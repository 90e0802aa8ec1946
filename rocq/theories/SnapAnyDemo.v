(** Concrete cases for [SnapAny.v]. *)
From Verif Require Import Base BaseSpec BaseSpecLemmas F64 Tson TsonSpec BaseLemmas Serial GoText Heap HeapSpec Own Patch PatchSpec TreePatch PatchLemmas
  PatchDemo Logument LogSpec LogLemmas LogDemo ReplaySpec ReplayLemmas SetLemmas CompactReplay ReplayDemo SnapAnySpec SnapAny.
From Coq Require Import Lia.

(** Version 3 is asked for first, then version 2: the base is still version 0. *)
Definition late : state := run rst [CSnapshot 3].
Lemma late_reachable : reachable late.
Proof. apply run_reachable; [apply rst_reachable|repeat constructor]. Qed.
Lemma late_case : reachable late ∧ l_snapshots (snd late) !! 0%N = Some (VObj ploc) ∧
  (exists t, doc_of (fst late) (VObj ploc) t) ∧ is_Some (l_snapshots (snd late) !! 3%N) ∧ base_of (snd late) 2 0 ∧
  exists st', snapshot 2 late = (st', Ok (VObj ploc)).
Proof.
  split; [exact late_reachable|]. split; [vm_compute; reflexivity|]. split.
  { pose proof (snapshot_any 3 pheap (snd rst) ploc pdoc) as H.
    assert (E : fst rst = pheap) by (vm_compute; reflexivity).
    destruct (snapshot 3 (pheap, snd rst)) as [[h' L'] r] eqn:Es.
    assert (El : late = (h', L')).
    { unfold late, run. cbn [fold_left run_call]. rewrite (surjective_pairing rst), E, Es. done. }
    rewrite El. cbn [fst]. destruct r as [r| |].
    - destruct H as (_ & w & s & _ & _ & [(_ & _ & -> & _)|(_ & _ & _ & _ & t' & H & _)]).
      + rewrite <- E, <- surjective_pairing. exact rst_reachable.
      + vm_compute. reflexivity.
      + exact pdoc_ok'.
      + eexists. exact pdoc_ok'.
      + by exists t'.
    - exfalso. revert Es. vm_compute. done.
    - exfalso. revert Es. vm_compute. done. }
  split; [eexists; vm_compute; reflexivity|]. split.
  - split; [eexists; vm_compute; reflexivity|]. split; [lia|]. intros u [s Hu] Hle.
    assert (Em : l_snapshots (snd late) = {[ 3%N := proot; 0%N := proot ]}) by (vm_compute; reflexivity).
    rewrite Em in Hu. apply lookup_insert_Some in Hu as [[<- _]|[_ Hu]]; [lia|].
    apply lookup_singleton_Some in Hu as [<- _]. lia.
  - eexists. vm_compute. reflexivity.
Qed.

(** Version 1 sets b.c, version 2 replaces b by a number. *)
Definition cut : state := run (pheap, plog)
  [CStore (PI_patch (Some [Op OReplace "b/c" (AStr "y") 9])); CAppend; CStore (PI_patch (Some [Op OReplace "b" (n1 4) 10])); CAppend].
Lemma back_panics : exists st st1 st2, reachable st ∧ 1%N ∈ l_version (snd st) ∧
  snapshot 1 st = (st1, Ok (VObj ploc)) ∧ snapshot 2 st = (st2, Ok (VObj ploc)) ∧ snd (snapshot 1 st2) = Panic.
Proof.
  exists cut. do 2 eexists. split; [apply run_reachable; [apply plog_reachable|repeat constructor]|].
  split.
  { replace (l_version (snd cut)) with [0;1;2]%N by (vm_compute; reflexivity). apply elem_of_list_further, elem_of_list_here. }
  split; [vm_compute; reflexivity|]. split; [vm_compute; reflexivity|]. vm_compute. reflexivity.
Qed.
