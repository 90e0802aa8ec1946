(** Concrete cases for [Prop_Regroup.v]. *)
From Verif Require Import Base F64 Tson Heap Patch Logument LogSpec BaseLemmas LogLemmas LogDemo RecompactDemo TrackUseDemo RegroupLemmas.
From Coq Require Import Lia.

Definition put_in (k : string) (z ts : Z) : call := CStore (PI_op (Op OReplace k (num z) ts)).
(** The same three operations in three versions, and in two. *)
Definition three (k k' : string) : list call := [put_in k 2 7; CAppend; put_in k 2 8; CAppend; put_in k' 3 9].
Definition two (k k' : string) : list call := [put_in k 2 7; put_in k 2 8; CAppend; put_in k' 3 9].
Definition three_st (k k' : string) : state := run (heap0, log0) (three k k' ++ [CAppend]).
Definition two_st (k k' : string) : state := run (heap0, log0) (two k k' ++ [CAppend]).
Lemma three_reachable k k' : reachable (three_st k k').
Proof. apply run_reachable; [apply log0_reachable|]. repeat (constructor; [exact I|]). constructor. Qed.
Lemma two_reachable k k' : reachable (two_st k k').
Proof. apply run_reachable; [apply log0_reachable|]. repeat (constructor; [exact I|]). constructor. Qed.
Lemma both_recording k k' : Forall recording (three k k') ∧ Forall recording (two k k') ∧ stored (three k k') = stored (two k k') ∧
  length (stored (two k k')) = 3%nat.
Proof. split; [repeat (constructor; [exact I|]); constructor|]. split; [repeat (constructor; [exact I|]); constructor|]. done. Qed.
Lemma three_start k k' : fst (three_st k k') = heap0 ∧ l_snapshots (snd (three_st k k')) = l_snapshots log0 ∧
  all_ops (snd (three_st k k')) = stored (three k k') ∧ l_version (snd (three_st k k')) = [0; 1; 2; 3]%N.
Proof.
  destruct (recorded_all (three k k') heap0 log0 log0_reachable (proj1 (both_recording k k'))) as (A & B & _ & _ & D).
  split; [exact A|]. split; [exact B|]. split; [exact D|]. done.
Qed.
Lemma two_start k k' : fst (two_st k k') = heap0 ∧ l_snapshots (snd (two_st k k')) = l_snapshots log0 ∧
  all_ops (snd (two_st k k')) = stored (three k k') ∧ l_version (snd (two_st k k')) = [0; 1; 2]%N.
Proof.
  destruct (recorded_all (two k k') heap0 log0 log0_reachable (proj1 (proj2 (both_recording k k')))) as (A & B & _ & _ & D).
  split; [exact A|]. split; [exact B|]. split; [exact D|]. done.
Qed.
Lemma regroup_case : reachable (three_st "a" "b") ∧ reachable (two_st "a" "b") ∧
  all_ops (snd (three_st "a" "b")) = all_ops (snd (two_st "a" "b")) ∧
  sizes (three_st "a" "b") = [1; 1; 1; 0; 0]%nat ∧ sizes (two_st "a" "b") = [2; 1; 0; 0; 0]%nat.
Proof.
  split; [apply three_reachable|]. split; [apply two_reachable|].
  split; [by rewrite (proj1 (proj2 (proj2 (three_start "a" "b")))), (proj1 (proj2 (proj2 (two_start "a" "b"))))|].
  split; vm_compute; reflexivity.
Qed.
Lemma regroup_compacted : finished (compact "a" (three_st "a" "b")) = true ∧
  sizes (fst (compact "a" (three_st "a" "b"))) = [1; 0; 1; 0; 0]%nat ∧
  sizes (fst (compact "a" (two_st "a" "b"))) = [1; 1; 0; 0; 0]%nat.
Proof. split; [vm_compute; reflexivity|]. split; vm_compute; reflexivity. Qed.
Lemma regroup_tracked : finished (track 0 3 (three_st "a" "b")) = true ∧ finished (track 0 2 (two_st "a" "b")) = true ∧
  sizes (tracked_st 0 3 (three_st "a" "b")) = [1; 0; 1; 0; 0]%nat ∧ sizes (tracked_st 0 2 (two_st "a" "b")) = [1; 1; 0; 0; 0]%nat.
Proof. do 2 (split; [vm_compute; reflexivity|]). split; vm_compute; reflexivity. Qed.
Lemma regroup_ranged : exists m m', snd (temporal_track 8 9 (three_st "a" "b")) = Ok m ∧ snd (temporal_track 8 9 (two_st "a" "b")) = Ok m' ∧
  m !! 2%N = Some [Op OReplace "a" (num 2) 8] ∧ m' !! 1%N = Some [Op OReplace "a" (num 2) 8] ∧
  m !! 3%N = Some [Op OReplace "b" (num 3) 9] ∧ m' !! 2%N = Some [Op OReplace "b" (num 3) 9].
Proof.
  do 2 eexists. split; [vm_compute; reflexivity|]. split; [vm_compute; reflexivity|].
  do 3 (split; [vm_compute; reflexivity|]). vm_compute; reflexivity.
Qed.
Lemma regroup_story : (forall vs, or_versions fwd vs = vs) ∧
  snd (history fwd "/a" (two_st "/a" "/b")) =
    Ok [("/a", [Op OAdd "/a" (ATson (TLeaf (PNum (f64_of_Z 1)) 5)) 0; Op OReplace "/a" (num 2) 7])].
Proof. split; [done|]. vm_compute. reflexivity. Qed.
Lemma first_only v : is_Some (l_snapshots log0 !! v) -> v = 0%N.
Proof. cbn [l_snapshots log0]. intros [x H]. apply lookup_singleton_Some in H. by destruct H. Qed.
Lemma regroup_shown : (forall v, is_Some (l_snapshots (snd (three_st "a" "b")) !! v) -> v = 0%N) ∧
  (forall v, is_Some (l_snapshots (snd (two_st "a" "b")) !! v) -> v = 0%N) ∧
  fst (three_st "a" "b") = fst (two_st "a" "b") ∧
  let r := snapshot 2 (two_st "a" "b") in
  match snd r with Ok v => read (fst (fst r)) v | _ => None end =
    Some (TObj [("a", TLeaf (PNum (f64_of_Z 2)) 8); ("b", TLeaf (PNum (f64_of_Z 3)) 9)]).
Proof.
  destruct (three_start "a" "b") as (A1 & A2 & _), (two_start "a" "b") as (B1 & B2 & _).
  split; [rewrite A2; apply first_only|]. split; [rewrite B2; apply first_only|]. split; [congruence|].
  vm_compute. reflexivity.
Qed.
(** TemporalSnapshot applies one version only. *)
Lemma regroup_temporal_refuted : exists h L L' hA LA r hB LB q, reachable (h, L) ∧ reachable (h, L') ∧ all_ops L = all_ops L' ∧
  l_snapshots L = l_snapshots L' ∧ l_pool L = None ∧ l_pool L' = None ∧
  temporal_snapshot fwd 100 (h, L) = ((hA, LA), Ok r) ∧ temporal_snapshot fwd 100 (h, L') = ((hB, LB), Ok q) ∧
  read hA r = Some (TObj [("a", TLeaf (PNum (f64_of_Z 2)) 7); ("b", TObj [("c", TLeaf (PStr "x") 6)])]) ∧
  read hB q = Some (TObj [("a", TLeaf (PNum (f64_of_Z 2)) 8); ("b", TObj [("c", TLeaf (PStr "x") 6)])]).
Proof.
  destruct (three_start "a" "b") as (A1 & A2 & A3 & _), (two_start "a" "b") as (B1 & B2 & B3 & _).
  exists heap0, (snd (three_st "a" "b")), (snd (two_st "a" "b")). do 6 eexists.
  split; [apply (three_reachable "a" "b")|]. split; [apply (two_reachable "a" "b")|].
  split; [congruence|]. split; [congruence|]. do 2 (split; [done|]).
  split; [vm_compute; reflexivity|]. split; [vm_compute; reflexivity|]. split; vm_compute; reflexivity.
Qed.
