(** Concrete cases for [Prop_SliceUse.v]. *)
From Verif Require Import Base F64 Tson Heap Patch Logument LogSpec LogDemo SliceUseSpec.

Definition use_slice : state * res logument := slice 1 2 demo_st.
Definition use_log : logument := match snd use_slice with Ok R => R | _ => demo_log end.
Definition use_calls : list call := [CSnapshot 2; CTrack 1 2; CSlice 2 2; CSnapshot 1].
Definition on_calls : list call :=
  [CStore (PI_op (Op OReplace "/a" (num 4) 12)); CAppend; CSnapshot 3; CSnapshot 4; CTrack 2 3].
Lemma use_demo : exists h1 L1, use_slice = ((h1, L1), Ok use_log) ∧ is_Some (l_snapshots L1 !! 1%N)
  ∧ last (l_version (snd demo_st)) = Some 2%N ∧ l_pool (snd demo_st) = None
  ∧ Forall (about 1 2) use_calls ∧ Forall (from 1) on_calls.
Proof.
  do 2 eexists. split; [vm_compute; reflexivity|]. split; [vm_compute; by eexists|].
  split; [vm_compute; reflexivity|]. split; [vm_compute; reflexivity|].
  split; repeat (constructor; [repeat split; (vm_compute; discriminate) || exact I|]); constructor.
Qed.
Lemma use_answers : exists v R m, snd (asks use_calls (fst (fst use_slice), use_log)) =
  [AnsDoc (Ok v); AnsPatches (Ok m); AnsLog (Ok R); AnsDoc (Ok v)] ∧ v = root0 ∧ l_version R = [2%N] ∧ is_Some (m !! 2%N).
Proof.
  do 3 eexists. split; [vm_compute; reflexivity|]. split; [vm_compute; reflexivity|].
  split; [vm_compute; reflexivity|]. vm_compute. by eexists.
Qed.
Lemma on_answers : exists m, snd (asks on_calls (fst (fst use_slice), use_log)) =
  [AnsDone (Ok tt); AnsDone (Ok tt); AnsDoc (Ok root0); AnsDoc Panic; AnsPatches (Ok m)] ∧
  m !! 3%N = Some [Op OReplace "/a" (num 4) 12].
Proof. eexists. split; [vm_compute; reflexivity|]. vm_compute. reflexivity. Qed.
(** "y" is a change in the slice, but not in the log. *)
Lemma track_more : exists R m m', snd (slice 2 2 demo_st) = Ok R ∧
  snd (temporal_track 0 20 (heap0, R)) = Ok m ∧ snd (temporal_track 0 20 demo_st) = Ok m' ∧
  m !! 2%N = Some [Op OReplace "/a" (num 3) 10; Op OReplace "/b/c" (AStr "y") 11] ∧
  m' !! 2%N = Some [Op OReplace "/a" (num 3) 10].
Proof.
  do 3 eexists. split; [vm_compute; reflexivity|]. split; [vm_compute; reflexivity|].
  split; [vm_compute; reflexivity|]. split; vm_compute; reflexivity.
Qed.
Lemma history_panics : snd (history fwd "/a" (heap0, use_log)) = Panic ∧ snd (history fwd "/z" (heap0, use_log)) = Ok []
  ∧ exists m, snd (history fwd "/a" demo_st) = Ok m ∧ is_Some (alookup "/a" m).
Proof.
  split; [vm_compute; reflexivity|]. split; [vm_compute; reflexivity|]. eexists. split; [vm_compute; reflexivity|].
  vm_compute. by eexists.
Qed.
