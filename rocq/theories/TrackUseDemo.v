(** Concrete cases for [Prop_TrackUse.v]. *)
From Verif Require Import Base F64 Tson Heap Patch Logument LogSpec PatchSpec ReplaySpec LogDemo PatchDemo ReplayDemo RecompactDemo.
From Coq Require Import Lia.

(** The same value four times, then another. *)
Definition four_st : state := run (heap0, log0) (step "a" 2 7 ++ step "a" 2 8 ++ step "a" 2 9 ++ step "a" 2 10 ++ step "a" 3 11).
Lemma four_reachable : reachable four_st.
Proof. apply run_reachable; [apply log0_reachable|]. repeat (constructor; [exact I|]). constructor. Qed.
Definition tracked_st (vi vj : N) (st : state) : state := fst (track vi vj st).
Definition finished {A} (r : state * res A) : bool := match snd r with Ok _ => true | _ => false end.
Lemma finished_ok vi vj st : finished (track vi vj st) = true -> exists m, track vi vj st = (tracked_st vi vj st, Ok m).
Proof. unfold tracked_st, finished. destruct (track vi vj st) as [x [m| |]]; [|done|done]. by exists m. Qed.
Definition sizes (st : state) : list nat := map (fun v => length (patch_at (snd st) v)) [1; 2; 3; 4; 5]%N.
Lemma four_inner : sizes four_st = [1; 1; 1; 1; 1]%nat ∧
  finished (track 2 4 four_st) = true ∧ sizes (tracked_st 2 4 four_st) = [1; 1; 0; 0; 1]%nat ∧
  finished (track 3 4 four_st) = true ∧ sizes (tracked_st 3 4 four_st) = [1; 1; 1; 0; 1]%nat ∧
  sizes (tracked_st 2 4 (tracked_st 3 4 four_st)) = [1; 1; 0; 0; 1]%nat.
Proof. do 5 (split; [vm_compute; reflexivity|]). vm_compute. reflexivity. Qed.
Lemma four_apart : finished (track 1 2 four_st) = true ∧ finished (track 3 5 (tracked_st 1 2 four_st)) = true ∧
  sizes (tracked_st 3 5 (tracked_st 1 2 four_st)) = [1; 0; 1; 0; 1]%nat.
Proof. do 2 (split; [vm_compute; reflexivity|]). vm_compute. reflexivity. Qed.
Lemma four_compact : finished (track 2 4 four_st) = true ∧ finished (compact "a" (tracked_st 2 4 four_st)) = true ∧
  sizes (fst (compact "a" (tracked_st 2 4 four_st))) = [1; 0; 0; 0; 1]%nat.
Proof. do 2 (split; [vm_compute; reflexivity|]). vm_compute. reflexivity. Qed.
Lemma four_range : (forall p, p ∈ all_ops (snd four_st) -> 7 <= op_ts p <= 11) ∧
  exists m, snd (temporal_track 7 11 (tracked_st 2 4 four_st)) = Ok m ∧ m !! 1%N = Some [Op OReplace "a" (num 2) 7] ∧ m !! 2%N = None.
Proof.
  split.
  - assert (E : all_ops (snd four_st) = [Op OReplace "a" (num 2) 7; Op OReplace "a" (num 2) 8; Op OReplace "a" (num 2) 9;
      Op OReplace "a" (num 2) 10; Op OReplace "a" (num 3) 11]) by (vm_compute; reflexivity).
    rewrite E. intros p H. repeat (apply elem_of_cons in H as [->|H]; [cbn; lia|]). by apply elem_of_nil in H.
  - eexists. split; [vm_compute; reflexivity|]. split; vm_compute; reflexivity.
Qed.
Lemma slash_history : finished (track 2 3 slash_st) = true ∧
  snd (history fwd "/a" (tracked_st 2 3 slash_st)) =
    Ok [("/a", [Op OAdd "/a" (ATson (TLeaf (PNum (f64_of_Z 1)) 5)) 0; Op OReplace "/a" (num 2) 7; Op OReplace "/a" (num 3) 9])].
Proof. split; [vm_compute; reflexivity|]. vm_compute. reflexivity. Qed.
Lemma one_not_empty (l : list operation) : length l = 1%nat -> l <> [].
Proof. by destruct l. Qed.
Lemma overlap_refuted : exists st stA stAB stB stBA mA mAB mB mBA, reachable st ∧
  track 1 2 st = (stA, Ok mA) ∧ track 2 3 stA = (stAB, Ok mAB) ∧
  track 2 3 st = (stB, Ok mB) ∧ track 1 2 stB = (stBA, Ok mBA) ∧
  patch_at (snd stAB) 3 <> [] ∧ patch_at (snd stBA) 3 = [].
Proof.
  destruct (finished_ok 1 2 four_st) as [mA EA]; [vm_compute; reflexivity|].
  destruct (finished_ok 2 3 (tracked_st 1 2 four_st)) as [mAB EAB]; [vm_compute; reflexivity|].
  destruct (finished_ok 2 3 four_st) as [mB EB]; [vm_compute; reflexivity|].
  destruct (finished_ok 1 2 (tracked_st 2 3 four_st)) as [mBA EBA]; [vm_compute; reflexivity|].
  exists four_st. do 4 eexists. exists mA, mAB, mB, mBA. split; [exact four_reachable|].
  split; [exact EA|]. split; [exact EAB|]. split; [exact EB|]. split; [exact EBA|].
  split; [|vm_compute; reflexivity].
  apply one_not_empty. vm_compute. reflexivity.
Qed.
Lemma replay_track : reachable rst ∧ (exists m, pdoc = TObj m) ∧ independent pdoc (all_ops (snd rst)) ∧
  last (l_version (snd rst)) = Some 3%N ∧
  length (all_ops (snd (tracked_st 1 3 rst))) = 3%nat ∧ length (all_ops (snd rst)) = 4%nat.
Proof.
  split; [exact rst_reachable|]. split; [by eexists|]. split; [exact independent_case|]. split; [vm_compute; reflexivity|].
  split; vm_compute; reflexivity.
Qed.
