(** Concrete cases for [Prop_Agree.v]. *)
From Verif Require Import Base F64 Tson Heap Patch Logument LogSpec LogDemo RecompactDemo TrackUseDemo RegroupLemmas RegroupDemo AgreeLemmas.
From Coq Require Import Lia.

(** How much an answer holds. *)
Definition counted {A} (r : res A) (f : A -> nat) : option nat := match r with Ok m => Some (f m) | _ => None end.
Lemma agree_case_all : reachable twice_st ∧ (forall p, p ∈ all_ops (snd twice_st) -> 7 <= op_ts p <= 9) ∧
  last (l_version (snd twice_st)) = Some 5%N ∧ length (all_ops (snd twice_st)) = 5%nat ∧
  counted (snd (temporal_track 7 9 twice_st)) (fun m => length (flat (l_version (snd twice_st)) m)) = Some 3%nat ∧
  length (all_ops (snd (fst (compact "" twice_st)))) = 3%nat ∧ length (all_ops (snd (fst (track 0 5 twice_st)))) = 3%nat.
Proof.
  split; [exact twice_reachable|]. split; [exact (proj1 twice_range)|]. do 4 (split; [vm_compute; reflexivity|]). vm_compute. reflexivity.
Qed.
Lemma agree_case_history : (forall vs, or_versions fwd vs = vs) ∧ leads "/" "/a" ∧
  (exists m, snd (temporal_track 7 9 (three_st "/a" "/b")) = Ok m ∧
    filter (fun p => op_path p = "/a") (flat [0; 1; 2; 3]%N m) = [Op OReplace "/a" (num 2) 7]) ∧
  snd (history fwd "/" (three_st "/a" "/b")) =
    Ok [("/a", [Op OAdd "/a" (ATson (TLeaf (PNum (f64_of_Z 1)) 5)) 0; Op OReplace "/a" (num 2) 7]);
        ("/b", [Op OAdd "/b" (ATson (TObj [("c", TLeaf (PStr "x") 6)])) 0; Op OReplace "/b" (num 3) 9])] ∧
  snd (history fwd ("/" +++ "a") (three_st "/a" "/b")) =
    Ok [("/a", [Op OAdd "/a" (ATson (TLeaf (PNum (f64_of_Z 1)) 5)) 0; Op OReplace "/a" (num 2) 7])].
Proof.
  split; [done|]. split.
  { apply (leads_under "/" (Op OAdd "/a" ANil 0)). apply CompactLemmas.on_target_under. vm_compute. reflexivity. }
  split; [eexists; split; vm_compute; reflexivity|]. split; vm_compute; reflexivity.
Qed.
Lemma agree_case_narrow : StronglySorted (fun p q => op_ts p <= op_ts q) (all_ops (snd twice_st)) ∧
  (exists m, snd (temporal_track 7 9 twice_st) = Ok m ∧ m !! 2%N = None ∧ m !! 5%N = Some [Op OReplace "a" (num 3) 9]) ∧
  (exists m, snd (temporal_track 8 9 twice_st) = Ok m ∧ m !! 2%N = Some [Op OReplace "a" (num 2) 8] ∧ m !! 5%N = Some [Op OReplace "a" (num 3) 9]).
Proof.
  split; [exact (proj1 twice_ordered)|]. split; [|exact (proj1 (proj2 twice_ordered))].
  eexists. split; [vm_compute; reflexivity|]. split; vm_compute; reflexivity.
Qed.
(** The operation at 6 restores a value that was changed at 20. *)
Definition back_st : state := run (heap0, log0) (step "a" 1 5 ++ step "a" 2 20 ++ step "a" 1 6).
Lemma agree_narrow_refuted : exists st m m' p, reachable st ∧
  snd (temporal_track 0 30 st) = Ok m ∧ snd (temporal_track 0 10 st) = Ok m' ∧ 0 <= op_ts p <= 10 ∧
  m !! 3%N = Some [p] ∧ m' !! 3%N = None.
Proof.
  exists back_st. do 2 eexists. exists (Op OReplace "a" (num 1) 6).
  split; [apply run_reachable; [apply log0_reachable|]; repeat (constructor; [exact I|]); constructor|].
  split; [vm_compute; reflexivity|]. split; [vm_compute; reflexivity|]. split; [cbn; lia|]. split; vm_compute; reflexivity.
Qed.
