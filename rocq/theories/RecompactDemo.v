(** Concrete cases for [Prop_Recompact.v]. *)
From Verif Require Import Base F64 Tson Heap Patch Logument LogSpec LogDemo.
From Coq Require Import Lia.

(** A version with one operation. *)
Definition step (k : string) (z ts : Z) : list call := [CStore (PI_op (Op OReplace k (num z) ts)); CAppend].
(** Two members, each written twice with the same value. *)
Definition twice_st : state := run (heap0, log0) (step "a" 2 7 ++ step "a" 2 8 ++ step "b" 2 8 ++ step "b" 2 9 ++ step "a" 3 9).
Lemma twice_reachable : reachable twice_st.
Proof. apply run_reachable; [apply log0_reachable|]. repeat (constructor; [exact I|]). constructor. Qed.
Definition after (t : string) (st : state) : state := fst (compact t st).
Lemma done_after t st : match snd (compact t st) with Ok _ => true | _ => false end = true -> compact t st = (after t st, Ok tt).
Proof. unfold after. destruct (compact t st) as [x [[]| |]]; done. Qed.
Lemma twice_compact : compact "a" twice_st = (after "a" twice_st, Ok tt) ∧
  compact "b" (after "a" twice_st) = (after "b" (after "a" twice_st), Ok tt) ∧
  let L2 := snd (after "b" (after "a" twice_st)) in
  l_patches (snd (after "a" twice_st)) !! 2%N = Some [] ∧
  l_patches (snd (after "a" twice_st)) !! 4%N = Some [Op OReplace "b" (num 2) 9] ∧
  l_patches L2 !! 2%N = Some [] ∧ l_patches L2 !! 4%N = Some [] ∧ l_patches L2 !! 5%N = Some [Op OReplace "a" (num 3) 9].
Proof.
  split; [apply done_after; vm_compute; reflexivity|]. split; [apply done_after; vm_compute; reflexivity|].
  cbv zeta. do 4 (split; [vm_compute; reflexivity|]). vm_compute. reflexivity.
Qed.
(** An empty target covers every path. *)
Lemma twice_nested : compact "" twice_st = (after "" twice_st, Ok tt) ∧
  after "a" twice_st <> twice_st ∧ after "a" twice_st <> after "" twice_st.
Proof.
  split; [apply done_after; vm_compute; reflexivity|].
  split; intros H; apply (f_equal (fun st : state => l_patches (snd st) !! 2%N)) in H as H2;
    apply (f_equal (fun st : state => l_patches (snd st) !! 4%N)) in H as H4; vm_compute in H2, H4; congruence.
Qed.
Lemma twice_track : last (l_version (snd twice_st)) = Some 5%N ∧
  (exists m, snd (track 0 5 twice_st) = Ok m ∧ m !! 2%N = Some [Op OReplace "a" (num 2) 8]) ∧
  l_patches (snd (fst (track 0 5 twice_st))) !! 2%N = Some [].
Proof.
  split; [vm_compute; reflexivity|]. split; [|vm_compute; reflexivity].
  eexists. split; [vm_compute; reflexivity|]. vm_compute. reflexivity.
Qed.
Definition slash_st : state := run (heap0, log0) (step "/a" 2 7 ++ step "/a" 2 8 ++ step "/a" 3 9).
Lemma twice_history : reachable slash_st ∧ compact "/" slash_st = (after "/" slash_st, Ok tt) ∧
  snd (history fwd "/a" (after "/" slash_st)) =
    Ok [("/a", [Op OAdd "/a" (ATson (TLeaf (PNum (f64_of_Z 1)) 5)) 0; Op OReplace "/a" (num 2) 7; Op OReplace "/a" (num 3) 9])].
Proof.
  split; [apply run_reachable; [apply log0_reachable|]; repeat (constructor; [exact I|]); constructor|].
  split; [apply done_after; vm_compute; reflexivity|]. vm_compute. reflexivity.
Qed.
Lemma twice_ops : all_ops (snd twice_st) = [Op OReplace "a" (num 2) 7; Op OReplace "a" (num 2) 8; Op OReplace "b" (num 2) 8;
  Op OReplace "b" (num 2) 9; Op OReplace "a" (num 3) 9].
Proof. vm_compute. reflexivity. Qed.
Lemma twice_range : (forall p, p ∈ all_ops (snd twice_st) -> 7 <= op_ts p <= 9) ∧
  exists m, snd (temporal_track 7 9 (after "a" twice_st)) = Ok m ∧ m !! 1%N = Some [Op OReplace "a" (num 2) 7] ∧ m !! 2%N = None ∧
    m !! 5%N = Some [Op OReplace "a" (num 3) 9].
Proof.
  split.
  - rewrite twice_ops. intros p H. repeat (apply elem_of_cons in H as [->|H]; [cbn; lia|]). by apply elem_of_nil in H.
  - eexists. split; [vm_compute; reflexivity|]. split; [vm_compute; reflexivity|]. split; vm_compute; reflexivity.
Qed.
(** In the range 8 to 9 the repetition in version 2 is reported before, and not after. *)
Lemma twice_ordered : StronglySorted (fun p q => op_ts p <= op_ts q) (all_ops (snd twice_st)) ∧
  (exists m, snd (temporal_track 8 9 twice_st) = Ok m ∧ m !! 2%N = Some [Op OReplace "a" (num 2) 8] ∧ m !! 5%N = Some [Op OReplace "a" (num 3) 9]) ∧
  (exists m, snd (temporal_track 8 9 (after "" twice_st)) = Ok m ∧ m !! 2%N = None ∧ m !! 5%N = Some [Op OReplace "a" (num 3) 9]).
Proof.
  split.
  - rewrite twice_ops. repeat (constructor; [|repeat (constructor; [cbn; lia|]); constructor]). constructor.
  - split; (eexists; split; [vm_compute; reflexivity|]; split; vm_compute; reflexivity).
Qed.
(** Times that go back. *)
Definition back_st : state := run (heap0, log0) (step "a" 1 5 ++ step "a" 2 9 ++ step "a" 2 5 ++ step "a" 3 9 ++ step "a" 2 6).
Lemma back_reachable : reachable back_st.
Proof. apply run_reachable; [apply log0_reachable|]. repeat (constructor; [exact I|]). constructor. Qed.
Lemma recompact_refuted : exists st st1 m m' v p, reachable st ∧ compact "" st = (st1, Ok tt) ∧
  snd (temporal_track 5 6 st) = Ok m ∧ snd (temporal_track 5 6 st1) = Ok m' ∧
  p ∈ default [] (m' !! v) ∧ default [] (m !! v) = [].
Proof.
  exists back_st, (after "" back_st). do 2 eexists. exists 5%N, (Op OReplace "a" (num 2) 6). split; [exact back_reachable|].
  split; [apply done_after; vm_compute; reflexivity|]. split; [vm_compute; reflexivity|]. split; [vm_compute; reflexivity|].
  split; [|vm_compute; reflexivity].
  match goal with |- _ ∈ ?x => assert (EX : x = [Op OReplace "a" (num 2) 6]) by (vm_compute; reflexivity) end.
  rewrite EX. left.
Qed.
