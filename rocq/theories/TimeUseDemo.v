(** Concrete cases for [Prop_TimeUse.v]. *)
From Verif Require Import Base F64 Tson Heap Patch Logument LogSpec LogDemo SliceUseSpec TimeUseSpec.
From Coq Require Import Lia.

(** One operation per version, at 7, 8, 9 and 20. *)
Definition one (z ts : Z) : list call := [CStore (PI_op (Op OReplace "a" (num z) ts)); CAppend].
Definition time_st : state := run (heap0, log0) (one 2 7 ++ one 3 8 ++ one 4 9 ++ one 5 20).
Lemma time_reachable : reachable time_st.
Proof. apply run_reachable; [apply log0_reachable|]. repeat (constructor; [exact I|]). constructor. Qed.
Definition log_of (r : state * res logument) : logument := match snd r with Ok R => R | _ => log0 end.
Definition time_cut : state * res logument := temporal_slice fwd 8 9 time_st.
Definition cut_log : logument := log_of time_cut.
Lemma time_versions v : kept 8 9 (snd time_st) v =
  if decide (v = 2%N) then [Op OReplace "a" (num 3) 8]
  else if decide (v = 3%N) then [Op OReplace "a" (num 4) 9] else [].
Proof.
  unfold kept, patch_at.
  assert (E : l_patches (snd time_st) = {[ 4%N := [Op OReplace "a" (num 5) 20]; 3%N := [Op OReplace "a" (num 4) 9];
    2%N := [Op OReplace "a" (num 3) 8]; 1%N := [Op OReplace "a" (num 2) 7] ]}) by (vm_compute; reflexivity).
  rewrite E. destruct (decide (v = 2%N)) as [->|H2]; [vm_compute; reflexivity|].
  destruct (decide (v = 3%N)) as [->|H3]; [vm_compute; reflexivity|].
  destruct (decide (v = 1%N)) as [->|H1]; [vm_compute; reflexivity|].
  destruct (decide (v = 4%N)) as [->|H4]; [vm_compute; reflexivity|].
  rewrite !lookup_insert_ne, lookup_singleton_ne by done. reflexivity.
Qed.
Lemma time_gapless : gapless 8 9 (snd time_st).
Proof.
  split.
  - intros v. rewrite time_versions. repeat case_decide; cbn; lia.
  - intros u v w Hl. rewrite !time_versions. repeat case_decide; try done; intros; lia.
Qed.
Lemma time_last : last_kept 8 9 (snd time_st) 3 ∧ can_grow 8 9 (snd time_st).
Proof.
  assert (H : last_kept 8 9 (snd time_st) 3).
  { split; [by rewrite time_versions|]. intros w Hw. rewrite time_versions. repeat case_decide; try done; lia. }
  split; [exact H|]. exists 3%N. split; [exact H|]. split; [by rewrite time_versions|].
  left. exists 2%N. split; [done|by rewrite time_versions].
Qed.
Lemma time_demo : exists st', time_cut = (st', Ok cut_log) ∧ l_version cut_log = [2; 3]%N ∧
  (exists m, snd (temporal_track 0 8 (fst st', cut_log)) = Ok m ∧ m !! 2%N = Some [Op OReplace "a" (num 3) 8] ∧ m !! 3%N = None) ∧
  l_version (snd (fst (asks [CStore (PI_patch (Some [])); CAppend] (fst st', cut_log)))) = [2; 3; 4]%N.
Proof.
  eexists. split; [vm_compute; reflexivity|]. split; [vm_compute; reflexivity|].
  split; [|vm_compute; reflexivity]. eexists. split; [vm_compute; reflexivity|]. split; vm_compute; reflexivity.
Qed.
(** The slice's version 2 has the value of version 1. *)
Definition a_at (k : N) (st : state) : option prim :=
  match snapshot k st with
  | ((h, _), Ok v) => match read h v with
                      | Some t => match get_value t "/a" with Ok (TLeaf p _) => Some p | _ => None end
                      | None => None
                      end
  | _ => None
  end.
Lemma first_missing : (forall v s lts, l_snapshots (snd time_st) !! v = Some s -> latest_ts_of (fst time_st) s = Ok lts -> ~ (8 <= lts <= 9)) ∧
  a_at 2 time_st = Some (PNum (f64_of_Z 3)) ∧ a_at 2 (fst (fst time_cut), cut_log) = Some (PNum (f64_of_Z 2)).
Proof.
  split; [|split; vm_compute; reflexivity].
  assert (E : l_snapshots (snd time_st) = {[ 0%N := root0 ]}) by (vm_compute; reflexivity).
  intros v s lts. rewrite E. destruct (decide (v = 0%N)) as [->|Hv]; [|by rewrite lookup_singleton_ne].
  rewrite lookup_singleton. intros Es. injection Es as <-.
  assert (EL : latest_ts_of (fst time_st) root0 = Ok 6) by (vm_compute; reflexivity).
  rewrite EL. intros H. injection H as <-. lia.
Qed.
(** A gap: an operation without a value in range between two others. *)
Definition gap_st : state := run (heap0, log0) (one 2 8 ++ one 3 30 ++ one 4 9).
Lemma gap_reachable : reachable gap_st.
Proof. apply run_reachable; [apply log0_reachable|]. repeat (constructor; [exact I|]). constructor. Qed.
Definition gap_log : logument := log_of (temporal_slice fwd 8 9 gap_st).
Lemma gap_demo : (exists st', temporal_slice fwd 8 9 gap_st = (st', Ok gap_log)) ∧ l_version gap_log = [1; 3]%N ∧
  ~ gapless 8 9 (snd gap_st) ∧ ~ can_grow 8 9 (snd gap_st) ∧
  snd (asks [CSnapshot 1; CStore (PI_patch (Some [])); CAppend] (fst gap_st, gap_log)) =
    [AnsDoc Panic; AnsDone (Ok tt); AnsDone Err].
Proof.
  assert (EK : kept 8 9 (snd gap_st) 2 = []) by (vm_compute; reflexivity).
  assert (E1 : kept 8 9 (snd gap_st) 1 <> []) by (vm_compute; discriminate).
  assert (E3 : kept 8 9 (snd gap_st) 3 <> []) by (vm_compute; discriminate).
  split; [eexists; vm_compute; reflexivity|]. split; [vm_compute; reflexivity|]. split; [|split].
  - intros [_ H]. by apply (H 1%N 2%N 3%N).
  - intros (v & [Hv1 Hv2] & _ & HX).
    assert (v = 3%N) as ->.
    { destruct (decide (v < 3)%N) as [Hl|Hl]; [destruct E3; by apply Hv2|].
      destruct (decide (v = 3%N)) as [?|Hne]; [done|]. destruct Hv1. unfold kept.
      assert (E : patch_at (snd gap_st) v = []); [|by rewrite E].
      unfold patch_at.
      assert (E : l_patches (snd gap_st) = {[ 3%N := [Op OReplace "a" (num 4) 9];
        2%N := [Op OReplace "a" (num 3) 30]; 1%N := [Op OReplace "a" (num 2) 8] ]}) by (vm_compute; reflexivity).
      rewrite E, !lookup_insert_ne, lookup_singleton_ne by lia. reflexivity. }
    destruct HX as [(u & Hu & Hk)|HX]; [|by destruct E1; apply HX].
    assert (u = 2%N) as -> by lia. done.
  - vm_compute. reflexivity.
Qed.
Lemma again_demo : exists st2 R2 st3 R3,
  temporal_slice fwd 9 30 (fst (fst time_cut), cut_log) = (st2, Ok R2) ∧
  temporal_slice fwd 9 9 time_st = (st3, Ok R3) ∧ l_version R2 = [3]%N ∧ l_version R3 = [3]%N.
Proof.
  do 4 eexists. split; [vm_compute; reflexivity|]. split; [vm_compute; reflexivity|]. split; vm_compute; reflexivity.
Qed.
(** Writing 3 again is no change. *)
Definition same_st : state := run (heap0, log0) (one 2 7 ++ one 3 8 ++ one 3 9).
Lemma same_demo : exists st' R h' R', temporal_slice fwd 8 9 same_st = (st', Ok R) ∧
  compact "a" (fst st', R) = ((h', R'), Ok tt) ∧
  l_patches R' !! 2%N = Some [Op OReplace "a" (num 3) 8] ∧ l_patches R' !! 3%N = Some [].
Proof.
  do 4 eexists. split; [vm_compute; reflexivity|]. split; [vm_compute; reflexivity|]. split; vm_compute; reflexivity.
Qed.
