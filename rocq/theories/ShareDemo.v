(** Cases for several logs over shared operation arrays. *)
From Verif Require Import Base F64 Tson Heap Patch Logument LogSpec LogDemo Alias AliasSpec AliasLemmas Share ShareSpec ShareLemmas ShareRun.
From Coq Require Import Lia.

Definition late : operation := Op OReplace "a" (AStr "late") 5.
Definition early : operation := Op OReplace "a" (AStr "early") 3.
Definition made : slice := Sl 0 0 2 2.
(** A log whose first version was stored with the later operation first. *)
Definition setup : list kcall := [KNew; KMake [late; early] 0; KStore 0 0 (Some made); KAppend 0].
Definition world : shares := krun ([], []) setup.
Definition one_log : list alog := [ALog [0; 1]%N {[1%N := made]} None].
Lemma world_eq : world = ([[late; early]], one_log).
Proof. vm_compute. reflexivity. Qed.
Lemma setup_ok : kalong ([], []) setup.
Proof.
  split; [done|]. split; [done|]. split; [done|]. split; [done|]. split; [vm_compute; lia|]. split; [|done].
  left. intros (k & L & E & H). change (snd _) with [ALog [0%N] ∅ None] in E.
  apply list_lookup_singleton_Some in E as [_ <-]. destruct H as [(p & Ep & _)|(v & s & Es & _)]; [done|by apply no_patches in Es].
Qed.
Lemma world_reached : reached world.
Proof. exists setup. split; [exact setup_ok|done]. Qed.
(** The slice of versions 0 to 1, then a temporal query on it. *)
Definition sliced : shares := kstep world (KSlice 0 0 1).
Definition asked : shares := kstep sliced (KTemporal 1 fwd 0).
Lemma sliced_eq : sliced = ([[late; early]], one_log ++ [ALog [1]%N {[1%N := made]} None]).
Proof. vm_compute. reflexivity. Qed.
Lemma asked_eq : asked = ([[early; late]], one_log ++ [ALog [1]%N {[1%N := made]} None]).
Proof. vm_compute. reflexivity. Qed.

(** The documents of both logs. *)
Definition old_tree : tson := TObj [("a", TLeaf (PStr "old") 0)].
Definition old_heap : heap := fst (alloc_tree [] old_tree).
Definition old_root : val := snd (alloc_tree [] old_tree).
Definition docs : gmap N val := {[ 0%N := old_root ]}.
Definition whole (ps : list operation) : logument := Lgm [0; 1]%N old_root docs {[ 1%N := ps ]} None.
Definition part : logument := Lgm [1]%N VNil (keys_in 0 1 docs) (keys_in 0 1 {[ 1%N := [late; early] ]}) None.
(** The document [Snapshot] returns, as a tree. *)
Definition snapshot_tree (v : N) (st : state) : option tson :=
  match snapshot v st with ((h, _), Ok t) => read h t | _ => None end.

Lemma shows_intro M Ls k L V : Ls !! k = Some L -> V = view M L (l_current V) (l_snapshots V) -> shows (M, Ls) k V.
Proof. intros E EV. apply shows_view. by exists L. Qed.
Lemma whole_shown M Ls k ps : Ls !! k = Some (ALog [0; 1]%N {[1%N := made]} None) -> contents M made = ps -> shows (M, Ls) k (whole ps).
Proof.
  intros E <-. eapply shows_intro; [exact E|]. unfold whole, view. cbn [al_version al_patches al_pool l_current l_snapshots].
  by rewrite map_fmap_singleton.
Qed.
Lemma part_shown : shows sliced 1 part.
Proof.
  rewrite sliced_eq. eapply shows_intro; [done|]. unfold part, view. cbn [al_version al_patches al_pool l_current l_snapshots].
  f_equal. unfold keys_in. rewrite map_filter_singleton_True by (cbn; lia). by rewrite map_fmap_singleton.
Qed.
Lemma query_changes : exists w h V V2 W orc tsk,
  reached w ∧ oracle_ok orc ∧ shows w 0 V ∧
  Logument.slice 0 1 (h, V) = ((h, V), Ok W) ∧ pick_snapshot h W tsk (sorted_keys (l_snapshots W)) 1 = Ok 0%N ∧
  let w1 := kstep w (KSlice 0 0 1) in let w2 := kstep w1 (KTemporal 1 orc 0) in
  shows w1 0 V ∧ shows w1 1 W ∧ shows w2 0 V2 ∧ l_snapshots V2 = l_snapshots V ∧ l_current V2 = l_current V ∧
  snapshot_tree 1 (h, V) = Some (TObj [("a", TLeaf (PStr "early") 3)]) ∧
  snapshot_tree 1 (h, V2) = Some (TObj [("a", TLeaf (PStr "late") 5)]).
Proof.
  exists world, old_heap, (whole [late; early]), (whole [early; late]), part, fwd, 10.
  split; [exact world_reached|]. split; [exact fwd_ok|].
  split; [rewrite world_eq; by apply whole_shown|].
  split; [vm_compute; reflexivity|]. split; [vm_compute; reflexivity|].
  change (kstep world (KSlice 0 0 1)) with sliced. cbn zeta. change (kstep sliced (KTemporal 1 fwd 0)) with asked.
  split; [rewrite sliced_eq; by apply whole_shown|]. split; [exact part_shown|].
  split; [rewrite asked_eq; by apply whole_shown|].
  split; [done|]. split; [done|]. split; vm_compute; reflexivity.
Qed.
(** More calls after the slice: the log goes on, the slice is asked and extended. *)
Definition later_calls : list kcall := [KTemporal 1 fwd 0; KBuilt 0 0 3 (PI_op late); KAppend 0; KBuilt 1 0 0 (PI_op early); KAppend 1; KSnapshot 1].
Lemma later_ok : kalong sliced later_calls.
Proof. split; [exact fwd_ok|]. by repeat split. Qed.
Lemma sharing_shown : reached world ∧ length (snd sliced) <> length (snd world) ∧ kalong sliced later_calls ∧
  Forall (fun c => ~ replaces 0 c ∧ ~ replaces (length (snd world)) c) later_calls ∧ is_Some (ops_at world 0 1) ∧
  ops_at (krun sliced later_calls) 0 1 = Some [early; late] ∧ ops_at (krun sliced later_calls) 0 2 = Some [late] ∧
  ops_at (krun sliced later_calls) 1 2 = Some [early].
Proof.
  split; [exact world_reached|]. split; [rewrite sliced_eq, world_eq; done|]. split; [exact later_ok|].
  split; [rewrite world_eq; repeat constructor; by intros []|]. split; [rewrite world_eq; by eexists|].
  split; [vm_compute; reflexivity|]. split; vm_compute; reflexivity.
Qed.
(** Calls on the slice only: compacted and asked, the log keeps its operations up to their order. *)
Definition slice_calls : list kcall := [KTemporal 1 fwd 0; KCompact 1 ""; KTrack 1 1 1; KTSlice 1 4 0 4; KSlice 1 1 1].
Lemma slice_calls_shown : kalong sliced slice_calls ∧ Forall (fun c => about c <> Some 0%nat) slice_calls ∧
  versions sliced 0 = Some [0; 1]%N ∧ ops_at sliced 0 1 = Some [late; early] ∧ ops_at (krun sliced slice_calls) 0 1 = Some [early; late] ∧
  ops_at (krun sliced slice_calls) 2 1 = Some [early] ∧ ops_at (krun sliced slice_calls) 3 1 = Some [early; late] ∧
  in_order [early; late].
Proof.
  split; [split; [exact fwd_ok|]; by repeat split|]. split; [by repeat constructor|].
  split; [vm_compute; reflexivity|]. split; [vm_compute; reflexivity|]. split; [vm_compute; reflexivity|].
  split; [vm_compute; reflexivity|]. split; [vm_compute; reflexivity|]. repeat constructor.
Qed.
(** The log a call is made on. *)
Lemma own_shown : reached sliced ∧ shows sliced 1 part ∧
  kvalue (fst sliced) (KTemporal 1 fwd 0) (old_heap, part) (fst (temporal_snapshot fwd 10 (old_heap, part))) ∧
  l_patches (snd (fst (temporal_snapshot fwd 10 (old_heap, part)))) !! 1%N = Some [early; late].
Proof.
  split.
  { exists (setup ++ [KSlice 0 0 1]). split; [|done].
    assert (G : forall l w c, kalong w l -> klegal (krun w l) c -> kcareful (krun w l) c -> kalong w (l ++ [c])).
    { induction l as [|a l IH]; intros w c H1 H2 H3; [done|]. destruct H1 as (A & B & C). split; [done|]. split; [done|]. by apply IH. }
    by apply (G setup ([], []) (KSlice 0 0 1) setup_ok). }
  split; [exact part_shown|].
  split; [exists 10, 1%N; split; [done|]; split; [vm_compute; reflexivity|done]|]. vm_compute. reflexivity.
Qed.

(** Calls on both logs, mixed. *)
Definition mixed : list kcall := [KBuilt 0 0 3 (PI_op early); KBuilt 1 0 0 (PI_op late); KAppend 0; KCompact 0 ""; KAppend 1; KSlice 0 0 1].
Definition mixed_end : state := fst (append (fst (store (PI_op late) (old_heap, part)))).
Lemma sliced_reached : reached sliced.
Proof. exact (proj1 own_shown). Qed.
Lemma mixed_shown : reached sliced ∧ shows sliced 1 part ∧ kalong sliced mixed ∧
  kpath 1 sliced mixed part (snd mixed_end) ∧
  l_version (snd mixed_end) = [1; 2]%N ∧ l_patches (snd mixed_end) !! 2%N = Some [late].
Proof.
  split; [exact sliced_reached|]. split; [exact part_shown|]. split; [by repeat split|].
  split; [|split; vm_compute; reflexivity].
  apply path_other; [done|by intros []|].
  eapply (path_own 1 _ _ _ old_heap); [done|symmetry; apply surjective_pairing|].
  apply path_other; [done|by intros []|]. apply path_other; [done|by intros []|].
  eapply (path_own 1 _ _ _ old_heap); [done|symmetry; apply surjective_pairing|].
  apply path_other; [done|by intros []|]. apply path_end.
Qed.
