(** Concrete cases and witnesses for [Prop_Replay.v]. *)
From Verif Require Import Base BaseSpec BaseSpecLemmas F64 Tson TsonSpec BaseLemmas Serial GoText Heap HeapSpec Own Patch PatchSpec TreePatch PatchLemmas
  PatchDemo Logument LogSpec LogLemmas LogDemo ReplaySpec ReplayLemmas SetLemmas CompactReplay.
From Coq Require Import Lia.

Definition plog : logument := Lgm [0%N] proot {[ 0%N := proot ]} ∅ None.
Definition ploc : loc := match proot with VObj l => l | _ => 0%nat end.
Lemma proot_obj : proot = VObj ploc.
Proof. reflexivity. Qed.
Lemma plog_new : new_logument (go_lib (fun _ => true)) (SI_doc proot) None pheap = (pheap, Ok plog).
Proof. reflexivity. Qed.
Lemma plog_reachable : reachable (pheap, plog).
Proof. eapply reach_new, plog_new. Qed.
Lemma pdoc_ok' : doc_of pheap (VObj ploc) pdoc.
Proof. exact pdoc_ok. Qed.

(** Version 1 sets a, version 2 sets b.c and a again, version 3 sets a to its value again. *)
Definition v1 : list operation := [Op OReplace "a" (n1 2) 9].
Definition v2 : list operation := [Op OReplace "b/c" (AStr "y") 10; Op OReplace "a" (n1 3) 11].
Definition v3 : list operation := [Op OReplace "a" (n1 3) 12].
Definition commits : list call :=
  [CStore (PI_patch (Some v1)); CAppend; CStore (PI_patch (Some v2)); CAppend; CStore (PI_patch (Some v3)); CAppend].
Definition rst : state := run (pheap, plog) commits.
Lemma rst_reachable : reachable rst.
Proof. apply run_reachable; [apply plog_reachable|repeat constructor]. Qed.

Lemma replay_case :
  let cs := commits ++ [CSnapshot 1] in let st := run (pheap, plog) cs in
  new_logument (go_lib (fun _ => true)) (SI_doc proot) None pheap = (pheap, Ok plog) ∧
  l_snapshots plog !! 0%N = Some (VObj ploc) ∧ doc_of pheap (VObj ploc) pdoc ∧
  ascending 0 cs ∧ (forall w, CSnapshot w ∈ cs -> (w <= 3)%N) ∧ 3%N ∈ l_version (snd st) ∧
  (forall w, CSnapshot w ∈ cs -> has_ops (snd st) w) ∧ has_ops (snd st) 3 ∧
  exists tE, applied pdoc (all_ops (snd st)) tE.
Proof.
  cbn zeta. split; [reflexivity|]. split; [reflexivity|]. split; [exact pdoc_ok'|]. split; [done|].
  assert (Hin : forall w, CSnapshot w ∈ commits ++ [CSnapshot 1] -> w = 1%N).
  { intros w Hw. unfold commits in Hw. cbn [app] in Hw.
    repeat (apply elem_of_cons in Hw as [Hw|Hw]; [congruence|]). by apply elem_of_nil in Hw. }
  split; [by intros w ->%Hin|]. split.
  { replace (l_version (snd (run (pheap, plog) (commits ++ [CSnapshot 1])))) with [0;1;2;3]%N by (vm_compute; reflexivity).
    do 3 apply elem_of_list_further. apply elem_of_list_here. }
  split; [intros w ->%Hin _; vm_compute; congruence|]. split; [intros _; vm_compute; congruence|].
  eexists. apply papply_applied; [done|]. vm_compute. reflexivity.
Qed.

(** Snapshot 0 read before and after asking for version 2. *)
Lemma immutable_refuted : exists st st1 st2 s0 s2 t t', reachable st ∧
  snapshot 0 st = (st1, Ok s0) ∧ read (fst st1) s0 = Some t ∧
  snapshot 2 st1 = (st2, Ok s2) ∧ s2 = s0 ∧ read (fst st2) s0 = Some t' ∧
  at_path t [Key "a"] = Some (nleaf 1 5) ∧ at_path t' [Key "a"] = Some (nleaf 3 11).
Proof.
  exists rst. do 6 eexists. split; [exact rst_reachable|].
  split; [vm_compute; reflexivity|]. split; [vm_compute; reflexivity|]. split; [vm_compute; reflexivity|].
  split; [reflexivity|]. split; [vm_compute; reflexivity|]. split; vm_compute; reflexivity.
Qed.
(** Set reaches the snapshot of version 0 as well. *)
Lemma set_reaches_snapshot : exists st st1 t, reachable st ∧
  set (Op OReplace "a" (n1 8) 20) st = (st1, Ok tt) ∧
  read (fst st1) (default VNil (l_snapshots (snd st1) !! 0%N)) = Some t ∧ at_path t [Key "a"] = Some (nleaf 8 20).
Proof.
  exists rst. do 2 eexists. split; [exact rst_reachable|].
  split; [vm_compute; reflexivity|]. split; vm_compute; reflexivity.
Qed.
(** A second Snapshot query for a version whose patch is empty returns null. *)
Lemma empty_version_null : exists st st1, reachable st ∧ 1%N ∈ l_version (snd st) ∧ patch_at (snd st) 1 = [] ∧
  snapshot 1 st = (st1, Ok VNil).
Proof.
  exists (run (pheap, plog) [CStore (PI_patch (Some [])); CAppend]). eexists.
  split; [apply run_reachable; [apply plog_reachable|repeat constructor]|].
  split; [|split; [vm_compute; reflexivity|vm_compute; reflexivity]].
  replace (l_version _) with [0;1]%N by (vm_compute; reflexivity). apply elem_of_list_further, elem_of_list_here.
Qed.

(** ** Set *)
Lemma spellb : spells "b/c" ["b"; "c"].
Proof. exact spell2. Qed.
Lemma wayb : free_way pdoc ["b"; "c"].
Proof. eapply fw_in; [reflexivity|]. constructor. Qed.
Lemma set_case : l_current plog = proot ∧ doc_of pheap (l_current plog) pdoc ∧
  spells (op_path (Op OReplace "b/c" (AStr "z") 30)) ["b"; "c"] ∧ free_way pdoc ["b"; "c"].
Proof. split; [done|]. split; [exact pdoc_ok|]. split; [exact spell2|exact wayb]. Qed.
Lemma set_broken_case : exists h', apply_operation pheap (l_current plog) (Op OAdd "b/c" ANil 9) = (h', Err).
Proof. exact error_case. Qed.

(** ** TestSet *)
Definition tst : state := run (pheap, plog) [CStore (PI_op (Op OReplace "a" (n1 2) 9)); CAppend; CSnapshot 1].
Lemma tst_reachable : reachable tst.
Proof. apply run_reachable; [apply plog_reachable|repeat constructor]. Qed.
Lemma test_set_case : exists t, last (l_version (snd tst)) = Some 1%N ∧
  l_snapshots (snd tst) !! 1%N = Some proot ∧ read (fst tst) proot = Some t ∧
  get_value t "/a" = Ok (nleaf 2 9) ∧ leaf_shows (n1 2) (nleaf 2 9) ∧ ~ leaf_shows (AInt 2) (nleaf 2 9).
Proof.
  eexists. split; [vm_compute; reflexivity|]. split; [vm_compute; reflexivity|]. split; [vm_compute; reflexivity|].
  split; [vm_compute; reflexivity|]. split; [constructor; vm_compute; reflexivity|]. inversion 1.
Qed.
(** The current document already holds the value at the path, and still an operation is recorded. *)
Lemma test_set_refuted : exists st st' op t ks c, reachable st ∧ op_kind op = OReplace ∧ spells (op_path op) ks ∧
  read (fst st) (l_current (snd st)) = Some t ∧ at_path t (keys ks) = Some c ∧ leaf_shows (op_value op) c ∧
  test_set op st = (st', Ok tt) ∧ length (pending (snd st')) = S (length (pending (snd st))).
Proof.
  exists rst. eexists _, (Op OReplace "a" (n1 1) 30), _, ["a"], _. split; [exact rst_reachable|]. split; [done|].
  split; [apply (sp_last "a"); plain_tac|]. split; [vm_compute; reflexivity|]. split; [vm_compute; reflexivity|].
  split; [constructor; vm_compute; reflexivity|]. split; vm_compute; reflexivity.
Qed.
Lemma repeats_case :
  let op := Op OReplace "/a" (n1 7) 30 in
  op_path op = pointer ["a"] ∧ Forall plain ["a"] ∧ payload (op_value op) (PNum (f64_of_Z 7)) ∧
  last (l_version plog) = Some 0%N ∧ l_snapshots plog !! 0%N = Some (VObj ploc) ∧ l_current plog = VObj ploc ∧
  doc_of pheap (VObj ploc) pdoc ∧ free_way pdoc ["" ; "a"] ∧ get_value pdoc (op_path op) = Ok (nleaf 1 5) ∧
  ~ leaf_shows (op_value op) (nleaf 1 5).
Proof.
  cbn zeta. split; [reflexivity|]. split; [constructor; [plain_tac|constructor]|]. split; [constructor|].
  do 3 (split; [reflexivity|]). split; [exact pdoc_ok'|].
  split; [apply fw_new; [by left|done|repeat (apply Forall_cons_2; [by apply parse_int_none|]); apply Forall_nil_2]|]. split; [vm_compute; reflexivity|].
  intros H. inversion H as [| ? ? ? E|]. vm_compute in E. done.
Qed.

(** ** TemporalSnapshot *)
Lemma temporal_case : exists h' L' r, temporal_snapshot fwd 100 rst = ((h', L'), Ok r).
Proof. do 3 eexists. vm_compute. reflexivity. Qed.
(** At time 100 all operations have happened, but the result misses those of versions 2 and 3,
    and the snapshot of version 0 has changed. *)
Lemma temporal_refuted : exists st orc st' r t p, reachable st ∧ oracle_ok orc ∧
  temporal_snapshot orc 100 st = (st', Ok r) ∧ read (fst st') r = Some t ∧
  p ∈ all_ops (snd st) ∧ op_ts p <= 100 ∧ op_path p = "b/c" ∧
  (forall q, q ∈ all_ops (snd st) -> op_path q = "b/c" -> q = p) ∧
  op_value p = AStr "y" ∧ at_path t [Key "b"; Key "c"] = Some (TLeaf (PStr "x") 6) ∧
  read (fst st') (default VNil (l_snapshots (snd st') !! 0%N)) = Some t ∧ at_path t [Key "a"] = Some (nleaf 2 9).
Proof.
  exists rst, fwd. do 3 eexists. exists (Op OReplace "b/c" (AStr "y") 10). split; [exact rst_reachable|].
  split; [apply fwd_ok|]. split; [vm_compute; reflexivity|]. split; [vm_compute; reflexivity|].
  replace (all_ops (snd rst)) with (v1 ++ v2 ++ v3) by (vm_compute; reflexivity).
  split; [apply elem_of_list_further, elem_of_list_here|]. split; [done|]. split; [done|]. split.
  { intros q Hq E. unfold v1, v2, v3 in Hq. cbn [app] in Hq.
    repeat (apply elem_of_cons in Hq as [->|Hq]; [try done; try discriminate E|]). by apply elem_of_nil in Hq. }
  split; [done|]. split; [vm_compute; reflexivity|]. split; vm_compute; reflexivity.
Qed.
Lemma temporal_null : exists st orc st', reachable st ∧ oracle_ok orc ∧ temporal_snapshot orc 8 st = (st', Ok VNil).
Proof.
  exists rst, fwd. eexists. split; [exact rst_reachable|]. split; [apply fwd_ok|]. vm_compute. reflexivity.
Qed.

(** ** Compact *)
Lemma spella : spells "a" ["a"].
Proof. apply (sp_last "a"). plain_tac. Qed.
Lemma waya : free_way pdoc ["a"].
Proof. constructor. Qed.
Lemma independent_case : independent pdoc (all_ops (snd rst)).
Proof.
  replace (all_ops (snd rst)) with (v1 ++ v2 ++ v3) by (vm_compute; reflexivity).
  assert (Hin : forall p, p ∈ v1 ++ v2 ++ v3 -> (op_path p = "a" ∨ op_path p = "b/c") ∧ writes p ∧ exists x, payload (op_value p) x).
  { intros p Hp. unfold v1, v2, v3 in Hp. cbn [app] in Hp.
    repeat (apply elem_of_cons in Hp as [->|Hp]; [split; [cbn; auto|split; [by right|eexists; constructor]]|]).
    by apply elem_of_nil in Hp. }
  split.
  - intros p Hp. destruct (Hin p Hp) as ([E|E] & Hw & Hx); (split; [done|]; split; [done|]); rewrite E.
    + exists ["a"]. split; [exact spella|exact waya].
    + exists ["b"; "c"]. split; [exact spell2|exact wayb].
  - intros p q ks ks' Hp Hq Hs Hs'. destruct (Hin p Hp) as (Ep & _), (Hin q Hq) as (Eq & _).
    apply spells_parts in Hs, Hs'.
    destruct Ep as [Ep|Ep], Eq as [Eq|Eq]; rewrite Ep, Eq in *; auto; right; subst; vm_compute op_parts.
    + split; intros [z Hz]; cbn in Hz; congruence.
    + split; intros [z Hz]; cbn in Hz; congruence.
Qed.
(** b.c is set, b removed, b.c set to the same value again. *)
Definition removed_ops : list operation :=
  [Op OAdd "b/c" (AStr "y") 9; Op ORemove "b" ANil 10; Op OAdd "b/c" (AStr "y") 11].
(** The same member under two spellings. *)
Definition spelled_ops : list operation :=
  [Op OAdd "b/c" (AStr "y") 9; Op OAdd "b.c" (AStr "z") 10; Op OAdd "b/c" (AStr "y") 11].
Definition compact_differs (ops : list operation) : Prop :=
  let st := run (pheap, plog) [CStore (PI_patch (Some ops)); CAppend] in
  exists L' t t', reachable st ∧ compact "" st = ((fst st, L'), Ok tt) ∧
    applied pdoc (all_ops (snd st)) t ∧ applied pdoc (all_ops L') t' ∧
    at_path t [Key "b"; Key "c"] <> None ∧
    (forall c c', at_path t [Key "b"; Key "c"] = Some c -> at_path t' [Key "b"; Key "c"] = Some c' -> ~ alike c c').
Lemma compact_removed : compact_differs removed_ops ∧ compact_differs spelled_ops.
Proof.
  split.
  - unfold compact_differs. do 3 eexists. split; [apply run_reachable; [apply plog_reachable|repeat constructor]|].
    split; [vm_compute; reflexivity|]. split; [apply papply_applied; [done|]; vm_compute; reflexivity|].
    split; [apply papply_applied; [done|]; vm_compute; reflexivity|]. split; [vm_compute; congruence|].
    intros c c'. vm_compute. congruence.
  - unfold compact_differs. do 3 eexists. split; [apply run_reachable; [apply plog_reachable|repeat constructor]|].
    split; [vm_compute; reflexivity|]. split; [apply papply_applied; [done|]; vm_compute; reflexivity|].
    split; [apply papply_applied; [done|]; vm_compute; reflexivity|]. split; [vm_compute; congruence|].
    intros c c' Hc Hc'. vm_compute in Hc, Hc'. injection Hc as <-. injection Hc' as <-. intros H.
    inversion H as [|? ? ? ? HX| |]; subst. destruct HX as [HX|HX]; [congruence|]. cbn in HX. congruence.
Qed.
Lemma no_snapshot_case : last (l_version (snd rst)) = Some 3%N ∧ l_snapshots (snd rst) !! 3%N = None.
Proof. split; vm_compute; reflexivity. Qed.
