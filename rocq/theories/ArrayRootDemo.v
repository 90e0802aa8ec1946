(** Concrete cases for [Prop_ArrayRoot.v]. *)
From Verif Require Import Base BaseSpec BaseSpecLemmas F64 Tson BaseLemmas Serial GoText Heap HeapSpec Own Patch PatchSpec TreePatch PatchLemmas
  PatchDemo Logument LogSpec LogLemmas ReplaySpec ReplayLemmas SnapAnySpec LogDemo ArrayRootSpec ArrayRoot.
From Coq Require Import Lia.

Definition items : list tson := [nleaf 1 5; nleaf 2 6].
Definition aheap : heap := fst (alloc_tree [] (TArr items)).
Definition aroot : val := snd (alloc_tree [] (TArr items)).
Lemma adoc_ok : doc_of aheap aroot (TArr items).
Proof.
  destruct (alloc_tree_own (TArr items) [] aheap aroot eq_refl) as (lt & c & _ & H1 & H2 & H3 & _). by exists lt.
Qed.

Lemma digit_edit d z n ts : int_text d (Z.of_nat n) -> plain d -> escaped d = d ->
  edits (Op OAdd d (n1 z) ts) (Put n (nleaf z ts)) ∧ edits (Op ORemove d ANil ts) (Cut n).
Proof.
  intros H1 H2 H3. split.
  - apply (edits_put (Op OAdd d (n1 z) ts) d n (PNum (f64_of_Z z))); cbn; [rewrite <- H3 at 1; by constructor|done|by left|constructor].
  - apply (edits_cut (Op ORemove d ANil ts) d n); cbn; [rewrite <- H3 at 1; by constructor|done|done].
Qed.
Lemma text_of d n : parse_int d = Some (Z.of_nat n) -> int_text d (Z.of_nat n).
Proof. apply parse_int_spec. Qed.
Definition put0 := proj1 (digit_edit "0" 9 0 20 (text_of "0" 0 eq_refl) ltac:(split; apply contains_has_char; reflexivity) eq_refl).
Definition put2 := proj1 (digit_edit "2" 3 2 20 (text_of "2" 2 eq_refl) ltac:(split; apply contains_has_char; reflexivity) eq_refl).
Definition put3 := proj1 (digit_edit "3" 4 3 21 (text_of "3" 3 eq_refl) ltac:(split; apply contains_has_char; reflexivity) eq_refl).
Definition cut0 := proj2 (digit_edit "0" 9 0 20 (text_of "0" 0 eq_refl) ltac:(split; apply contains_has_char; reflexivity) eq_refl).

Definition grow2 : operation := Op OAdd "2" (n1 3) 20.
Definition grow3 : operation := Op OAdd "3" (n1 4) 21.
Definition set0 : operation := Op OAdd "0" (n1 9) 20.
Definition drop0 : operation := Op ORemove "0" ANil 20.

Lemma patch_case : doc_of aheap aroot (TArr items) ∧ Forall2 edits [drop0; grow2; set0] [Cut 0; Put 2 (nleaf 3 20); Put 0 (nleaf 9 20)] ∧
  edits grow3 (Put 3 (nleaf 4 21)) ∧ Forall (fits (length items)) [Cut 0; Put 2 (nleaf 3 20); Put 0 (nleaf 9 20)] ∧ flat items.
Proof.
  split; [exact adoc_ok|]. split; [repeat apply List.Forall2_cons; [exact cut0|exact put2|exact put0|constructor]|].
  split; [exact put3|]. split; [repeat constructor; cbn; lia|]. repeat constructor.
Qed.
Lemma inside_case : doc_of aheap aroot (TArr items) ∧ Forall2 edits [set0; set0] [Put 0 (nleaf 9 20); Put 0 (nleaf 9 20)] ∧ (0 < length items)%nat.
Proof. split; [exact adoc_ok|]. split; [repeat apply List.Forall2_cons; [exact put0|exact put0|constructor]|]. cbn. lia. Qed.

(** Two elements are appended, one remains; an element is removed and another one set, the length stays. *)
Lemma growth_lost : exists h' r ys, doc_of aheap aroot (TArr items) ∧ Forall2 edits [grow2; grow3] [Put 2 (nleaf 3 20); Put 3 (nleaf 4 21)] ∧
  apply_patch aheap aroot [grow2; grow3] = (h', Ok r) ∧ read h' r = Some (TArr ys) ∧
  ys = [nleaf 1 5; nleaf 2 6; TNil; nleaf 4 21] ∧
  fold_left made [Put 2 (nleaf 3 20); Put 3 (nleaf 4 21)] items = [nleaf 1 5; nleaf 2 6; nleaf 3 20; nleaf 4 21].
Proof.
  do 3 eexists. split; [exact adoc_ok|]. split; [repeat apply List.Forall2_cons; [exact put2|exact put3|constructor]|].
  split; [vm_compute; reflexivity|]. split; [vm_compute; reflexivity|]. split; vm_compute; reflexivity.
Qed.
Lemma removal_lost : exists h' r ys, doc_of aheap aroot (TArr items) ∧ Forall2 edits [drop0; set0] [Cut 0; Put 0 (nleaf 9 20)] ∧
  apply_patch aheap aroot [drop0; set0] = (h', Ok r) ∧ read h' r = Some (TArr ys) ∧
  ys = [nleaf 9 20; nleaf 2 6] ∧ fold_left made [Cut 0; Put 0 (nleaf 9 20)] items = [nleaf 9 20].
Proof.
  do 3 eexists. split; [exact adoc_ok|]. split; [repeat apply List.Forall2_cons; [exact cut0|exact put0|constructor]|].
  split; [vm_compute; reflexivity|]. split; [vm_compute; reflexivity|]. split; vm_compute; reflexivity.
Qed.

(** A log over the array: version 1 appends an element, version 2 another one. *)
Definition alog : logument := Lgm [0%N] aroot {[ 0%N := aroot ]} ∅ None.
Definition ast : state := run (aheap, alog)
  [CStore (PI_patch (Some [grow2])); CAppend; CStore (PI_patch (Some [grow3])); CAppend].
Lemma ast_reachable : reachable ast.
Proof.
  apply run_reachable; [|repeat constructor].
  apply (reach_new (go_lib (fun _ => true)) (SI_doc aroot) None aheap). reflexivity.
Qed.
Lemma ast_heap : fst ast = aheap.
Proof. vm_compute. reflexivity. Qed.
Lemma ast_snaps w : is_Some (l_snapshots (snd ast) !! w) -> w = 0%N.
Proof.
  replace (l_snapshots (snd ast)) with ({[ 0%N := aroot ]} : gmap N val) by (vm_compute; reflexivity).
  intros [x Hx]. apply lookup_singleton_Some in Hx as [<- _]. done.
Qed.
Lemma snapshot_case : reachable ast ∧ 2%N ∈ l_version (snd ast) ∧ base_of (snd ast) 2 0 ∧ l_snapshots (snd ast) !! 0%N = Some aroot ∧
  doc_of (fst ast) aroot (TArr items) ∧ patch_at (snd ast) 2 <> [] ∧ ops_between (snd ast) (0 + 1) (2 + 1) = [grow2] ++ [grow3] ∧
  Forall2 edits [grow2] [Put 2 (nleaf 3 20)] ∧ edits grow3 (Put 3 (nleaf 4 21)).
Proof.
  split; [exact ast_reachable|]. split.
  { replace (l_version (snd ast)) with [0;1;2]%N by (vm_compute; reflexivity). do 2 apply elem_of_list_further. apply elem_of_list_here. }
  assert (E0 : l_snapshots (snd ast) !! 0%N = Some aroot) by (vm_compute; reflexivity).
  split. { split; [by eexists|]. split; [lia|]. intros u ->%ast_snaps _. lia. }
  split; [done|]. split; [rewrite ast_heap; exact adoc_ok|]. split; [vm_compute; congruence|]. split; [vm_compute; reflexivity|].
  split; [repeat apply List.Forall2_cons; [exact put2|constructor]|exact put3].
Qed.
Lemma order_matters : exists st st1 st2 st3 s1 r2 r3, reachable st ∧
  snapshot 2 st = (st2, Ok r2) ∧ read (fst st2) r2 = Some (TArr [nleaf 1 5; nleaf 2 6; TNil; nleaf 4 21]) ∧
  snapshot 1 st = (st1, Ok s1) ∧ snapshot 2 st1 = (st3, Ok r3) ∧
  read (fst st3) r3 = Some (TArr [nleaf 1 5; nleaf 2 6; nleaf 3 20; nleaf 4 21]).
Proof.
  exists ast. do 6 eexists. split; [exact ast_reachable|].
  split; [vm_compute; reflexivity|]. split; [vm_compute; reflexivity|]. split; [vm_compute; reflexivity|].
  split; vm_compute; reflexivity.
Qed.
(** Setting both elements and committing them: the current document has both, the snapshot does not. *)
Definition asets : state := run (aheap, alog) (map CSet [grow2; grow3] ++ [CAppend]).
Lemma asets_reachable : reachable asets.
Proof.
  apply run_reachable; [|repeat constructor].
  apply (reach_new (go_lib (fun _ => true)) (SI_doc aroot) None aheap). reflexivity.
Qed.
Lemma set_differs : exists st st1 r, reachable st ∧
  read (fst st) (l_current (snd st)) = Some (TArr [nleaf 1 5; nleaf 2 6; nleaf 3 20; nleaf 4 21]) ∧
  snapshot 1 st = (st1, Ok r) ∧ read (fst st1) r = Some (TArr [nleaf 1 5; nleaf 2 6; TNil; nleaf 4 21]).
Proof.
  exists asets. do 2 eexists. split; [exact asets_reachable|].
  split; [vm_compute; reflexivity|]. split; vm_compute; reflexivity.
Qed.
(** The same temporal query gives two answers, by the iteration order of a map. *)
Lemma temporal_two : exists st o1 o2 st1 st2 r1 r2, reachable st ∧ oracle_ok o1 ∧ oracle_ok o2 ∧
  temporal_snapshot o1 30 st = (st1, Ok r1) ∧ read (fst st1) r1 = Some (TArr [nleaf 1 5; nleaf 2 6; TNil; nleaf 4 21]) ∧
  temporal_snapshot o2 30 st = (st2, Ok r2) ∧ read (fst st2) r2 = Some (TArr [nleaf 1 5; nleaf 2 6; nleaf 3 20]).
Proof.
  exists asets, fwd, bwd. do 4 eexists. split; [exact asets_reachable|]. split; [exact fwd_ok|]. split; [exact bwd_ok|].
  split; [vm_compute; reflexivity|]. split; [vm_compute; reflexivity|]. split; vm_compute; reflexivity.
Qed.
Lemma sets_case : doc_of aheap (l_current alog) (TArr items) ∧
  Forall2 edits [grow2; grow3] [Put 2 (nleaf 3 20); Put 3 (nleaf 4 21)] ∧ Forall is_put [Put 2 (nleaf 3 20); Put 3 (nleaf 4 21)].
Proof. split; [exact adoc_ok|]. split; [repeat apply List.Forall2_cons; [exact put2|exact put3|constructor]|repeat constructor]. Qed.
