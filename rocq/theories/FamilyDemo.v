(** Concrete cases for [Prop_Family.v]: two groups, the first with a slice and a slice of it. *)
From Verif Require Import Base BaseSpec BaseSpecLemmas F64 Tson TsonSpec BaseLemmas Serial GoText Heap HeapSpec Own Patch PatchSpec TreePatch PatchLemmas
  PatchDemo Logument LogSpec LogLemmas LogDemo ReplaySpec ReplayLemmas ReplayDemo Family FamilySpec FamilyLemmas.

Definition blib : textlib := go_lib (fun _ => true).
(** The text {"a" <5>: 1} of the second document. *)
Definition btext : string := "{" +++ String dquote ("a" +++ String dquote " <5>: 1}").
Lemma btext_parsed : unmarshal blib btext = Ok (TObj [("a", nleaf 1 5)]).
Proof. vm_compute. reflexivity. Qed.

Definition f0 : families := fnew blib (SI_doc proot) None (pheap, []).
Definition f1 : families := fnew blib (SI_text btext) None f0.
(** Two versions are committed, the log is sliced, and the slice again. *)
Definition f2 : families := fcalls f1
  [(0, 0, CStore (PI_patch (Some v1))); (0, 0, CAppend); (0, 0, CStore (PI_patch (Some v2))); (0, 0, CAppend);
   (0, 0, CSlice 0 2); (0, 1, CSlice 1 2)]%nat.
Lemma f1_grown : grown f1.
Proof.
  apply grown_new; [apply grown_new; [apply grown_none|]|].
  - split; [by exists ploc|]. exists [pdoc]. split; [done|]. destruct pdoc_ok as (lt & [HO HN] & Hr & He).
    exists [lt]. split; [by repeat constructor|]. split; [cbn; by rewrite app_nil_r|]. cbn. by rewrite Hr, He.
  - intros t Et. rewrite btext_parsed in Et. injection Et as <-. by eexists.
Qed.
Lemma f2_grown : grown f2.
Proof. apply fcalls_grown, f1_grown. Qed.

(** The logs of the groups. *)
Definition fam (S : families) (n : nat) : family := default (Family VNil []) (snd S !! n).
Definition flog (S : families) (n k : nat) : logument := default (Lgm [] VNil ∅ ∅ None) (f_logs (fam S n) !! k).
Lemma f2_shape : snd f2 !! 0%nat = Some (fam f2 0) ∧ snd f2 !! 1%nat = Some (fam f2 1) ∧
  map l_version (f_logs (fam f2 0)) = [[0; 1; 2]; [1; 2]; [1; 2]]%N ∧ map l_version (f_logs (fam f2 1)) = [[0]]%N.
Proof. split; [reflexivity|]. split; [reflexivity|]. split; vm_compute; reflexivity. Qed.
Lemma f2_logs : f_logs (fam f2 0) !! 0%nat = Some (flog f2 0 0) ∧ f_logs (fam f2 0) !! 1%nat = Some (flog f2 0 1) ∧
  f_logs (fam f2 0) !! 2%nat = Some (flog f2 0 2).
Proof. repeat split; reflexivity. Qed.
Lemma f2_keeps : keeps (flog f2 0 0) proot ∧ keeps (flog f2 0 1) proot ∧ keeps (flog f2 0 2) proot.
Proof.
  split; [left; exists 0%N; vm_compute; reflexivity|]. split; [left; exists 0%N; vm_compute; reflexivity|].
  left; exists 1%N; vm_compute; reflexivity.
Qed.

(** Setting a value through the log changes what its slices show. *)
Definition change : operation := Op OReplace "a" (n1 8) 20.
Definition f3 : families := fcall f2 0 0 (CSet change).
Lemma change_ok : is_set (op_kind change) = true ∧ exists st, set change (fst f2, flog f2 0 0) = (st, Ok tt).
Proof. split; [done|]. eexists. vm_compute. reflexivity. Qed.
Lemma frozen_refuted : exists S n k d t t', grown S ∧ keeps (flog S n k) d ∧ (0 < k)%nat ∧
  read (fst S) d = Some t ∧ read (fst (fcall S n 0 (CSet change))) d = Some t' ∧
  at_path t [Key "a"] = Some (nleaf 3 11) ∧ at_path t' [Key "a"] = Some (nleaf 8 20).
Proof.
  exists (fcall f2 0 0 (CSnapshot 2)), 0%nat, 1%nat, proot. do 2 eexists.
  split; [apply grown_call, f2_grown|]. split; [left; exists 0%N; vm_compute; reflexivity|]. split; [by repeat constructor|].
  split; [vm_compute; reflexivity|]. split; [vm_compute; reflexivity|]. split; vm_compute; reflexivity.
Qed.
(** Asking the slice of the slice changes what the log shows at version 0. *)
Lemma asked_refuted : exists S k d t t', grown S ∧ l_snapshots (flog S 0 0) !! 0%N = Some d ∧
  read (fst S) d = Some t ∧ (0 < k)%nat ∧ read (fst (fcall S 0 k (CSnapshot 2))) d = Some t' ∧
  at_path t [Key "a"] = Some (nleaf 2 9) ∧ at_path t' [Key "a"] = Some (nleaf 3 11).
Proof.
  exists f2, 2%nat, proot. do 2 eexists.
  split; [exact f2_grown|]. split; [vm_compute; reflexivity|]. split; [vm_compute; reflexivity|]. split; [by repeat constructor|].
  split; [vm_compute; reflexivity|]. split; vm_compute; reflexivity.
Qed.
(** Calls on the first group leave the second. *)
Definition busy : list (nat * nat * call) := [(0, 0, CSet change); (0, 2, CSnapshot 2); (0, 1, CTrack 1 2); (0, 0, CSlice 1 1)]%nat.
Lemma busy_ok : Forall (fun c => ~ calls_group 1 c) busy ∧ length (f_logs (fam (fcalls f2 busy) 0)) = 4%nat ∧
  read (fst (fcalls f2 busy)) (f_doc (fam f2 1)) = Some (TObj [("a", nleaf 1 5)]).
Proof. split; [by repeat constructor|]. split; vm_compute; reflexivity. Qed.
