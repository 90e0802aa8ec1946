(** Concrete cases for C68. *)
From Verif Require Import Base F64 Tson TsonInd TsonSpec Heap Patch Diff DiffSpec TotalSpec DiffTotal.
From Coq Require Import Lia.

Definition lf (b : bool) (ts : Z) : tson := TLeaf (PBool b) ts.
(** An object and a leaf change places, and a leaf is added. *)
Definition tt_a : tson := TObj [("l", TArr [TObj [("x", lf true 1)]; lf false 2]); ("s", lf true 3)].
Definition tt_b : tson := TObj [("s", TLeaf (PStr "on") 4); ("l", TArr [lf false 2; TObj [("x", lf true 1)]; lf true 5])].
(** A second object like the first one. *)
Definition tt_c : tson := TObj [("s", lf true 3); ("l", TArr [lf false 2; TObj [("x", lf true 1)]; TObj [("x", lf true 1)]])].
Lemma tt_wf : wf tt_a ∧ wf tt_b ∧ wf tt_c.
Proof.
  split; [|split]; repeat (constructor; simpl; try set_solver).
Qed.
Lemma tt_ok : (exists ops, generate_patch tt_a tt_b = Ok ops) ∧ (exists ops, generate_patch_with_timestamp tt_a tt_b = Ok ops).
Proof. split; eexists; vm_compute; reflexivity. Qed.
Lemma tt_no br : ~ obstacle false br tt_a tt_b.
Proof. apply (generate_outcome tt_a tt_b); [apply tt_wf|apply tt_wf|apply tt_ok]. Qed.
Lemma tt_panics : generate_patch tt_a tt_c = Panic ∧ generate_patch_with_timestamp tt_a tt_c = Panic ∧ obstacle false true tt_a tt_c.
Proof.
  assert (E : generate_patch tt_a tt_c = Panic) by (vm_compute; reflexivity).
  split; [done|]. split; [vm_compute; reflexivity|]. by apply (generate_outcome tt_a tt_c); [apply tt_wf|apply tt_wf|].
Qed.
(** Which obstacle is met first decides whether the diff fails or panics. *)
Definition tt_f : list (string * tson) := [("p", TArr [lf true 1]); ("q", lf true 1)].
Definition tt_g : list (string * tson) := [("p", TArr [TObj []]); ("q", TObj [])].
Lemma tt_both : generate_patch (TObj tt_f) (TObj tt_g) = Panic ∧ generate_patch (TObj tt_f) (TObj (rev tt_g)) = Err.
Proof. split; vm_compute; reflexivity. Qed.
