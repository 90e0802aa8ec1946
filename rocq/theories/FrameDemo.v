(** Two documents of the same frame. *)
From Verif Require Import Base BaseSpec F64 Tson TsonInd TsonSpec Patch Diff DiffSpec JsonSpec PatchDemo.
Definition fr_a : tson := TObj [("n", nleaf 1 5); ("b", TObj [("c", TLeaf (PStr "x") 6); ("d", TLeaf (PBool true) 6)]); ("l", TArr [nleaf 2 7; nleaf 3 7])].
Definition fr_b : tson := TObj [("l", TArr [nleaf 2 9; nleaf 4 9]); ("n", nleaf 1 5); ("b", TObj [("c", TLeaf (PStr "y") 9); ("d", TLeaf (PBool true) 6)])].
Lemma fr_frame : same_frame fr_a fr_b.
Proof.
  apply sr_obj.
  - intros k. unfold alookup. repeat case_decide; subst; split; intros [? ?]; try discriminate; eauto.
  - intros k u v E E'. unfold alookup in E, E'. repeat case_decide; subst; try discriminate; injection E as <-; injection E' as <-.
    + apply sr_arr. constructor; [apply sr_num|]. constructor; [apply sr_num|constructor].
    + apply sr_num.
    + apply sr_obj.
      * intros k. unfold alookup. repeat case_decide; subst; split; intros [? ?]; try discriminate; eauto.
      * intros k u v E E'. unfold alookup in E, E'. repeat case_decide; subst; try discriminate; injection E as <-; injection E' as <-; constructor.
Qed.
Lemma fr_wf : wf fr_a ∧ wf fr_b.
Proof. split; repeat (constructor; simpl; try set_solver). Qed.
Lemma fr_names : every_name (.≠ "") fr_a.
Proof. repeat (constructor; simpl; try done). Qed.
Lemma fr_gen : exists ops ops', generate_patch fr_a fr_b = Ok ops ∧ map op_path ops = ["/l/1"; "/b/c"] ∧
  generate_patch_with_timestamp fr_a fr_b = Ok ops' ∧ map op_path ops' = ["/l/0"; "/l/1"; "/b/c"].
Proof. do 2 eexists. split; [vm_compute; reflexivity|]. split; [reflexivity|]. split; [vm_compute; reflexivity|reflexivity]. Qed.
