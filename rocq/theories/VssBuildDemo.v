(** Concrete cases and witnesses for [Prop_VssFile.v]: BuildFromLeafNodes. *)
From Verif Require Import Base BaseLemmas BaseSpec F64 Bytes Vss VssSpec VssLemmas VssPlace VssData VssDemo VssBuild.

Definition spec_built : wjson :=
  WObj [("Vehicle", WObj [("Speed", signal' "float");
    ("Body", WObj [("Lock", signal' "boolean"); ("Mode", WObj [("datatype", WStr "string"); ("allowed", WArr [WStr "ON"; WStr "OFF"])]);
      ("Codes", signal' "uint8[]")])])].
Lemma no_index k : bracketed k = None -> ~ index_name k.
Proof.
  intros E (s & ->). cbn [bracketed String.append] in E. rewrite decide_True in E by done.
  assert (H : ends_with "]" (s +++ "]") = true).
  { clear. induction s as [|a s IH]; [done|]. cbn [String.append ends_with]. destruct (s +++ "]") eqn:Es; [by destruct s|done]. }
  by rewrite H in E.
Qed.
Lemma spec_build : is_map spec_clean ∧ ~ stamped spec_clean ∧ keyed (fun k => schema_name k ∧ ~ index_name k) spec_clean ∧
  (forall l l' x x', leaf_at spec_clean l x -> leaf_at spec_clean l' x' -> visible l `prefix_of` visible l' -> l = l') ∧
  build_from_leaf_nodes spec_clean = Ok spec_built.
Proof.
  split; [by eexists|]. split; [intros (m & [= <-] & H); revert H; vm_compute; set_solver|].
  split; [|split; [|vm_compute; reflexivity]].
  - assert (H : keyed (fun k => ~ index_name k) spec_clean).
    { repeat first [apply ky_scalar; [by apply not_map|done] | apply ky_obj | apply ky_arr | apply NoDup_nil_2 | apply Forall_nil_2
        | apply Forall_cons_2 | apply NoDup_cons_2; [set_solver|] | split; [apply no_index; reflexivity|]]. }
    exact (keyed_and _ _ _ spec_names H).
  - intros l l' x x' H%leaves_all H'%leaves_all. vm_compute in H, H'. each H; each H'; intros [z E]; first [reflexivity|discriminate E].
Qed.
(** Names in brackets, empty branches, and paths that are not different. *)
Lemma index_moved : build_from_leaf_nodes (WObj [("a", WObj [("[1]", WInt 5); ("[x]", WInt 6)])]) = Ok (WObj [("a", WObj [("array", WArr [WNull; WInt 5])])]).
Proof. vm_compute. reflexivity. Qed.
Lemma index_negative : build_from_leaf_nodes (WObj [("[-1]", WInt 5)]) = Panic.
Proof. vm_compute. reflexivity. Qed.
Lemma branch_lost : build_from_leaf_nodes (WObj [("a", WObj []); ("b", WInt 1)]) = Ok (WObj [("b", WInt 1)]).
Proof. vm_compute. reflexivity. Qed.
Lemma child_lost : build_from_leaf_nodes (WObj [("a", WObj [("children", WObj [("x", WInt 1)]); ("x", WInt 2)])]) = Ok (WObj [("a", WObj [("x", WInt 2)])]).
Proof. vm_compute. reflexivity. Qed.
