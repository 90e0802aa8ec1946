(** Concrete cases and witnesses for [Prop_Tson.v]. *)
From Verif Require Import Base BaseSpec BaseSpecLemmas F64 Tson TsonInd BaseLemmas TextSpec GoText TsonSpec F64Lemmas TsonLemmas ConvLemmas
  TextDemo.
From Coq Require Import Lia.

Lemma demo_wf : wf demo.
Proof. unfold demo. repeat (constructor; simpl; try set_solver). Qed.
Lemma demo_get : wf demo ∧ get_value demo (pointer ["xs"; "0"]) = Ok (TLeaf (PNum (f64_of_ratio false 1 2)) 1)
  ∧ get_value demo (pointer ["xs"; "7"]) = Err.
Proof. split; [exact demo_wf|]. split; reflexivity. Qed.
Lemma demo_slash : contains_slash "a/b" ∧ parted "a/b" ["a"; "b"].
Proof.
  split; [by exists "a", "b"|]. split; [done|]. split; [done|].
  assert (H : forall p, contains slash p = false -> ~ exists a b, p = a +++ "/" +++ b).
  { intros p Hp (a & b & E). rewrite E in Hp. assert (H2 : contains slash (a +++ "/" +++ b) = true).
    { apply contains_slash_iff. by exists a, b. } congruence. }
  repeat apply Forall_cons_2; try apply Forall_nil_2; by apply H.
Qed.
Lemma demo_no_slash : container demo ∧ decoded "name" "name" ∧ ~ contains_slash "name".
Proof.
  split; [left; eexists; reflexivity|]. split; [by apply decode_spec|]. intros (a & b & E). 
  assert (H : contains slash "name" = true) by (rewrite E; apply contains_slash_iff; by exists a, b).
  vm_compute in H. done.
Qed.
Lemma demo_null_free : null_free demo.
Proof. unfold demo. repeat (constructor; simpl). Qed.
Lemma demo_latest : null_free demo ∧ container demo ∧ latest_timestamp demo = Ok 9007199254740993.
Proof. split; [exact demo_null_free|]. split; [left; eexists; reflexivity|]. reflexivity. Qed.
Lemma null_demo : ~ null_free (TArr [TLeaf (PBool true) 3; TNil]).
Proof. inversion 1 as [| |? HF]; subst. inversion HF as [|? ? _ HF']; subst. inversion HF' as [|? ? HN _]; inversion HN. Qed.

Definition demo_small : tson :=
  TObj [("a", TLeaf (PStr "x") 3); ("b", TArr [TLeaf (PNum (f64_of_Z 2)) 4; TObj []])].
Definition demo_small_swapped : tson :=
  TObj [("b", TArr [TLeaf (PNum (f64_of_Z 2)) 4; TObj []]); ("a", TLeaf (PStr "x") 3)].
Definition demo_small_other : tson :=
  TObj [("a", TLeaf (PStr "x") 3); ("b", TArr [TLeaf (PNum (f64_of_Z 2)) 5; TObj []])].
Lemma demo_equal : wf demo_small ∧ encodable demo_small = true ∧ every_stamp exact_int demo_small
  ∧ equal demo_small demo_small_swapped = Ok true ∧ equal demo_small demo_small_other = Ok false.
Proof.
  split; [unfold demo_small; repeat (constructor; simpl; try set_solver)|].
  split; [reflexivity|]. split; [|split; vm_compute; reflexivity].
  unfold demo_small, exact_int.
  repeat (apply evs_obj || apply evs_arr || apply evs_leaf || apply Forall_cons_2 || apply Forall_nil_2); lia.
Qed.
Lemma demo_equal_wt : container demo_small ∧ equal_without_timestamp demo_small demo_small_other = Ok true.
Proof. split; [left; eexists; reflexivity|vm_compute; reflexivity]. Qed.
Lemma equal_large : exists a b, wf a ∧ wf b ∧ equal a b = Ok true ∧ ~ same_content a b.
Proof.
  exists (TObj [("t", TLeaf (PBool true) (2 ^ 53))]), (TObj [("t", TLeaf (PBool true) (2 ^ 53 + 1))]).
  split; [repeat (constructor; simpl; try set_solver)|].
  split; [repeat (constructor; simpl; try set_solver)|].
  split; [vm_compute; reflexivity|].
  inversion 1 as [| | |? m1 m2 HP HF]; subst. apply Permutation_singleton_l in HP. subst.
  inversion HF as [|? ? ? ? [_ Hl] _]; subst. simpl in Hl. inversion Hl; subst. done.
Qed.
Lemma seven_exact : exact_int 7.
Proof. unfold exact_int. lia. Qed.

(** Members named like the fields of a leaf. *)
Definition demo_tricky : tson :=
  TObj [("value", TLeaf (PStr "v") 3); ("timestamp", TLeaf (PNum (f64_of_Z 9)) (-1))].
Lemma demo_compat : wf demo_tricky ∧ null_free demo_tricky ∧ every_stamp exact_int demo_tricky
  ∧ exists j, to_compatible demo_tricky = Ok j ∧ from_compatible j = Ok demo_tricky.
Proof.
  split; [unfold demo_tricky; repeat (constructor; simpl; try set_solver)|].
  split; [repeat (constructor; simpl)|]. split.
  { unfold demo_tricky, exact_int.
    repeat (apply evs_obj || apply evs_arr || apply evs_leaf || apply Forall_cons_2 || apply Forall_nil_2); lia. }
  eexists. split; [reflexivity|]. vm_compute. reflexivity.
Qed.
Lemma compat_large : exists t t' j,
  wf t ∧ null_free t ∧ to_compatible t = Ok j ∧ from_compatible j = Ok t' ∧ ~ same_doc t' t.
Proof.
  exists (TLeaf (PBool true) (2 ^ 53 + 1)), (TLeaf (PBool true) (2 ^ 53)). eexists.
  split; [constructor|]. split; [constructor|]. split; [reflexivity|].
  split; [vm_compute; reflexivity|]. inversion 1.
Qed.

Definition demo_json : json :=
  JObj [("value", JNum (f64_of_Z 3)); ("timestamp", JNum (f64_of_Z 4)); ("l", JArr [JStr "x"; JObj []; JBool false])].
Lemma demo_json_ok : jcontainer demo_json ∧ json_encodable demo_json = true ∧ jnull_free demo_json = true.
Proof. split; [left; eexists; reflexivity|]. split; reflexivity. Qed.
Definition demo_json_null : json := JObj [("a", JStr "x"); ("l", JArr [JNull])].
Lemma demo_json_null_ok : jcontainer demo_json_null ∧ json_encodable demo_json_null = true
  ∧ jnull_free demo_json_null = false ∧ scalar_inside demo_json_null = true.
Proof. split; [left; eexists; reflexivity|]. repeat split; reflexivity. Qed.
