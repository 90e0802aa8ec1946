(** Concrete cases and witnesses for [Prop_Patch.v]. *)
From Verif Require Import Base BaseSpec BaseSpecLemmas F64 Tson BaseLemmas Heap HeapSpec Own Patch PatchSpec TreePatch PatchLemmas.
From Coq Require Import Lia.

Definition n1 (z : Z) : any := ANum (f64_of_Z z).
Definition nleaf (z ts : Z) : tson := TLeaf (PNum (f64_of_Z z)) ts.
(** {"a": 1, "b": {"c": "x"}, "l": [1, 2]} *)
Definition pdoc : tson :=
  TObj [("a", nleaf 1 5); ("b", TObj [("c", TLeaf (PStr "x") 6)]); ("l", TArr [nleaf 1 7; nleaf 2 8])].
Definition pheap : heap := fst (alloc_tree [] pdoc).
Definition proot : val := snd (alloc_tree [] pdoc).
Lemma pdoc_ok : doc_of pheap proot pdoc.
Proof. apply (alloc_tree_doc []). reflexivity. Qed.

Ltac plain_tac := split; apply contains_has_char; reflexivity.
Lemma spell1 : spells "b/d.e" ["b"; "d"; "e"].
Proof.
  apply (sp_more "b" slash "d.e"); [plain_tac|by left|]. apply (sp_more "d" dot "e"); [plain_tac|by right|].
  apply (sp_last "e"). plain_tac.
Qed.
Lemma way1 : free_way pdoc ["b"; "d"; "e"].
Proof.
  eapply fw_in; [reflexivity|]. apply fw_new; [by left|done|]. repeat (apply Forall_cons_2; [by apply parse_int_none|]). apply Forall_nil_2.
Qed.
Lemma spell2 : spells "b/c" ["b"; "c"].
Proof. apply (sp_more "b" slash "c"); [plain_tac|by left|]. apply (sp_last "c"). plain_tac. Qed.
Lemma way2 : through_objects pdoc ["b"; "c"].
Proof. eapply to_in; [reflexivity|]. apply to_last. Qed.
Lemma one_text : int_text "1" (Z.of_nat 1).
Proof. by apply parse_int_spec. Qed.
Lemma spell3 : spells "l/1" (["l"; "1"]).
Proof. apply (sp_more "l" slash "1"); [plain_tac|by left|]. apply (sp_last "1"). plain_tac. Qed.

(** A null value at b/c fails and wipes out b. *)
Lemma error_case : exists h', apply_operation pheap proot (Op OAdd "b/c" ANil 9) = (h', Err).
Proof. eexists. vm_compute. reflexivity. Qed.
Lemma error_refuted : exists h v t op h' t', doc_of h v t ∧ apply_operation h v op = (h', Err) ∧
  doc_of h' v t' ∧ at_path t [Key "b"; Key "c"] = Some (TLeaf (PStr "x") 6) ∧ at_path t' [Key "b"; Key "c"] = None.
Proof.
  destruct error_case as [h' E].
  destruct (error_below _ _ _ (Op OAdd "b/c" ANil 9) _ _ _ _ pdoc_ok spell2 (ex_intro _ _ eq_refl) E) as (t' & HD & H1 & _).
  exists pheap, proot, pdoc, (Op OAdd "b/c" ANil 9), h', t'. split; [exact pdoc_ok|]. split; [exact E|].
  split; [done|]. split; [reflexivity|]. destruct t' as [| |m|]; try done. rewrite at_key in H1 |- *.
  destruct (alookup "b" m) as [c|]; [|done]. cbn in H1. injection H1 as ->. done.
Qed.

(** "/a" does not address member a. *)
Lemma slash_refuted : exists h' t', 
  apply_operation pheap proot (Op OReplace "/a" (n1 2) 9) = (h', Ok proot) ∧ doc_of h' proot t' ∧
  get_value t' "/a" = Ok (nleaf 1 5).
Proof.
  destruct (apply_operation pheap proot (Op OReplace "/a" (n1 2) 9)) as [h' r] eqn:E.
  pose proof (apply_operation_doc _ _ _ _ _ _ pdoc_ok E) as HX.
  assert (Hr : r = Ok proot) by (vm_compute in E; by injection E as _ <-). subst r.
  destruct (ptrav _ _ _) as [t' r'] eqn:Ep. vm_compute in Ep. injection Ep as <- <-.
  destruct HX as [HX _]. eexists h', _. split; [done|]. split; [exact HX|]. vm_compute. reflexivity.
Qed.

(** Two documents without anything in common. *)
Lemma two_docs : exists h v w, docs_of h [(v, pdoc); (w, TObj [("z", TArr [])])].
Proof.
  destruct (alloc_tree [] pdoc) as [h v] eqn:E1. destruct (alloc_tree_own _ _ _ _ E1) as (lt & c & -> & [HO HN] & Hr & He & Hx).
  destruct (alloc_tree ([] ++ c) (TObj [("z", TArr [])])) as [h2 w] eqn:E2.
  destruct (alloc_tree_own _ _ _ _ E2) as (lt2 & c2 & -> & [HO2 HN2] & Hr2 & He2 & Hx2).
  exists (([] ++ c) ++ c2), v, w. exists [lt; lt2]. split; [|split].
  - constructor; [by apply own_app|]. by constructor.
  - cbn. rewrite app_nil_r. apply NoDup_app. split; [done|]. split; [|done]. intros x Hxa Hxb.
    pose proof (own_lt _ _ _ HO Hxa). specialize (Hx2 _ Hxb). lia.
  - cbn. by rewrite Hr, He, Hr2, He2.
Qed.
Lemma map_no_payload m p : ¬ payload (AMap m) p.
Proof. inversion 1. Qed.
Lemma patch_case : exists h' h'' v,
  apply_patch pheap proot [Op OReplace "a" (n1 2) 9] = (h', Ok v) ∧
  apply_patch h' proot [Op ORemove "b/c" ANil 10] = (h'', Ok v).
Proof. eexists _, _, _. split; [vm_compute; reflexivity|]. vm_compute. reflexivity. Qed.
