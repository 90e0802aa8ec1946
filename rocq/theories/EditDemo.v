(** Concrete cases and a witness for [Prop_Edit.v]. *)
From Verif Require Import Base BaseSpec BaseSpecLemmas F64 Tson BaseLemmas Heap HeapSpec Own Patch PatchSpec TreePatch PatchLemmas PatchDemo EditSpec Edit.

Definition edit_at (path : string) : operation := Op OReplace path (n1 5) 9.
Definition drop_at (path : string) : operation := Op ORemove path ANil 9.
Lemma spell_xy : spells "x/y" ["x"; "y"].
Proof. apply (sp_more "x" slash "y"); [plain_tac|by left|]. apply (sp_last "y"). plain_tac. Qed.
Lemma spell_one k : plain k -> escaped k = k -> spells k [k].
Proof. intros Hp He. pose proof (sp_last k Hp) as H. by rewrite He in H. Qed.
Lemma spell_two k path ks : plain k -> escaped k = k -> spells path ks -> spells (k +++ String slash path) (k :: ks).
Proof. intros Hp He Hs. pose proof (sp_more k slash path ks Hp (or_introl eq_refl) Hs) as H. by rewrite He in H. Qed.
Lemma spell_x : spells "x" ["x"].
Proof. apply spell_one; [plain_tac|done]. Qed.
Lemma spell_0x : spells "0/x" ["0"; "x"].
Proof. apply (spell_two "0" "x"); [plain_tac|done|apply spell_x]. Qed.
Lemma spell_0 : spells "0" ["0"].
Proof. apply spell_one; [plain_tac|done]. Qed.

Lemma below_edit k path ks : plain k -> escaped k = k -> spells path ks -> below k (edit_at (k +++ String slash path)) (edit_at path).
Proof. intros Hp He Hs. split; [done|]. split; [done|]. split; [done|]. exists ks. split; [done|]. by apply spell_two. Qed.
Lemma below_drop k path ks : plain k -> escaped k = k -> spells path ks -> below k (drop_at (k +++ String slash path)) (drop_at path).
Proof. intros Hp He Hs. split; [done|]. split; [done|]. split; [done|]. exists ks. split; [done|]. by apply spell_two. Qed.

(** {"b": {"c": "x"}} below "b", with a name that is new there *)
Lemma case_member : below "b" (edit_at "b/x/y") (edit_at "x/y") ∧
  alookup "b" [("a", nleaf 1 5); ("b", TObj [("c", TLeaf (PStr "x") 6)])] = Some (TObj [("c", TLeaf (PStr "x") 6)]) ∧
  does (edit_at "x/y") (TObj [("c", TLeaf (PStr "x") 6)]) (Ok tt) (TObj [("c", TLeaf (PStr "x") 6); ("x", TObj [("y", nleaf 5 9)])]).
Proof.
  split; [apply (below_edit "b" "x/y" ["x"; "y"]); [plain_tac|done|apply spell_xy]|]. split; [done|]. apply does_eq. by vm_compute.
Qed.
(** the same with an operation that fails *)
Lemma case_failing : below "b" (drop_at "b/x/y") (drop_at "x/y") ∧
  alookup "b" [("a", nleaf 1 5); ("b", TObj [("c", TLeaf (PStr "x") 6)])] = Some (TObj [("c", TLeaf (PStr "x") 6)]) ∧
  does (drop_at "x/y") (TObj [("c", TLeaf (PStr "x") 6)]) Err (TObj [("c", TLeaf (PStr "x") 6)]) ∧
  does (drop_at "b/x/y") (TObj [("a", nleaf 1 5); ("b", TObj [("c", TLeaf (PStr "x") 6)])]) Err (TObj [("a", nleaf 1 5); ("b", TNil)]).
Proof.
  split; [apply (below_drop "b" "x/y" ["x"; "y"]); [plain_tac|done|apply spell_xy]|]. split; [done|]. split; apply does_eq; by vm_compute.
Qed.
Lemma case_new : below "l" (edit_at "l/0") (edit_at "0") ∧ spells (op_path (edit_at "0")) ["0"] ∧ alookup "l" [("a", nleaf 1 5)] = None ∧ writes (edit_at "l/0") ∧
  (exists z, int_text "0" z) ∧ does (edit_at "0") (TArr []) (Ok tt) (TArr [nleaf 5 9]).
Proof.
  split; [apply (below_edit "l" "0" ["0"]); [plain_tac|done|apply spell_0]|]. split; [apply spell_0|]. split; [done|]. split; [by right|].
  split; [exists 0; by apply parse_int_spec|]. apply does_eq. by vm_compute.
Qed.
Lemma case_absent : below "z" (drop_at "z/x") (drop_at "x") ∧ alookup "z" [("a", nleaf 1 5)] = None ∧ ~ writes (drop_at "z/x").
Proof. split; [apply (below_drop "z" "x" ["x"]); [plain_tac|done|apply spell_x]|]. split; [done|]. by intros [?|?]. Qed.
Lemma case_leaf : below "a" (edit_at "a/x") (edit_at "x") ∧ alookup "a" [("a", nleaf 1 5)] = Some (nleaf 1 5).
Proof. split; [|done]. apply (below_edit "a" "x" ["x"]); [plain_tac|done|apply spell_x]. Qed.
Lemma case_element : below "0" (edit_at "0/x") (edit_at "x") ∧ int_text "0" (Z.of_nat 0) ∧ [TObj [("x", nleaf 1 5)]; nleaf 2 6] !! 0%nat = Some (TObj [("x", nleaf 1 5)]) ∧
  does (edit_at "x") (TObj [("x", nleaf 1 5)]) (Ok tt) (TObj [("x", nleaf 5 9)]).
Proof.
  split; [apply (below_edit "0" "x" ["x"]); [plain_tac|done|apply spell_x]|]. split; [by apply parse_int_spec|]. split; [done|]. apply does_eq. by vm_compute.
Qed.
Lemma case_outside : below "0" (edit_at "0/x") (edit_at "x") ∧ int_text "0" (Z.of_nat 0) ∧ (length (@nil tson) <= 0)%nat.
Proof. split; [apply (below_edit "0" "x" ["x"]); [plain_tac|done|apply spell_x]|]. split; [by apply parse_int_spec|done]. Qed.

Lemma array_differs : exists k op op' m xs t', below k op op' ∧ alookup k m = Some (TArr xs) ∧ does op' (TArr xs) (Ok tt) t' ∧
  ~ exists m', does op (TObj m) (Ok tt) (TObj m') ∧ alookup k m' = Some t'.
Proof.
  exists "l", (edit_at "l/0/x"), (edit_at "0/x"), [("l", TArr [TObj [("x", nleaf 1 5); ("y", nleaf 2 6)]])],
    [TObj [("x", nleaf 1 5); ("y", nleaf 2 6)]], (TArr [TObj [("x", nleaf 5 9); ("y", nleaf 2 6)]]).
  split; [apply (below_edit "l" "0/x" ["0"; "x"]); [plain_tac|done|apply spell_0x]|]. split; [done|]. split; [apply does_eq; by vm_compute|].
  intros (m' & H%does_fun & Hm). vm_compute in H. injection H as <-. by vm_compute in Hm.
Qed.
Lemma case_content : does (edit_at "b/x") pdoc (Ok tt)
  (TObj [("a", nleaf 1 5); ("b", TObj [("c", TLeaf (PStr "x") 6); ("x", nleaf 5 9)]); ("l", TArr [nleaf 1 7; nleaf 2 8])]).
Proof. apply does_eq. by vm_compute. Qed.
Lemma case_stuck : below "-1" (edit_at "-1/x") (edit_at "x") ∧ int_text "-1" (-1) ∧ below "b" (edit_at "b/x/y") (edit_at "x/y") ∧ forall z, ~ int_text "b" z.
Proof.
  split; [apply (below_edit "-1" "x" ["x"]); [plain_tac|done|apply spell_x]|]. split; [by apply parse_int_spec|].
  split; [apply (below_edit "b" "x/y" ["x"; "y"]); [plain_tac|done|apply spell_xy]|]. by apply parse_int_none.
Qed.
