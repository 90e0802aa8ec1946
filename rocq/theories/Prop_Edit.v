(** C100: editing below a node is editing that node. *)
From Verif Require Import Base BaseSpec F64 Tson Heap HeapSpec Patch PatchSpec PatchDemo EditSpec Edit EditDemo.

(** C100: what an operation does to a document is given by the content of the document, and by nothing else. *)
Theorem C100_content : forall op t, exists r t', does op t r t' ∧ forall r2 t2, does op t r2 t2 -> r2 = r ∧ t2 = t'.
Proof. exact does_only. Qed.
Print Assumptions C100_content.
Example C100_content_case : does (edit_at "b/x") pdoc (Ok tt)
  (TObj [("a", nleaf 1 5); ("b", TObj [("c", TLeaf (PStr "x") 6); ("x", nleaf 5 9)]); ("l", TArr [nleaf 1 7; nleaf 2 8])]).
Proof. exact case_content. Qed.

(** C100: below a member that is an object it does what it does to that object, with the rest of the path; a
    failure leaves null in its place.  The other members stay as they are. *)
Theorem C100_member : forall k op op' m c r t', below k op op' -> alookup k m = Some (TObj c) -> does op' (TObj c) r t' ->
  exists m', does op (TObj m) r (TObj m') ∧ alookup k m' = Some (left_over r t') ∧ forall k', k' <> k -> alookup k' m' = alookup k' m.
Proof. exact edit_member. Qed.
Print Assumptions C100_member.
Example C100_member_case : below "b" (edit_at "b/x/y") (edit_at "x/y") ∧
  alookup "b" [("a", nleaf 1 5); ("b", TObj [("c", TLeaf (PStr "x") 6)])] = Some (TObj [("c", TLeaf (PStr "x") 6)]) ∧
  does (edit_at "x/y") (TObj [("c", TLeaf (PStr "x") 6)]) (Ok tt) (TObj [("c", TLeaf (PStr "x") 6); ("x", TObj [("y", nleaf 5 9)])]).
Proof. exact case_member. Qed.
Example C100_member_failing : below "b" (drop_at "b/x/y") (drop_at "x/y") ∧
  alookup "b" [("a", nleaf 1 5); ("b", TObj [("c", TLeaf (PStr "x") 6)])] = Some (TObj [("c", TLeaf (PStr "x") 6)]) ∧
  does (drop_at "x/y") (TObj [("c", TLeaf (PStr "x") 6)]) Err (TObj [("c", TLeaf (PStr "x") 6)]) ∧
  does (drop_at "b/x/y") (TObj [("a", nleaf 1 5); ("b", TObj [("c", TLeaf (PStr "x") 6)])]) Err (TObj [("a", nleaf 1 5); ("b", TNil)]).
Proof. exact case_failing. Qed.

(** C100: adding and replacing below a member that is missing or null do what they do to an empty object, or to
    an empty array if the next name reads as a number. *)
Theorem C100_new : forall k n ks op op' m t r t', below k op op' -> spells (op_path op') (n :: ks) ->
  alookup k m = None ∨ alookup k m = Some TNil -> writes op ->
  (t = TObj [] ∧ forall z, ~ int_text n z) ∨ (t = TArr [] ∧ exists z, int_text n z) -> does op' t r t' ->
  exists m', does op (TObj m) r (TObj m') ∧ alookup k m' = Some (left_over r t') ∧ forall k', k' <> k -> alookup k' m' = alookup k' m.
Proof. exact edit_new. Qed.
Print Assumptions C100_new.
Example C100_new_case : below "l" (edit_at "l/0") (edit_at "0") ∧ spells (op_path (edit_at "0")) ["0"] ∧ alookup "l" [("a", nleaf 1 5)] = None ∧ writes (edit_at "l/0") ∧
  (exists z, int_text "0" z) ∧ does (edit_at "0") (TArr []) (Ok tt) (TArr [nleaf 5 9]).
Proof. exact case_new. Qed.

(** C100: every other operation fails there and changes nothing. *)
Theorem C100_absent : forall k op op' m, below k op op' -> alookup k m = None ∨ alookup k m = Some TNil -> ~ writes op ->
  does op (TObj m) Err (TObj m).
Proof. exact edit_absent. Qed.
Print Assumptions C100_absent.
Example C100_absent_case : below "z" (drop_at "z/x") (drop_at "x") ∧ alookup "z" [("a", nleaf 1 5)] = None ∧ ~ writes (drop_at "z/x").
Proof. exact case_absent. Qed.

(** C100: below a leaf every operation panics, and changes nothing. *)
Theorem C100_leaf : forall k op op' m p ts, below k op op' -> alookup k m = Some (TLeaf p ts) -> does op (TObj m) Panic (TObj m).
Proof. exact edit_leaf. Qed.
Print Assumptions C100_leaf.
Example C100_leaf_case : below "a" (edit_at "a/x") (edit_at "x") ∧ alookup "a" [("a", nleaf 1 5)] = Some (nleaf 1 5).
Proof. exact case_leaf. Qed.

(** C100: below an element of an array document it does what it does to that element. *)
Theorem C100_element : forall i idx op op' xs y r t', below i op op' -> int_text i (Z.of_nat idx) -> xs !! idx = Some y -> does op' y r t' ->
  does op (TArr xs) r (TArr (<[idx := left_over r t']> xs)).
Proof. exact edit_element. Qed.
Print Assumptions C100_element.
Example C100_element_case : below "0" (edit_at "0/x") (edit_at "x") ∧ int_text "0" (Z.of_nat 0) ∧ [TObj [("x", nleaf 1 5)]; nleaf 2 6] !! 0%nat = Some (TObj [("x", nleaf 1 5)]) ∧
  does (edit_at "x") (TObj [("x", nleaf 1 5)]) (Ok tt) (TObj [("x", nleaf 5 9)]).
Proof. exact case_element. Qed.

(** C100: below an element it does not have every operation fails, and changes nothing. *)
Theorem C100_outside : forall i idx op op' xs, below i op op' -> int_text i (Z.of_nat idx) -> (length xs <= idx)%nat -> does op (TArr xs) Err (TArr xs).
Proof. exact edit_outside. Qed.
Print Assumptions C100_outside.
Example C100_outside_case : below "0" (edit_at "0/x") (edit_at "x") ∧ int_text "0" (Z.of_nat 0) ∧ (length (@nil tson) <= 0)%nat.
Proof. exact case_outside. Qed.

(** C100: on a leaf an operation below it does nothing and succeeds; on null it fails; on an array a name that is
    no number fails and a negative number panics. *)
Theorem C100_stuck : forall k op op', below k op op' ->
  (forall p ts, does op (TLeaf p ts) (Ok tt) (TLeaf p ts)) ∧ does op TNil Err TNil ∧
  (forall xs, (forall z, ~ int_text k z) -> does op (TArr xs) Err (TArr xs)) ∧
  (forall xs z, int_text k z -> z < 0 -> does op (TArr xs) Panic (TArr xs)).
Proof. exact edit_stuck. Qed.
Print Assumptions C100_stuck.
Example C100_stuck_case : below "-1" (edit_at "-1/x") (edit_at "x") ∧ int_text "-1" (-1) ∧ below "b" (edit_at "b/x/y") (edit_at "x/y") ∧ forall z, ~ int_text "b" z.
Proof. exact case_stuck. Qed.

(** C100: below a member that is an array it need not do what it does to that array as a document. *)
Theorem C100_array_refuted : exists k op op' m xs t', below k op op' ∧ alookup k m = Some (TArr xs) ∧ does op' (TArr xs) (Ok tt) t' ∧
  ~ exists m', does op (TObj m) (Ok tt) (TObj m') ∧ alookup k m' = Some t'.
Proof. exact array_differs. Qed.
Print Assumptions C100_array_refuted.
