(** Patches and logs over a document that is an array (C99). *)
From Verif Require Import Base BaseSpec BaseSpecLemmas F64 Tson Heap HeapSpec Patch PatchSpec PatchDemo Logument LogSpec ReplaySpec SnapAnySpec
  ArrayRootSpec ArrayRoot ArrayRootDemo.

(** C99: one operation sets an element, filling a gap with nulls, or removes one; the array
    handed in keeps its length. *)
Theorem C99_operation : forall h v xs op e, doc_of h v (TArr xs) -> edits op e -> fits (length xs) e ->
  exists h' r, apply_operation h v op = (h', Ok r) ∧ doc_of h' r (TArr (made xs e)) ∧
    (flat xs ∨ is_put e -> doc_of h' v (TArr (shown xs e))).
Proof. exact one_edit. Qed.
Print Assumptions C99_operation.
(** A patch gives the last edit of what the others leave visible in the array handed in. *)
Theorem C99_patch : forall ops es op e h v xs, doc_of h v (TArr xs) -> Forall2 edits ops es -> edits op e ->
  Forall (fits (length xs)) es -> fits (length xs) e -> flat xs ∨ Forall is_put es ->
  exists h' r, apply_patch h v (ops ++ [op]) = (h', Ok r) ∧ doc_of h' r (TArr (made (fold_left shown es xs) e)) ∧
    (flat xs ∨ is_put e -> doc_of h' v (TArr (fold_left shown (es ++ [e]) xs))).
Proof. exact patch_edits. Qed.
Print Assumptions C99_patch.
Example C99_patch_case : doc_of aheap aroot (TArr items) ∧
  Forall2 edits [drop0; grow2; set0] [Cut 0; Put 2 (nleaf 3 20); Put 0 (nleaf 9 20)] ∧ edits grow3 (Put 3 (nleaf 4 21)) ∧
  Forall (fits (length items)) [Cut 0; Put 2 (nleaf 3 20); Put 0 (nleaf 9 20)] ∧ flat items.
Proof. exact patch_case. Qed.
(** So the last operation alone decides how long the result is. *)
Theorem C99_length : forall ops es op e h v xs, doc_of h v (TArr xs) -> Forall2 edits ops es -> edits op e ->
  Forall (fits (length xs)) es -> fits (length xs) e -> flat xs ∨ Forall is_put es ->
  exists h' r ys, apply_patch h v (ops ++ [op]) = (h', Ok r) ∧ doc_of h' r (TArr ys) ∧
    length ys = match e with Put i _ => Nat.max (length xs) (S i) | Cut _ => (length xs - 1)%nat end.
Proof. exact last_decides. Qed.
Print Assumptions C99_length.
(** Edits within the array all take effect, one after the other, in place. *)
Theorem C99_inside : forall ops es h v xs, doc_of h v (TArr xs) -> Forall2 edits ops es -> ops <> [] ->
  Forall (fun e => exists i x, e = Put i x ∧ (i < length xs)%nat) es ->
  exists h', apply_patch h v ops = (h', Ok v) ∧ doc_of h' v (TArr (fold_left made es xs)).
Proof. exact inside_all. Qed.
Print Assumptions C99_inside.
Example C99_inside_case : doc_of aheap aroot (TArr items) ∧
  Forall2 edits [set0; set0] [Put 0 (nleaf 9 20); Put 0 (nleaf 9 20)] ∧ (0 < length items)%nat.
Proof. exact inside_case. Qed.
(** Other patches are not the sequence of their operations. *)
Theorem C99_growth_refuted : exists h' r ys, doc_of aheap aroot (TArr items) ∧
  Forall2 edits [grow2; grow3] [Put 2 (nleaf 3 20); Put 3 (nleaf 4 21)] ∧
  apply_patch aheap aroot [grow2; grow3] = (h', Ok r) ∧ read h' r = Some (TArr ys) ∧
  ys = [nleaf 1 5; nleaf 2 6; TNil; nleaf 4 21] ∧
  fold_left made [Put 2 (nleaf 3 20); Put 3 (nleaf 4 21)] items = [nleaf 1 5; nleaf 2 6; nleaf 3 20; nleaf 4 21].
Proof. exact growth_lost. Qed.
Print Assumptions C99_growth_refuted.
Theorem C99_removal_refuted : exists h' r ys, doc_of aheap aroot (TArr items) ∧
  Forall2 edits [drop0; set0] [Cut 0; Put 0 (nleaf 9 20)] ∧
  apply_patch aheap aroot [drop0; set0] = (h', Ok r) ∧ read h' r = Some (TArr ys) ∧
  ys = [nleaf 9 20; nleaf 2 6] ∧ fold_left made [Cut 0; Put 0 (nleaf 9 20)] items = [nleaf 9 20].
Proof. exact removal_lost. Qed.
Print Assumptions C99_removal_refuted.

(** The same holds for all operations between the latest snapshot and the version asked for,
    over any number of versions. *)
Theorem C99_snapshot : forall v w s h L xs ops op es e, reachable (h, L) -> v ∈ l_version L -> base_of L v w -> (w < v)%N ->
  l_snapshots L !! w = Some s -> doc_of h s (TArr xs) -> patch_at L v <> [] ->
  ops_between L (w + 1) (v + 1) = ops ++ [op] -> Forall2 edits ops es -> edits op e ->
  Forall (fits (length xs)) es -> fits (length xs) e -> flat xs ∨ Forall is_put es ->
  exists h' r, snapshot v (h, L) = ((h', with_snapshots L (<[v := r]> (l_snapshots L))), Ok r) ∧
    doc_of h' r (TArr (made (fold_left shown es xs) e)) ∧
    (flat xs ∨ is_put e -> doc_of h' s (TArr (fold_left shown (es ++ [e]) xs))).
Proof. exact array_snapshot. Qed.
Print Assumptions C99_snapshot.
Example C99_snapshot_case : reachable ast ∧ 2%N ∈ l_version (snd ast) ∧ base_of (snd ast) 2 0 ∧ l_snapshots (snd ast) !! 0%N = Some aroot ∧
  doc_of (fst ast) aroot (TArr items) ∧ patch_at (snd ast) 2 <> [] ∧ ops_between (snd ast) (0 + 1) (2 + 1) = [grow2] ++ [grow3] ∧
  Forall2 edits [grow2] [Put 2 (nleaf 3 20)] ∧ edits grow3 (Put 3 (nleaf 4 21)).
Proof. exact snapshot_case. Qed.
(** So the answer depends on which versions were asked for before. *)
Theorem C99_order_refuted : exists st st1 st2 st3 s1 r2 r3, reachable st ∧
  snapshot 2 st = (st2, Ok r2) ∧ read (fst st2) r2 = Some (TArr [nleaf 1 5; nleaf 2 6; TNil; nleaf 4 21]) ∧
  snapshot 1 st = (st1, Ok s1) ∧ snapshot 2 st1 = (st3, Ok r3) ∧
  read (fst st3) r3 = Some (TArr [nleaf 1 5; nleaf 2 6; nleaf 3 20; nleaf 4 21]).
Proof. exact order_matters. Qed.
Print Assumptions C99_order_refuted.
(** Set calls do work one after the other on the current document. *)
Theorem C99_sets : forall ops es h L xs, doc_of h (l_current L) (TArr xs) -> Forall2 edits ops es -> Forall is_put es ->
  exists h' cur, run (h, L) (map CSet ops) =
      (h', with_pool (with_current L cur) (match ops with [] => l_pool L | _ => Some (default [] (l_pool L) ++ ops) end)) ∧
    doc_of h' cur (TArr (fold_left made es xs)).
Proof. exact set_edits. Qed.
Print Assumptions C99_sets.
Example C99_sets_case : doc_of aheap (l_current alog) (TArr items) ∧
  Forall2 edits [grow2; grow3] [Put 2 (nleaf 3 20); Put 3 (nleaf 4 21)] ∧ Forall is_put [Put 2 (nleaf 3 20); Put 3 (nleaf 4 21)].
Proof. exact sets_case. Qed.
(** The snapshot of the version made from them is another array. *)
Theorem C99_current_refuted : exists st st1 r, reachable st ∧
  read (fst st) (l_current (snd st)) = Some (TArr [nleaf 1 5; nleaf 2 6; nleaf 3 20; nleaf 4 21]) ∧
  snapshot 1 st = (st1, Ok r) ∧ read (fst st1) r = Some (TArr [nleaf 1 5; nleaf 2 6; TNil; nleaf 4 21]).
Proof. exact set_differs. Qed.
Print Assumptions C99_current_refuted.
(** TemporalSnapshot has two answers, depending on the iteration order of a map. *)
Theorem C99_temporal_refuted : exists st o1 o2 st1 st2 r1 r2, reachable st ∧ oracle_ok o1 ∧ oracle_ok o2 ∧
  temporal_snapshot o1 30 st = (st1, Ok r1) ∧ read (fst st1) r1 = Some (TArr [nleaf 1 5; nleaf 2 6; TNil; nleaf 4 21]) ∧
  temporal_snapshot o2 30 st = (st2, Ok r2) ∧ read (fst st2) r2 = Some (TArr [nleaf 1 5; nleaf 2 6; nleaf 3 20]).
Proof. exact temporal_two. Qed.
Print Assumptions C99_temporal_refuted.
