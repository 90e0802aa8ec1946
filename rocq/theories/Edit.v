(** An operation below a node is an operation on that node. *)
From Verif Require Import Base BaseSpec BaseSpecLemmas F64 Tson TsonInd BaseLemmas Heap HeapSpec Patch Own PatchSpec TreePatch PatchLemmas LogLemmas EditSpec.
From Coq Require Import Lia.

Lemma ptrav_ext op op' : op_kind op' = op_kind op -> op_value op' = op_value op -> op_ts op' = op_ts op ->
  forall parts t, ptrav op' parts t = ptrav op parts t.
Proof.
  intros E1 E2 E3. induction parts as [|part rest IH]; intros t; [done|].
  rewrite !ptrav_cons, E1, E2, E3. destruct t as [|p ts|m|xs]; [done|done| |].
  - destruct rest as [|next rest]; [done|]. destruct (alookup part m) as [[|p ts|m'|ys]|].
    + destruct (is_set _); [|done]. destruct (parse_int next); by rewrite IH.
    + done.
    + by rewrite IH.
    + destruct (parse_int next) as [idx|]; [|done]. by rewrite IH.
    + destruct (is_set _); [|done]. destruct (parse_int next); by rewrite IH.
  - destruct (parse_int part) as [idx|]; [|done]. destruct (_ && _); [done|]. destruct rest as [|next rest]; [done|].
    destruct (idx <? 0); [done|]. by rewrite IH.
Qed.
Lemma does_ptrav op t : does op t (snd (ptrav op (op_parts (op_path op)) t)) (fst (ptrav op (op_parts (op_path op)) t)).
Proof.
  intros h v h' x HD E. pose proof (apply_operation_doc _ _ _ _ _ _ HD E) as H.
  destruct (ptrav _ _ _) as [t' [[]| |]]; cbn [fst snd]; destruct x; try done. by destruct H.
Qed.
Lemma does_fun op t r t' : does op t r t' -> ptrav op (op_parts (op_path op)) t = (t', r).
Proof.
  intros H. destruct (alloc_tree [] t) as [h v] eqn:Ea. apply alloc_tree_doc in Ea.
  destruct (apply_operation h v op) as [h' x] eqn:E. specialize (H _ _ _ _ Ea E).
  pose proof (does_ptrav op t _ _ _ _ Ea E) as H'. destruct (ptrav _ _ _) as [t2 r2]. cbn [fst snd] in *.
  assert (Hr : r2 = r) by (destruct r as [[]| |], r2 as [[]| |], x; done). subst r2. f_equal.
  assert (U : forall v0, doc_of h' v0 t' -> doc_of h' v0 t2 -> t2 = t').
  { intros v0 D1 D2. apply read_doc in D1, D2. congruence. }
  destruct r as [[]| |], x; try done; by eapply U.
Qed.
Lemma does_eq op t r t' : ptrav op (op_parts (op_path op)) t = (t', r) -> does op t r t'.
Proof. intros E. pose proof (does_ptrav op t) as H. by rewrite E in H. Qed.

Lemma does_total op t : exists r t', does op t r t'.
Proof. eexists _, _. apply does_ptrav. Qed.
Lemma does_unique op t r1 t1 r2 t2 : does op t r1 t1 -> does op t r2 t2 -> r1 = r2 ∧ t1 = t2.
Proof. intros H1%does_fun H2%does_fun. rewrite H1 in H2. by injection H2 as -> ->. Qed.

Lemma below_parts k op op' : below k op op' -> (forall t, ptrav op' (op_parts (op_path op')) t = ptrav op (op_parts (op_path op')) t) ∧
  op_parts (op_path op) = k :: op_parts (op_path op') ∧ exists k2 ks, op_parts (op_path op') = k2 :: ks ∧ spells (op_path op') (k2 :: ks).
Proof.
  intros (E1 & E2 & E3 & ks & Hs & Hs'). split; [intros t; by apply ptrav_ext|].
  rewrite (spells_parts _ _ Hs), (spells_parts _ _ Hs'). split; [done|].
  destruct ks as [|k2 ks]; [by inversion Hs|]. by exists k2, ks.
Qed.
Lemma edit_member k op op' m c r t' : below k op op' -> alookup k m = Some (TObj c) -> does op' (TObj c) r t' ->
  exists m', does op (TObj m) r (TObj m') ∧ alookup k m' = Some (left_over r t') ∧ forall k', k' <> k -> alookup k' m' = alookup k' m.
Proof.
  intros HB Ek H%does_fun. destruct (below_parts _ _ _ HB) as (Hx & Hp & k2 & ks & Ep & _).
  exists (ainsert k (left_over r t') m). split; [|split; [apply alookup_ainsert_eq|intros; by rewrite alookup_ainsert_ne]].
  apply does_eq. rewrite Hp, Ep, ptrav_cons. cbv beta iota. rewrite Ek, <- Ep, <- Hx, H. by destruct r as [[]| |].
Qed.
Lemma edit_new k n ks op op' m t r t' : below k op op' -> spells (op_path op') (n :: ks) -> alookup k m = None ∨ alookup k m = Some TNil -> writes op ->
  (t = TObj [] ∧ (forall z, ~ int_text n z)) ∨ (t = TArr [] ∧ exists z, int_text n z) -> does op' t r t' ->
  exists m', does op (TObj m) r (TObj m') ∧ alookup k m' = Some (left_over r t') ∧ forall k', k' <> k -> alookup k' m' = alookup k' m.
Proof.
  intros HB Hn Ek Hw Ht H%does_fun. destruct (below_parts _ _ _ HB) as (Hx & Hp & k2 & ks2 & Ep & Hs2).
  assert (k2 = n) as -> by (apply spells_parts in Hn; congruence).
  exists (ainsert k (left_over r t') m). split; [|split; [apply alookup_ainsert_eq|intros; by rewrite alookup_ainsert_ne]].
  assert (Hset : is_set (op_kind op) = true) by (by destruct Hw as [->| ->]).
  apply does_eq. rewrite Hp, Ep, ptrav_cons. cbv beta iota. rewrite Hset.
  assert (E : match parse_int n with
     | Some _ => put_back m k (ptrav op (n :: ks2) (TArr []))
     | None => put_back m k (ptrav op (n :: ks2) (TObj [])) end = (TObj (ainsert k (left_over r t') m), r)).
  { destruct Ht as [[-> Hz%parse_int_none]|[-> [z Hz%parse_int_spec]]]; rewrite Hz, <- Ep, <- Hx, H; by destruct r as [[]| |]. }
  by destruct Ek as [->| ->].
Qed.
Lemma edit_absent k op op' m : below k op op' -> alookup k m = None ∨ alookup k m = Some TNil -> ~ writes op ->
  does op (TObj m) Err (TObj m).
Proof.
  intros HB Ek Hw. destruct (below_parts _ _ _ HB) as (Hx & Hp & k2 & ks2 & Ep & Hs2).
  assert (Hset : is_set (op_kind op) = false) by (unfold writes in Hw; destruct (op_kind op); try done; destruct Hw; auto).
  apply does_eq. rewrite Hp, Ep, ptrav_cons. cbv beta iota. rewrite Hset. by destruct Ek as [->| ->].
Qed.
Lemma edit_leaf k op op' m p ts : below k op op' -> alookup k m = Some (TLeaf p ts) -> does op (TObj m) Panic (TObj m).
Proof.
  intros HB Ek. destruct (below_parts _ _ _ HB) as (Hx & Hp & k2 & ks2 & Ep & Hs2).
  apply does_eq. rewrite Hp, Ep, ptrav_cons. cbv beta iota. by rewrite Ek.
Qed.
Lemma edit_element i idx op op' xs y r t' : below i op op' -> int_text i (Z.of_nat idx) -> xs !! idx = Some y -> does op' y r t' ->
  does op (TArr xs) r (TArr (<[idx := left_over r t']> xs)).
Proof.
  intros HB Hi%parse_int_spec Ey H%does_fun. destruct (below_parts _ _ _ HB) as (Hx & Hp & k2 & ks2 & Ep & Hs2).
  apply does_eq. rewrite Hp, Ep, ptrav_cons. cbv beta iota. rewrite Hi.
  assert (Hl := lookup_lt_Some _ _ _ Ey). unfold pad.
  destruct (Z.leb_spec (Z.of_nat (length xs)) (Z.of_nat idx)) as [Hz|_]; [lia|]. cbn [andb].
  destruct (Z.ltb_spec (Z.of_nat idx) 0) as [Hz|_]; [lia|]. rewrite Nat2Z.id, Ey. cbn [default id].
  rewrite <- Ep, <- Hx, H. by destruct r as [[]| |].
Qed.
Lemma edit_outside i idx op op' xs : below i op op' -> int_text i (Z.of_nat idx) -> (length xs <= idx)%nat -> does op (TArr xs) Err (TArr xs).
Proof.
  intros HB Hi%parse_int_spec Hl. destruct (below_parts _ _ _ HB) as (Hx & Hp & k2 & ks2 & Ep & Hs2).
  apply does_eq. rewrite Hp, Ep, ptrav_cons. cbv beta iota. rewrite Hi.
  destruct (Z.leb_spec (Z.of_nat (length xs)) (Z.of_nat idx)) as [Hz|?]; [|lia]. cbn [andb].
  destruct (negb _); [done|]. destruct (Z.ltb_spec (Z.of_nat idx) 0) as [Hz'|_]; [lia|]. rewrite Nat2Z.id.
  assert (En : default TNil (pad xs (Z.of_nat idx) !! idx) = TNil).
  { unfold pad. destruct (Z.leb_spec (Z.of_nat (length xs)) (Z.of_nat idx)) as [_|?]; [|lia].
    rewrite lookup_app_r by done. rewrite Nat2Z.id. by rewrite lookup_replicate_2 by lia. }
  rewrite En. cbn [ptrav]. by rewrite list_insert_ge.
Qed.
Lemma does_only op t : exists r t', does op t r t' ∧ forall r2 t2, does op t r2 t2 -> r2 = r ∧ t2 = t'.
Proof.
  destruct (does_total op t) as (r & t' & H). exists r, t'. split; [done|]. intros r2 t2 H2. by eapply does_unique.
Qed.
Lemma edit_stuck k op op' : below k op op' ->
  (forall p ts, does op (TLeaf p ts) (Ok tt) (TLeaf p ts)) ∧ does op TNil Err TNil ∧
  (forall xs, (forall z, ~ int_text k z) -> does op (TArr xs) Err (TArr xs)) ∧
  (forall xs z, int_text k z -> z < 0 -> does op (TArr xs) Panic (TArr xs)).
Proof.
  intros HB. destruct (below_parts _ _ _ HB) as (Hx & Hp & k2 & ks2 & Ep & Hs2).
  split; [intros; apply does_eq; by rewrite Hp|]. split; [apply does_eq; by rewrite Hp|]. split.
  - intros xs Hz%parse_int_none. apply does_eq. rewrite Hp, ptrav_cons. cbv beta iota. by rewrite Hz.
  - intros xs z Hz%parse_int_spec Hneg. apply does_eq. rewrite Hp, Ep, ptrav_cons. cbv beta iota. rewrite Hz. unfold pad.
    destruct (Z.leb_spec (Z.of_nat (length xs)) z) as [H|_]; [lia|]. cbn [andb].
    destruct (Z.ltb_spec z 0) as [_|H]; [done|lia].
Qed.
