(** Concrete cases and witnesses for [Prop_Diff.v], and the statements assembled from the
    lemmas. *)
From Verif Require Import Base BaseSpec BaseSpecLemmas F64 Tson TsonInd TsonSpec TextSpec BaseLemmas TsonLemmas Heap HeapSpec Own Patch PatchSpec TreePatch
  PatchLemmas PatchDemo Diff DiffSpec DiffLemmas ArrayDiff DiffPaths DiffApply.
From Coq Require Import Lia.

(** ** Assembled statements *)
Lemma never_transforms m m' ops h l h' v t : wf (TObj m) -> wf (TObj m') -> generate_patch (TObj m) (TObj m') = Ok ops ->
  doc_of h (VObj l) (TObj m) -> apply_patch h (VObj l) ops = (h', Ok v) -> doc_of h' v t ->
  same_values t (TObj m') -> forall k, k <> "" -> member_same m m' k.
Proof.
  intros Ha Hb E HD Ea HD' Hs k Hk.
  destruct (apply_generated false m m' ops h l h' (Ok v) Ha Hb E HD Ea) as (m1 & HD1 & H1).
  pose proof (apply_patch_doc _ _ _ _ _ _ HD Ea) as HX.
  destruct (papply (TObj m) ops) as [t1 [[]| |]]; try done. destruct HX as [_ ->].
  destruct (decide (ops = [])).
  { destruct HD' as (lt & _ & Er & Et). destruct lt; try done. cbn in Et. subst t. inversion Hs. }
  apply read_doc in HD1, HD'. rewrite HD1 in HD'. injection HD' as <-.
  inversion Hb as [| |? ND HF|]; subst. pose proof (same_values_member _ _ k ND Hs) as H2.
  unfold member_same in *. by rewrite <- H1.
Qed.
Lemma generated_describes a b ops p : wf a -> wf b -> generate_patch a b = Ok ops -> p ∈ ops ->
  exists q, op_path p = written q ∧
   ((op_kind p = ORemove ∧ op_value p = ANil ∧ gone a b q) ∨
    (exists x ts, at_path b q = Some (TLeaf x ts) ∧ carries p x ts)).
Proof. intros Ha Hb E Hp. exact (generated_ok false b a [] ops p Hb Ha E Hp). Qed.
Lemma generated_describes_ts a b ops p : wf a -> wf b -> generate_patch_with_timestamp a b = Ok ops -> p ∈ ops ->
  exists q, op_path p = written q ∧
   ((op_kind p = ORemove ∧ op_value p = ANil ∧ gone a b q) ∨
    (exists x ts, at_path b q = Some (TLeaf x ts) ∧ carries p x ts)).
Proof. intros Ha Hb E Hp. exact (generated_ok true b a [] ops p Hb Ha E Hp). Qed.
Lemma removed_listed a b q m m' k ops : generate_patch a b = Ok ops -> meets a b q (TObj m) (TObj m') ->
  is_Some (alookup k m) -> alookup k m' = None ->
  exists p, p ∈ ops ∧ op_kind p = ORemove ∧ op_path p = written (q ++ [Key k]).
Proof. intros E HM H1 H2. exact (removed_member false q a b [] ops k m m' HM H1 H2 E). Qed.
Lemma array_difference a b q os ms ops : generate_patch a b = Ok ops -> meets a b q (TArr os) (TArr ms) ->
  length os <> length ms -> Forall fine os -> Forall fine ms ->
  exists M adds, matching os ms M ∧
    block (map (fun i => Op ORemove (written (q ++ [Elem i])) ANil 0) (reverse (leftover (length os) (map fst M))) ++ adds) ops ∧
    Forall2 (fun j p => exists x ts, ms !! j = Some (TLeaf x ts) ∧ op_kind p = OAdd ∧ op_path p = written (q ++ [Elem j]) ∧ carries p x ts)
      (leftover (length ms) (map snd M)) adds.
Proof.
  intros E HM Hl H1 H2. destruct (generated_block false q _ _ _ _ [] ops HM eq_refl E) as (sub & Es & B).
  cbn [app] in Es. rewrite handle_arr in Es. apply Nat.eqb_neq in Hl. rewrite Hl in Es.
  destruct (compare_array_spec os ms q H1 H2) as (M & HM' & HX). rewrite Es in HX. destruct HX as (adds & -> & HA).
  exists M, adds. split; [done|]. split; [done|]. exact HA.
Qed.

(** ** Documents that differ in a member, a nested member, an array element and a removed
    member *)
Definition da : list (string * tson) :=
  [("a", nleaf 1 5); ("b", TObj [("c", TLeaf (PStr "x") 6); ("d", TLeaf (PBool true) 6)]); ("l", TArr [nleaf 1 7; nleaf 2 8])].
Definition db : list (string * tson) :=
  [("b", TObj [("c", TLeaf (PStr "y") 9)]); ("l", TArr [nleaf 1 7; nleaf 3 9]); ("n", nleaf 4 9)].
Definition dops : list operation :=
  [Op OReplace "/b/c" (AStr "y") 9; Op ORemove "/b/d" ANil 6; Op OReplace "/l/1" (n1 3) 9; Op OAdd "/n" (n1 4) 9; Op ORemove "/a" ANil 5].
Definition dheap : heap := fst (alloc_tree [] (TObj da)).
Definition dloc : loc := match snd (alloc_tree [] (TObj da)) with VObj l => l | _ => 0%nat end.
Lemma da_ok : doc_of dheap (VObj dloc) (TObj da).
Proof. apply (alloc_tree_doc [] (TObj da)). reflexivity. Qed.
Ltac keys_tac := repeat (apply NoDup_cons_2; [cbn; repeat (apply not_elem_of_cons; split; [done|]); apply not_elem_of_nil|]); apply NoDup_nil_2.
Ltac wf_tac := repeat first [apply wf_nil | apply wf_leaf | apply wf_arr | apply wf_obj; [keys_tac|] | apply List.Forall_cons; cbn [snd] | apply List.Forall_nil].
Lemma da_wf : wf (TObj da).
Proof. unfold da, nleaf. wf_tac. Qed.
Lemma db_wf : wf (TObj db).
Proof. unfold db, nleaf. wf_tac. Qed.
Ltac nf_tac := repeat first [apply nf_nil | apply nf_str | apply nf_bool | apply nf_num; reflexivity | apply nf_arr | apply nf_obj | apply List.Forall_cons; cbn [snd] | apply List.Forall_nil].
Lemma db_nan : nan_free (TObj db).
Proof. unfold db, nleaf. nf_tac. Qed.
Ltac wn_tac := repeat first [apply wn_nil | apply wn_leaf | apply wn_arr | apply wn_obj
  | apply List.Forall_nil | apply List.Forall_cons; [split; [split; [done|plain_tac]|cbn [snd]]|] | apply List.Forall_cons].
Lemma da_named : well_named (TObj da).
Proof. unfold da, nleaf. wn_tac. Qed.
Lemma db_named : well_named (TObj db).
Proof. unfold db, nleaf. wn_tac. Qed.
Ltac nocont := intros [[? ?]|[? ?]]; discriminate.
Lemma d_bridged wt : bridged wt (TObj da) (TObj db).
Proof.
  apply br_obj. intros k u v Hu Hv. unfold da, db in *. cbn [alookup] in Hu, Hv.
  repeat case_decide; simplify_eq; try (apply br_scalar; nocont).
  - apply br_obj. intros k u v Hu Hv. cbn [alookup] in Hu, Hv. repeat case_decide; simplify_eq; apply br_scalar; nocont.
  - apply br_arr; [|done]. repeat apply List.Forall2_cons; try apply List.Forall2_nil; left; nocont.
Qed.
Lemma d_gen : generate_patch (TObj da) (TObj db) = Ok dops.
Proof. vm_compute. reflexivity. Qed.
Lemma d_gen_ts : generate_patch_with_timestamp (TObj da) (TObj db) = Ok dops.
Proof. vm_compute. reflexivity. Qed.
Lemma d_meets : meets (TObj da) (TObj db) [Key "b"] (TObj [("c", TLeaf (PStr "x") 6); ("d", TLeaf (PBool true) 6)]) (TObj [("c", TLeaf (PStr "y") 9)]).
Proof. eapply ms_member; [reflexivity|reflexivity|apply ms_here]. Qed.
Lemma dops_ne : dops <> [].
Proof. done. Qed.
Lemma d_differs : ~ member_same da db "n".
Proof. exact (fun H => H). Qed.

(** ** Arrays whose length changes: 1, {k}, 3 to {k}, 4, 5, 6, and 1, 2, 3, 3 to 1, 3, 3; and an array with an object
    that stays *)
Definition ta : list (string * tson) :=
  [("l", TArr [nleaf 1 7; TObj [("k", nleaf 2 1)]; nleaf 3 8]); ("p", TArr [TObj [("k", nleaf 1 1)]; nleaf 5 1])].
Definition tb : list (string * tson) :=
  [("p", TArr [TObj [("k", nleaf 1 1)]; nleaf 6 2]); ("l", TArr [TObj [("k", nleaf 2 1)]; nleaf 4 9; nleaf 5 9; nleaf 6 9])].
Definition tops : list operation :=
  [Op OReplace "/p/1" (n1 6) 2; Op ORemove "/l/2" ANil 0; Op ORemove "/l/0" ANil 0; Op OAdd "/l/1" (n1 4) 9; Op OAdd "/l/2" (n1 5) 9; Op OAdd "/l/3" (n1 6) 9].
Definition ra : list (string * tson) := [("l", TArr [nleaf 1 7; nleaf 2 8; nleaf 3 8; nleaf 3 8])].
Definition rb : list (string * tson) := [("l", TArr [nleaf 1 7; nleaf 3 8; nleaf 3 9])].
Definition rops : list operation :=
  [Op ORemove "/l/3" ANil 0; Op ORemove "/l/1" ANil 0; Op OReplace "/l/1" (n1 3) 8; Op OReplace "/l/2" (n1 3) 9].
Definition theap : heap := fst (alloc_tree [] (TObj ta)).
Definition tloc : loc := match snd (alloc_tree [] (TObj ta)) with VObj l => l | _ => 0%nat end.
Lemma ta_ok : doc_of theap (VObj tloc) (TObj ta).
Proof. apply (alloc_tree_doc [] (TObj ta)). reflexivity. Qed.
Definition rheap : heap := fst (alloc_tree [] (TObj ra)).
Definition rloc : loc := match snd (alloc_tree [] (TObj ra)) with VObj l => l | _ => 0%nat end.
Lemma ra_ok : doc_of rheap (VObj rloc) (TObj ra).
Proof. apply (alloc_tree_doc [] (TObj ra)). reflexivity. Qed.
Lemma ta_wf : wf (TObj ta).
Proof. unfold ta, nleaf. wf_tac. Qed.
Lemma tb_wf : wf (TObj tb).
Proof. unfold tb, nleaf. wf_tac. Qed.
Lemma ra_wf : wf (TObj ra).
Proof. unfold ra, nleaf. wf_tac. Qed.
Lemma rb_wf : wf (TObj rb).
Proof. unfold rb, nleaf. wf_tac. Qed.
Lemma tb_nan : nan_free (TObj tb).
Proof. unfold tb, nleaf. nf_tac. Qed.
Lemma rb_nan : nan_free (TObj rb).
Proof. unfold rb, nleaf. nf_tac. Qed.
Lemma ta_named : well_named (TObj ta).
Proof. unfold ta, nleaf. wn_tac. Qed.
Lemma tb_named : well_named (TObj tb).
Proof. unfold tb, nleaf. wn_tac. Qed.
Lemma ra_named : well_named (TObj ra).
Proof. unfold ra, nleaf. wn_tac. Qed.
Lemma rb_named : well_named (TObj rb).
Proof. unfold rb, nleaf. wn_tac. Qed.
Lemma same_of_deep a b : wf a -> wf b -> tson_deep_eq a b = true -> same_content a b.
Proof. intros Ha Hb. by apply deep_eq_same. Qed.
Lemma differ_of_deep a b : wf a -> wf b -> tson_deep_eq a b = false -> ~ same_content a b.
Proof. intros Ha Hb E HS. apply deep_eq_same in HS; [congruence|done|done]. Qed.
Lemma t_bridged : bridged false (TObj ta) (TObj tb).
Proof.
  apply br_obj. intros k u v Hu Hv. unfold ta, tb in *. cbn [alookup] in Hu, Hv.
  repeat case_decide; simplify_eq.
  - apply br_arr; [|done]. apply List.Forall2_cons; [right|apply List.Forall2_cons; [left; nocont|apply List.Forall2_nil]].
    apply (generate_empty _ (TObj [("k", nleaf 1 1)])); [unfold nleaf; wf_tac..|]. vm_compute. reflexivity.
  - apply br_uneven; [discriminate| |done|done]. cbv iota.
    apply tr_drop.
    { intros v Hv. repeat (apply elem_of_cons in Hv as [->|Hv]; [apply differ_of_deep; [unfold nleaf; wf_tac..|vm_compute; reflexivity]|]). by apply elem_of_nil in Hv. }
    apply tr_keep; [apply same_of_deep; [unfold nleaf; wf_tac..|vm_compute; reflexivity]|].
    apply tr_drop; [|apply tr_end].
    intros v Hv. repeat (apply elem_of_cons in Hv as [->|Hv]; [apply differ_of_deep; [unfold nleaf; wf_tac..|vm_compute; reflexivity]|]). by apply elem_of_nil in Hv.
Qed.
Lemma r_bridged : bridged true (TObj ra) (TObj rb).
Proof.
  apply br_obj. intros k u v Hu Hv. unfold ra, rb in *. cbn [alookup] in Hu, Hv.
  repeat case_decide; simplify_eq. apply br_uneven; [discriminate| |done|done]. cbv iota.
  apply pa_keep; [apply same_of_deep; [unfold nleaf; wf_tac..|vm_compute; reflexivity]|]. apply pa_apart.
  - intros v Hv. repeat (apply elem_of_cons in Hv as [->|Hv]; [by eexists _, _|]). by apply elem_of_nil in Hv.
  - intros [|[|i]] u v Hu Hv; try done; injection Hu as <-; injection Hv as <-; (apply differ_of_deep; [unfold nleaf; wf_tac..|vm_compute; reflexivity]).
Qed.
Lemma t_gen : generate_patch (TObj ta) (TObj tb) = Ok tops.
Proof. vm_compute. reflexivity. Qed.
Lemma r_gen : generate_patch_with_timestamp (TObj ra) (TObj rb) = Ok rops.
Proof. vm_compute. reflexivity. Qed.
Lemma tops_ne : tops <> [].
Proof. done. Qed.
Lemma rops_ne : rops <> [].
Proof. done. Qed.

(** 1, 2, 1 to 2, 1 is no trimmed pair: the last element is removed. *)
Definition xos : list tson := [nleaf 1 7; nleaf 2 8; nleaf 1 7].
Definition xms : list tson := [nleaf 2 8; nleaf 1 7].
Definition xheap : heap := fst (alloc_tree [] (TObj [("l", TArr xos)])).
Definition xloc : loc := match snd (alloc_tree [] (TObj [("l", TArr xos)])) with VObj l => l | _ => 0%nat end.
Lemma xos_ok : doc_of xheap (VObj xloc) (TObj [("l", TArr xos)]).
Proof. apply (alloc_tree_doc [] (TObj [("l", TArr xos)])). reflexivity. Qed.
Lemma x_gen : generate_patch (TObj [("l", TArr xos)]) (TObj [("l", TArr xms)]) = Ok [Op ORemove "/l/2" ANil 0].
Proof. vm_compute. reflexivity. Qed.
Lemma xos_fine : Forall fine xos.
Proof. unfold xos, nleaf, fine. repeat (apply List.Forall_cons || apply List.Forall_nil); (split; [wf_tac|nf_tac]). Qed.
Lemma xms_fine : Forall fine xms.
Proof. unfold xms, nleaf, fine. repeat (apply List.Forall_cons || apply List.Forall_nil); (split; [wf_tac|nf_tac]). Qed.
Lemma xms_leaves : forall v, v ∈ xms -> exists x ts, v = TLeaf x ts.
Proof. intros v Hv. unfold xms in Hv. repeat (apply elem_of_cons in Hv as [->|Hv]; [by eexists _, _|]). by apply elem_of_nil in Hv. Qed.
Lemma x_not_trimmed : ~ trimmed xos xms.
Proof.
  inversion 1 as [|? ? ? ? HS _|? ? ? HD _]; subst.
  - apply deep_eq_same in HS; [vm_compute in HS; done|unfold nleaf; wf_tac..].
  - apply (HD (nleaf 1 7)); [apply elem_of_list_further, elem_of_list_here|]. apply same_of_deep; [unfold nleaf; wf_tac..|vm_compute; reflexivity].
Qed.
Lemma x_length : length xos <> length xms.
Proof. discriminate. Qed.
Lemma x_small : Z.of_nat (length xos) <= int64_max ∧ Z.of_nat (length xms) <= int64_max.
Proof. done. Qed.
Lemma l_plain : plain "l".
Proof. plain_tac. Qed.

(** What is returned for the generated patch. *)
Lemma transforms_refuted : exists h v a b ops h' t', doc_of h v a ∧ wf a ∧ wf b ∧ generate_patch a b = Ok ops ∧
  apply_patch h v ops = (h', Ok v) ∧ read h' v = Some t' ∧ at_path b [Key "n"] = Some (nleaf 4 9) ∧ at_path t' [Key "n"] = None.
Proof.
  exists dheap, (VObj dloc), (TObj da), (TObj [("b", TObj [("c", TLeaf (PStr "x") 6); ("d", TLeaf (PBool true) 6)]); ("l", TArr [nleaf 1 7; nleaf 2 8]); ("a", nleaf 1 5); ("n", nleaf 4 9)]),
    [Op OAdd "/n" (n1 4) 9].
  do 2 eexists. split; [exact da_ok|]. split; [exact da_wf|]. split; [unfold nleaf; wf_tac|].
  split; [vm_compute; reflexivity|]. split; [vm_compute; reflexivity|]. split; [vm_compute; reflexivity|]. split; vm_compute; reflexivity.
Qed.
(** A leaf added in front of an array: even without leading slashes the result is not the
    new document. *)
Definition fa : list (string * tson) := [("l", TArr [nleaf 1 7; nleaf 2 8])].
Definition fb : list (string * tson) := [("l", TArr [nleaf 0 9; nleaf 1 7; nleaf 2 8])].
Definition fheap : heap := fst (alloc_tree [] (TObj fa)).
Definition floc : loc := match snd (alloc_tree [] (TObj fa)) with VObj l => l | _ => 0%nat end.
Lemma fa_ok : doc_of fheap (VObj floc) (TObj fa).
Proof. apply (alloc_tree_doc [] (TObj fa)). reflexivity. Qed.
Lemma front_refuted : exists h v a b ops h' t', doc_of h v a ∧ wf a ∧ wf b ∧ nan_free b ∧ well_named a ∧ well_named b ∧
  generate_patch a b = Ok ops ∧ apply_patch h v (map unslash ops) = (h', Ok v) ∧ doc_of h' v t' ∧ ~ same_values t' b.
Proof.
  destruct (apply_patch fheap (VObj floc) (map unslash [Op OAdd "/l/0" (n1 0) 9])) as [h' r] eqn:Ea.
  pose proof (apply_patch_doc _ _ _ _ _ _ fa_ok Ea) as HX.
  assert (E1 : exists t1, papply (TObj fa) (map unslash [Op OAdd "/l/0" (n1 0) 9]) = (t1, Ok tt) ∧ ~ same_values t1 (TObj fb)).
  { eexists. split; [vm_compute; reflexivity|]. intros HS.
    apply (generate_empty _ (TObj fb)) in HS; [vm_compute in HS; done|..]; unfold fb, nleaf; wf_tac. }
  destruct E1 as (t1 & E1 & HN). rewrite E1 in HX. destruct r as [v| |]; try done. destruct HX as [HD ->].
  exists fheap, (VObj floc), (TObj fa), (TObj fb), [Op OAdd "/l/0" (n1 0) 9], h', t1.
  split; [exact fa_ok|]. split; [unfold fa, nleaf; wf_tac|]. split; [unfold fb, nleaf; wf_tac|].
  split; [unfold fb, nleaf; nf_tac|]. split; [unfold fa, nleaf; wn_tac|]. split; [unfold fb, nleaf; wn_tac|].
  split; [vm_compute; reflexivity|]. split; [exact Ea|]. by split.
Qed.

(** ** Array differences *)
Definition aos : list tson := [nleaf 5 1; nleaf 1 1; TObj [("k", nleaf 2 1)]; nleaf 1 1].
Definition ams : list tson := [nleaf 1 1; nleaf 7 2; TObj [("k", nleaf 2 1)]].
Definition aops : list operation := [Op ORemove "/l/3" ANil 0; Op ORemove "/l/0" ANil 0; Op OAdd "/l/1" (n1 7) 2].
Lemma a_gen : generate_patch (TObj [("l", TArr aos)]) (TObj [("l", TArr ams)]) = Ok aops.
Proof. vm_compute. reflexivity. Qed.
Lemma a_meets : meets (TObj [("l", TArr aos)]) (TObj [("l", TArr ams)]) [Key "l"] (TArr aos) (TArr ams).
Proof. eapply ms_member; [reflexivity|reflexivity|apply ms_here]. Qed.
Lemma aos_fine : Forall fine aos.
Proof. unfold aos, nleaf, fine. repeat (apply List.Forall_cons || apply List.Forall_nil); (split; [wf_tac|nf_tac]). Qed.
Lemma ams_fine : Forall fine ams.
Proof. unfold ams, nleaf, fine. repeat (apply List.Forall_cons || apply List.Forall_nil); (split; [wf_tac|nf_tac]). Qed.

(** A new array element that is no leaf panics. *)
Lemma total_refuted : exists a b, wf a ∧ wf b ∧ generate_patch a b = Panic.
Proof. exists (TArr []), (TArr [TObj []]). split; [wf_tac|]. split; [wf_tac|reflexivity]. Qed.

(** ** Timestamps *)
Lemma ts_case : same_values (TObj [("a", nleaf 1 5); ("b", TArr [nleaf 2 6])]) (TObj [("b", TArr [nleaf 2 9]); ("a", nleaf 1 8)]).
Proof.
  apply (generate_empty _ (TObj [("b", TArr [nleaf 2 9]); ("a", nleaf 1 8)])); [unfold nleaf; wf_tac..|]. vm_compute. reflexivity.
Qed.
(** NaN is different from itself. *)
Definition nan_leaf : tson := TLeaf (PNum SpecFloat.S754_nan) 1.
Lemma nan_refuted : exists a ops, wf a ∧ generate_patch a a = Ok ops ∧ ops <> [].
Proof. exists nan_leaf. eexists. split; [apply wf_leaf|]. split; [vm_compute; reflexivity|done]. Qed.
(** A changed container element of an array whose length changes is left out. *)
Definition ka : tson := TArr [TObj [("k", nleaf 1 1)]; nleaf 3 1].
Definition kb : tson := TArr [TObj [("k", nleaf 2 2)]; nleaf 3 1; nleaf 4 2].
Lemma dropped_refuted : exists a b ops, wf a ∧ wf b ∧ nan_free a ∧ nan_free b ∧
  generate_patch_with_timestamp a b = Ok ops ∧ at_path a [Elem 0; Key "k"] = Some (nleaf 1 1) ∧
  at_path b [Elem 0; Key "k"] = Some (nleaf 2 2) ∧ forall p, p ∈ ops -> op_path p <> "/0/k".
Proof.
  exists ka, kb, [Op ORemove "/0" ANil 0; Op OAdd "/2" (n1 4) 2].
  split; [unfold ka, nleaf; wf_tac|]. split; [unfold kb, nleaf; wf_tac|]. split; [unfold ka, nleaf; nf_tac|].
  split; [unfold kb, nleaf; nf_tac|]. split; [vm_compute; reflexivity|]. split; [reflexivity|]. split; [reflexivity|].
  intros p Hp. repeat (apply elem_of_cons in Hp as [-> | Hp]; [done|]). by apply elem_of_nil in Hp.
Qed.
(** Removals by index combined with updates by index: 5,1,2,3 to 2,1,3. *)
Definition ua : list (string * tson) := [("l", TArr [nleaf 5 1; nleaf 1 1; nleaf 2 1; nleaf 3 1])].
Definition ub : list (string * tson) := [("l", TArr [nleaf 2 1; nleaf 1 1; nleaf 3 1])].
Definition uheap : heap := fst (alloc_tree [] (TObj ua)).
Definition uloc : loc := match snd (alloc_tree [] (TObj ua)) with VObj l => l | _ => 0%nat end.
Lemma updates_refuted : exists h v a b ops h' t', doc_of h v a ∧ wf a ∧ wf b ∧
  generate_patch_with_timestamp a b = Ok ops ∧ apply_patch h v (map unslash ops) = (h', Ok v) ∧ read h' v = Some t' ∧
  at_path b [Key "l"; Elem 1] = Some (nleaf 1 1) ∧ at_path t' [Key "l"; Elem 1] = Some (nleaf 2 1).
Proof.
  exists uheap, (VObj uloc), (TObj ua), (TObj ub). do 3 eexists. split; [apply (alloc_tree_doc [] (TObj ua)); reflexivity|].
  split; [unfold ua, nleaf; wf_tac|]. split; [unfold ub, nleaf; wf_tac|].
  split; [vm_compute; reflexivity|]. split; [vm_compute; reflexivity|]. split; [vm_compute; reflexivity|]. split; vm_compute; reflexivity.
Qed.
