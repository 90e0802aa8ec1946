(** Concrete logs of generated patches. *)
From Verif Require Import Base BaseSpec BaseSpecLemmas F64 Tson TsonInd TsonSpec TextSpec BaseLemmas Serial GoText Heap HeapSpec Own Patch PatchSpec
  TreePatch PatchLemmas PatchDemo Diff DiffSpec DiffLemmas DiffDemo Logument LogSpec ReplaySpec ChainSpec ChainLemmas.

Definition dc : list (string * tson) :=
  [("b", TObj [("c", TLeaf (PStr "y") 9)]); ("l", TArr [nleaf 1 7; nleaf 3 9]); ("n", nleaf 5 11); ("z", TLeaf (PBool true) 11)].
Definition cops : list operation := [Op OReplace "/n" (n1 5) 11; Op OAdd "/z" (ABool true) 11].
Lemma da_nan : nan_free (TObj da).
Proof. unfold da, nleaf. nf_tac. Qed.
Lemma dc_usable : usable (TObj dc).
Proof.
  split; [by eexists|]. split; [unfold dc, nleaf; wf_tac|]. split; [unfold dc, nleaf; nf_tac|]. unfold dc, nleaf. wn_tac.
Qed.
Lemma c_bridged : bridged true (TObj db) (TObj dc).
Proof.
  apply br_obj. intros k u v Hu Hv. unfold db, dc in *. cbn [alookup] in Hu, Hv.
  repeat case_decide; simplify_eq; try (apply br_scalar; nocont).
  - apply br_obj. intros k u v Hu Hv. cbn [alookup] in Hu, Hv. repeat case_decide; simplify_eq; apply br_scalar; nocont.
  - apply br_arr; [|done]. repeat apply List.Forall2_cons; try apply List.Forall2_nil; left; nocont.
Qed.
Lemma c_gen : generate_patch_with_timestamp (TObj db) (TObj dc) = Ok cops.
Proof. vm_compute. reflexivity. Qed.
Lemma demo_stages : stages true (TObj da) [dops; cops] [TObj db; TObj dc].
Proof.
  apply sg_next; [|exact (d_bridged true)|exact d_gen_ts|exact dops_ne|].
  - split; [by eexists|]. exact (conj da_wf (conj da_nan da_named)).
  - apply sg_next; [|exact c_bridged|exact c_gen|done|apply sg_end; exact dc_usable].
    split; [by eexists|]. exact (conj db_wf (conj db_nan db_named)).
Qed.

Definition clog : logument := Lgm [0%N] (VObj dloc) {[ 0%N := VObj dloc ]} ∅ None.
Definition feed (ps : list (list operation)) : list call := concat (map (fun ops => [CStore (PI_patch (Some ops)); CAppend]) ps).
Definition ccalls : list call := feed [map unslash dops] ++ [CSnapshot 1] ++ feed [map unslash cops].
Lemma clog_new : new_logument (go_lib (fun _ => true)) (SI_doc (VObj dloc)) None dheap = (dheap, Ok clog).
Proof. reflexivity. Qed.
Lemma ccalls_snap w : CSnapshot w ∈ ccalls -> (w <= 2)%N.
Proof.
  unfold ccalls, feed. cbn [map concat app]. intros Hw.
  repeat (apply elem_of_cons in Hw as [Hw|Hw]; [try congruence; by injection Hw as ->|]). by apply elem_of_nil in Hw.
Qed.
Lemma ccalls_records : records (snd (run (dheap, clog) ccalls)) [dops; cops].
Proof.
  split; [vm_compute; reflexivity|]. intros [|[|i]] ops Hi; [..|done]; injection Hi as <-; vm_compute; reflexivity.
Qed.
Lemma follows_case :
  new_logument (go_lib (fun _ => true)) (SI_doc (VObj dloc)) None dheap = (dheap, Ok clog) ∧
  l_snapshots clog !! 0%N = Some (VObj dloc) ∧ doc_of dheap (VObj dloc) (TObj da) ∧
  stages true (TObj da) [dops; cops] [TObj db; TObj dc] ∧ ascending 0 ccalls ∧
  records (snd (run (dheap, clog) ccalls)) [dops; cops] ∧ (forall w, CSnapshot w ∈ ccalls -> (w <= 2)%N).
Proof.
  split; [exact clog_new|]. split; [reflexivity|]. split; [exact da_ok|]. split; [exact demo_stages|]. split; [done|].
  split; [exact ccalls_records|exact ccalls_snap].
Qed.

(** The same patches as they are generated. *)
Definition scalls : list call := feed [dops; cops].
Lemma scalls_from c q : c ∈ scalls -> q ∈ handed c -> from_diff q.
Proof.
  unfold scalls, feed. cbn [map concat app]. intros Hc Hq.
  apply elem_of_cons in Hc as [->|Hc].
  { exists true, da, db, dops. exact (conj da_wf (conj db_wf (conj d_gen_ts Hq))). }
  apply elem_of_cons in Hc as [->|Hc]; [by apply elem_of_nil in Hq|].
  apply elem_of_cons in Hc as [->|Hc].
  { exists true, db, dc, cops. destruct dc_usable as (_ & Hw & _). exact (conj db_wf (conj Hw (conj c_gen Hq))). }
  apply elem_of_cons in Hc as [->|Hc]; [by apply elem_of_nil in Hq|]. by apply elem_of_nil in Hc.
Qed.
Lemma stays_case : exists st' m', snapshot 2 (run (dheap, clog) scalls) = (st', Ok (VObj dloc)) ∧
  read (fst st') (VObj dloc) = Some (TObj m') ∧ alookup "n" m' = None ∧ is_Some (alookup "n" dc) ∧ is_Some (alookup "" m').
Proof. do 2 eexists. split; [vm_compute; reflexivity|]. split; [vm_compute; reflexivity|]. split; [reflexivity|]. split; [by eexists|]. vm_compute. by eexists. Qed.

(** ** Equal documents, with members in another order and another zero *)
Definition ea : list (string * tson) := [("a", TLeaf (PNum (S754_zero true)) 1); ("l", TArr [nleaf 1 2])].
Definition eb : list (string * tson) := [("l", TArr [nleaf 1 2]); ("a", TLeaf (PNum (S754_zero false)) 1)].
Definition eops : list operation := [Op OReplace "l/2" (n1 3) 4; Op OAdd "a/x" (n1 3) 5].
Definition eheap (m : list (string * tson)) : heap := fst (alloc_tree [] (TObj m)).
Definition eloc (m : list (string * tson)) : loc := match snd (alloc_tree [] (TObj m)) with VObj l => l | _ => 0%nat end.
Lemma e_docs : doc_of (eheap ea) (VObj (eloc ea)) (TObj ea) ∧ doc_of (eheap eb) (VObj (eloc eb)) (TObj eb).
Proof. split; [apply (alloc_tree_doc [] (TObj ea))|apply (alloc_tree_doc [] (TObj eb))]; reflexivity. Qed.
Lemma e_wf : wf (TObj ea) ∧ wf (TObj eb).
Proof. split; unfold ea, eb, nleaf; wf_tac. Qed.
Lemma e_same : same_content (TObj ea) (TObj eb).
Proof. apply same_of_deep; [apply e_wf..|]. vm_compute. reflexivity. Qed.
Lemma e_no_nan : Forall no_nan eops.
Proof. repeat apply List.Forall_cons; [..|apply List.Forall_nil]; intros x Hx; cbn in Hx; inversion Hx; subst; vm_compute; reflexivity. Qed.
Lemma e_outcome : exists h', apply_patch (eheap ea) (VObj (eloc ea)) eops = (h', Panic) ∧
  read h' (VObj (eloc ea)) = Some (TObj [("a", TLeaf (PNum (S754_zero true)) 1); ("l", TArr [nleaf 1 2; TNil; nleaf 3 4])]).
Proof. eexists. split; vm_compute; reflexivity. Qed.
Lemma e_ne : ea <> eb.
Proof. unfold ea, eb. congruence. Qed.
Lemma nan_refuted : exists h l ops h' r t', doc_of h (VObj l) (TObj []) ∧ apply_patch h (VObj l) ops = (h', Ok r) ∧
  doc_of h' (VObj l) t' ∧ ~ same_values t' t'.
Proof.
  destruct (alloc_tree [] (TObj [])) as [h v] eqn:E. pose proof (alloc_tree_doc _ _ _ _ E) as HD. injection E as <- <-.
  destruct (apply_patch [CObj []] (VObj 0%nat) [Op OAdd "x" (ANum S754_nan) 1]) as [h' r] eqn:Ea.
  pose proof (apply_patch_doc _ _ _ _ _ _ HD Ea) as HX.
  assert (Ep : papply (TObj []) [Op OAdd "x" (ANum S754_nan) 1] = (TObj [("x", TLeaf (PNum S754_nan) 1)], Ok tt)) by (vm_compute; reflexivity).
  rewrite Ep in HX. destruct r as [w| |]; try done. destruct HX as [HD' _].
  eexists _, _, _, _, _, _. split; [exact HD|]. split; [exact Ea|]. split; [exact HD'|].
  intros HS. unfold same_values in HS. apply agree_members_inv in HS as [H1 _]; [|apply (NoDup_singleton "x")..].
  destruct (H1 "x" (TLeaf (PNum S754_nan) 1) eq_refl) as (u & Hu & HA). injection Hu as <-. inversion HA as [|? ? ? ? Hp| |]; subst. done.
Qed.
