(** Concrete cases for [Prop_Origin.v]. *)
From Verif Require Import Base BaseSpec F64 Tson TsonSpec Serial GoText Heap HeapSpec Own Patch PatchSpec PatchDemo Logument LogSpec ReplaySpec ReplayLemmas ReplayDemo ChainSpec OriginSpec OriginLemmas.
From Coq Require Import Lia.

(** Besides the commits, a TestSet of a member that is not there, a Set that fails, and a Compact. *)
Definition mixed : list call :=
  commits ++ [CSnapshot 2; CTestSet (Op OReplace "z" (n1 4) 30); CCompact "a"; CSet (Op OAdd "a" (n1 1) 5); CSet (Op OAdd "b" ANil 40)].
Lemma origin_case : exists t,
  new_logument (go_lib (fun _ => true)) (SI_doc proot) None pheap = (pheap, Ok plog) ∧ l_snapshots plog !! 0%N = Some (VObj ploc) ∧
  doc_of pheap (VObj ploc) pdoc ∧ Forall call_ok mixed ∧ doc_of (fst (run (pheap, plog) mixed)) (VObj ploc) t ∧
  at_path t [Key "z"] = Some (nleaf 4 30) ∧ at_path t [Key "b"; Key "c"] = Some (TLeaf (PStr "y") 10) ∧ at_path t [Key "a"] = Some (nleaf 1 5).
Proof.
  assert (Hok : Forall call_ok mixed) by repeat constructor.
  destruct (origin_run (go_lib (fun _ => true)) (SI_doc proot) None pheap pheap plog ploc pdoc mixed eq_refl eq_refl pdoc_ok' Hok) as (t & HD & _).
  exists t. split; [reflexivity|]. split; [reflexivity|]. split; [exact pdoc_ok'|]. split; [done|]. split; [done|].
  pose proof (read_doc _ _ _ HD) as HR. assert (E : exists t1, read (fst (run (pheap, plog) mixed)) (VObj ploc) = Some t1 ∧
    at_path t1 [Key "z"] = Some (nleaf 4 30) ∧ at_path t1 [Key "b"; Key "c"] = Some (TLeaf (PStr "y") 10) ∧ at_path t1 [Key "a"] = Some (nleaf 1 5)).
  { eexists. split; [vm_compute; reflexivity|]. split; [vm_compute; reflexivity|]. split; vm_compute; reflexivity. }
  destruct E as (t1 & E & H). rewrite HR in E. injection E as ->. exact H.
Qed.
Lemma origin_case_apply : exists t h' t', doc_of pheap (VObj ploc) t ∧
  apply_patch pheap (VObj ploc) [Op OAdd "z" (n1 4) 30; Op OMove "z" (n1 5) 31] = (h', Panic) ∧ doc_of h' (VObj ploc) t' ∧ at_path t' [Key "z"] = Some (nleaf 4 30).
Proof.
  exists pdoc. destruct (apply_patch pheap (VObj ploc) [Op OAdd "z" (n1 4) 30; Op OMove "z" (n1 5) 31]) as [h' r] eqn:E.
  pose proof (PatchLemmas.apply_patch_doc _ _ _ _ _ _ pdoc_ok' E) as H.
  destruct (PatchLemmas.papply pdoc [Op OAdd "z" (n1 4) 30; Op OMove "z" (n1 5) 31]) as [t' r'] eqn:Ep.
  assert (Hr : r' = Panic ∧ at_path t' [Key "z"] = Some (nleaf 4 30)).
  { change r' with (snd (t', r')). change t' with (fst (t', r')) at 2. rewrite <- Ep. split; vm_compute; reflexivity. }
  destruct Hr as [-> Hr]. destruct r as [?| |]; [done|done|]. exists h', t'. split; [exact pdoc_ok'|]. split; [done|]. split; done.
Qed.
Lemma origin_case_version : exists t h' L' r t', reachable rst ∧ l_snapshots (snd rst) !! 0%N = Some (VObj ploc) ∧ doc_of (fst rst) (VObj ploc) t ∧
  snapshot 1 rst = ((h', L'), Ok r) ∧ doc_of h' (VObj ploc) t' ∧ at_path t' [Key "a"] = Some (nleaf 2 9) ∧ at_path t [Key "a"] = Some (nleaf 1 5).
Proof.
  exists pdoc.
  destruct (origin_run (go_lib (fun _ => true)) (SI_doc proot) None pheap pheap plog ploc pdoc (commits ++ [CSnapshot 1]) eq_refl eq_refl pdoc_ok' ltac:(repeat constructor)) as (t' & HD & _).
  destruct (snapshot 1 rst) as [[h' L'] r] eqn:E.
  assert (Eh : fst (run (pheap, plog) (commits ++ [CSnapshot 1])) = h').
  { unfold run. rewrite fold_left_app. change (fold_left run_call commits (pheap, plog)) with rst. cbn [fold_left run_call]. by rewrite E. }
  assert (Hr : r = Ok (VObj ploc)) by (transitivity (snd (snapshot 1 rst)); [by rewrite E|vm_compute; reflexivity]).
  rewrite Eh in HD. exists h', L', (VObj ploc), t'. split; [exact rst_reachable|]. split; [reflexivity|]. split; [exact pdoc_ok'|].
  split; [by rewrite Hr|]. split; [done|]. split; [|reflexivity].
  pose proof (read_doc _ _ _ HD) as HR. rewrite <- Eh in HR.
  assert (X : exists t1, read (fst (run (pheap, plog) (commits ++ [CSnapshot 1]))) (VObj ploc) = Some t1 ∧ at_path t1 [Key "a"] = Some (nleaf 2 9)) by (eexists; split; vm_compute; reflexivity).
  destruct X as (t1 & E1 & H). rewrite HR in E1. injection E1 as ->. exact H.
Qed.
Lemma mixed_direct op : handed_to plog mixed op -> direct op.
Proof.
  assert (HF : Forall direct (concat (map handed mixed))).
  { assert (Ha : exists names, spells "a" names) by (exists ["a"]; exact spella).
    assert (Hb : exists names, spells "b/c" names) by (exists ["b"; "c"]; exact spellb).
    assert (Hp : forall k, plain k -> escaped k = k -> exists names, spells k names).
    { intros k Hk E. exists [k]. rewrite <- E at 1. by constructor. }
    assert (Hz : exists names, spells "z" names) by (apply Hp; [split; intros (a & b & E); destruct a as [|? [|? ?]]; discriminate E|reflexivity]).
    assert (H1 : exists names, spells "b" names) by (apply Hp; [split; intros (a & b & E); destruct a as [|? [|? ?]]; discriminate E|reflexivity]).
    cbn. repeat (apply Forall_cons; split; [split; [assumption|]|]); try (left; reflexivity); try (right; eexists; constructor; fail). }
  rewrite Forall_forall in HF. intros [H|(c & Hc & Ho)]; [by apply elem_of_nil in H|]. apply HF. apply elem_of_list_In, in_concat. exists (handed c).
  split; [apply in_map_iff; exists c; split; [done|by apply elem_of_list_In]|by apply elem_of_list_In].
Qed.
(** A Set of an object below the array "l" leaves the element of the array in its place. *)
Definition lost : list call := [CSet (Op OAdd "l/1" (AMap []) 30)].
Lemma place_refuted : exists T i p h h0 L0 l t0 cs t names x ts,
  new_logument T i p h = (h0, Ok L0) ∧ l_snapshots L0 !! 0%N = Some (VObj l) ∧ doc_of h0 (VObj l) t0 ∧ Forall call_ok cs ∧
  (forall op, handed_to L0 cs op -> exists names, spells (op_path op) names) ∧
  doc_of (fst (run (h0, L0) cs)) (VObj l) t ∧ at_path t (keys names) = Some (TLeaf x ts) ∧
  at_path t0 (keys names) <> Some (TLeaf x ts) ∧ ¬ exists op, handed_to L0 cs op ∧ gives op x ts.
Proof.
  destruct (origin_run (go_lib (fun _ => true)) (SI_doc proot) None pheap pheap plog ploc pdoc lost eq_refl eq_refl pdoc_ok' ltac:(repeat constructor)) as (t & HD & _).
  assert (HO : forall op, handed_to plog lost op -> op = Op OAdd "l/1" (AMap []) 30).
  { intros op [H|(c & Hc & Ho)]; [by apply elem_of_nil in H|]. apply elem_of_list_singleton in Hc as ->. by apply elem_of_list_singleton in Ho. }
  exists (go_lib (fun _ => true)), (SI_doc proot), None, pheap, pheap, plog, ploc, pdoc, lost, t, ["l"], (PNum (f64_of_Z 2)), 8.
  split; [reflexivity|]. split; [reflexivity|]. split; [exact pdoc_ok'|]. split; [repeat constructor|].
  split; [intros op ->%HO; exists ["l"; "1"]; exact spell3|]. split; [done|]. split; [|split; [done|]].
  - pose proof (read_doc _ _ _ HD) as HR.
    assert (X : exists t1, read (fst (run (pheap, plog) lost)) (VObj ploc) = Some t1 ∧ at_path t1 [Key "l"] = Some (nleaf 2 8)) by (eexists; split; vm_compute; reflexivity).
    destruct X as (t1 & E1 & H). rewrite HR in E1. injection E1 as ->. exact H.
  - intros (op & ->%HO & _ & _ & [=]).
Qed.
