(** Concrete cases for [TjsonSource.v]. *)
From Verif Require Import Base BaseSpec F64 Tson TsonInd BaseLemmas BaseSpecLemmas Tjson TjsonSpec TjsonLemmas TjsonDemo TjsonSource.

(** A member of an object value, a null inside an object value, and a null of its own. *)
Definition nulls : list tpatch :=
  [TPatch "add" "/a/b" (JObj [("x", JNull); ("y", jn 1)]) 0;
   TPatch "add" "/a/c" JNull 0].
Lemma nulls_case : (forall p m, p ∈ nulls -> tp_value p = JObj m -> NoDup (map fst m)) ∧
  let s := JObj (tj_snapshot (from_patches psort ord0 1000 nulls) 5) in
  below ["a"; "b"; "y"] s = Some (jn 1) ∧ below ["a"; "b"; "x"] s = Some JNull ∧ below ["a"; "c"] s = None.
Proof.
  split.
  - intros p m Hp E. unfold nulls in Hp. repeat (apply elem_of_cons in Hp as [->|Hp]; [|]); [..|by apply elem_of_nil in Hp].
    + injection E as <-. apply (bool_decide_unpack _). vm_compute. exact I.
    + done.
  - cbv zeta. split; [vm_compute; reflexivity|]. split; vm_compute; reflexivity.
Qed.
