(** Examples for [Prop_Bytes.v]. *)
From Verif Require Import Base F64 Tson TsonInd TextSpec TsonSpec ReadLemmas Bytes BytesSpec BytesLemmas.

(** {"a": {"timestamp": 7.5, "value": "x"}, "b": [{"value": null, "timestamp": -1}]} *)
Definition read_demo : json :=
  JObj [("a", JObj [("timestamp", JNum (SFdiv f64_prec f64_emax (f64_of_Z 15) (f64_of_Z 2))); ("value", JStr "x")]);
        ("b", JArr [JObj [("value", JNull); ("timestamp", JNum (f64_of_Z (-1)))]])].
Lemma read_demo_reads : reads read_demo (TObj [("a", TLeaf (PStr "x") 7); ("b", TArr [TNil])]).
Proof. apply from_compatible_reads. vm_compute. reflexivity. Qed.
(** A third member makes it an object, whose number is stray. *)
Definition stray_demo : json :=
  JObj [("value", JStr "x"); ("timestamp", JNum (f64_of_Z 5)); ("unit", JObj [])].
Lemma stray_demo_stray : stray stray_demo.
Proof. apply from_compatible_panics. vm_compute. reflexivity. Qed.

(** One document with its members listed in two orders, and timestamps beyond 2^53. *)
Definition doc_ab : tson := TObj [("b", TLeaf (PBool true) 9007199254740993); ("a", TArr [TLeaf (PStr "x") 2; TObj []])].
Definition doc_ba : tson := TObj [("a", TArr [TLeaf (PStr "x") 2; TObj []]); ("b", TLeaf (PBool true) 9007199254740993)].
Lemma doc_ab_wf : wf doc_ab.
Proof. constructor; [vm_compute; repeat constructor; set_solver|]. repeat constructor. Qed.
Lemma doc_ba_wf : wf doc_ba.
Proof. constructor; [vm_compute; repeat constructor; set_solver|]. repeat constructor. Qed.
Lemma doc_same : same_doc doc_ab doc_ba.
Proof.
  eapply sd_obj; [apply perm_swap|]. constructor; [split; [done|]|constructor; [split; [done|]|constructor]]; apply same_doc_refl.
Qed.
Lemma doc_bytes : to_bytes doc_ab = to_bytes doc_ba ∧
  to_bytes doc_ab = Ok (WObj [("a", WArr [WObj [("value", WStr "x"); ("timestamp", WInt 2)]; WObj []]);
                              ("b", WObj [("value", WBool true); ("timestamp", WInt 9007199254740993)])]).
Proof. split; vm_compute; reflexivity. Qed.
Lemma doc_sorted : to_bytes_sorted doc_ab =
  Ok (WObj [("a", WArr [WObj [("timestamp", WInt 2); ("value", WStr "x")]; WObj []]);
            ("b", WObj [("timestamp", WInt 9007199254740993); ("value", WBool true)])]).
Proof. vm_compute. reflexivity. Qed.
(** A null is written by one and refused by the other. *)
Lemma null_refused : to_bytes_sorted (TArr [TNil]) = Err ∧ to_bytes (TArr [TNil]) = Ok (WArr [WNull]).
Proof. split; vm_compute; reflexivity. Qed.
(** The two functions list the members of a leaf in different orders. *)
Lemma bytes_differ : exists t w w', wf t ∧ to_bytes t = Ok w ∧ to_bytes_sorted t = Ok w' ∧ w <> w'.
Proof.
  exists (TLeaf (PStr "x") 2). do 2 eexists. split; [constructor|]. split; [vm_compute; reflexivity|].
  split; [vm_compute; reflexivity|]. done.
Qed.
(** The text keeps more than its decoded form. *)
Lemma decoding_loses : exists a b w w', wf a ∧ wf b ∧ to_bytes a = Ok w ∧ to_bytes b = Ok w' ∧ w <> w' ∧
  unmarshal_any w = unmarshal_any w'.
Proof.
  exists (TLeaf (PStr "x") 9007199254740993), (TLeaf (PStr "x") 9007199254740992). do 2 eexists.
  split; [constructor|]. split; [constructor|]. split; [vm_compute; reflexivity|]. split; [vm_compute; reflexivity|].
  split; [done|]. vm_compute. reflexivity.
Qed.
Lemma parse_demo : parse_value read_demo = Err ∧
  parse_value (JObj [("a", JNull); ("b", JArr [])]) = Ok (TObj [("a", TNil); ("b", TArr [])]) ∧
  from_compatible (JObj [("a", JNull); ("b", JArr [])]) = Panic.
Proof. repeat split; vm_compute; reflexivity. Qed.
