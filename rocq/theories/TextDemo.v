(** The document used in the examples of [Prop_Text.v], and the witnesses. *)
From Verif Require Import Base F64 Tson TsonInd Serial BaseLemmas BaseSpec BaseSpecLemmas TextSpec GoText ParseComplete ParseSound
  MarshalText TextLemmas.
From Coq Require Import Lia.

(** A document for the non-vacuity examples: nested, all leaf kinds, escapes. *)
Definition demo : tson :=
  TObj [("name", TLeaf (PStr ("say " +++ String (ascii_of_N 34) "hi" +++ String (ascii_of_N 10) "")) 5);
        ("xs", TArr [TLeaf (PNum (f64_of_ratio false 1 2)) 1; TLeaf (PBool true) (-1);
                     TObj [("deep/key", TLeaf (PNum (f64_of_Z 42)) 9007199254740993)]]);
        ("empty", TObj []); ("none", TArr [])].


Ltac clean_tac := repeat (apply clean_nil || (apply clean_ascii; [vm_compute; split; congruence|])
  || (apply clean_ctl; [vm_compute; tauto|])).
Ltac nodup_tac := repeat (apply NoDup_nil_2 || (apply NoDup_cons_2; [set_solver|])).

Lemma demo_ok isp : doc_ok (go_lib isp) demo ∧ every_stamp (fun ts => -1 <= ts) demo.
Proof.
  split; unfold demo; [|repeat constructor; simpl; lia].
  assert (Hh : plain_num (go_lib isp) (f64_of_ratio false 1 2)).
  { exists true. apply (number_intro (go_lib isp) "" "0" ".5"); [right; done|by apply opt_digits_model| |done].
    right. split; [done|]. exists "5". split; [done|]. by apply opt_digits_model. }
  assert (H42 : plain_num (go_lib isp) (f64_of_Z 42)).
  { exists false. apply (number_intro (go_lib isp) "" "42" ""); [right; done|by apply opt_digits_model|by left|done]. }
  constructor; [simpl; nodup_tac|].
  repeat (apply Forall_cons_2 || apply Forall_nil_2); split; simpl; try clean_tac.
  - constructor; [simpl; clean_tac|]. unfold int64_max. lia.
  - constructor. repeat (apply Forall_cons_2 || apply Forall_nil_2).
    + constructor; [done|]. unfold int64_max. lia.
    + constructor; [done|]. unfold int64_max. lia.
    + constructor; [simpl; nodup_tac|].
      repeat (apply Forall_cons_2 || apply Forall_nil_2). split; simpl; [clean_tac|].
      constructor; [done|]. unfold int64_max. lia.
  - constructor; [apply NoDup_nil_2|apply Forall_nil_2].
  - constructor. apply Forall_nil_2.
Qed.
Lemma demo_marshal isp : exists s, marshal (go_lib isp) demo = Ok s ∧ doc_ok (go_lib isp) demo.
Proof. eexists. split; [vm_compute; reflexivity|apply demo_ok]. Qed.
Lemma demo_in_grammar isp : doc_text (go_lib isp) demo
  (match marshal (go_lib isp) demo with Ok s => s | _ => "" end).
Proof. apply unmarshal_sound. vm_compute. reflexivity. Qed.

Lemma bell_unclean isp : ~ clean (go_lib isp) (String (ascii_of_N 7) "").
Proof.
  intros H%clean_as_seq. inversion H as [|? ? H1|? ? H1| | |]; subst; [destruct H1 as [H1 _]; by apply H1|].
  vm_compute in H1. intuition congruence.
Qed.
(** "è" and the euro sign, written as UTF-8, if Go's tables call them printable. *)
Lemma accent_clean isp : isp 232%N = true -> isp 8364%N = true ->
  clean (go_lib isp) (bytes [195; 168; 226; 130; 172]%N).
Proof.
  intros H1 H2. apply (clean_rune _ 232 (bytes [226; 130; 172]%N)); [left; lia|done|].
  apply (clean_rune _ 8364 ""); [left; lia|done|constructor].
Qed.

Lemma number_lost : forall isp, exists t s,
  wf t ∧ null_free t ∧ every_stamp (fun ts => -1 <= ts) t ∧
  marshal (go_lib isp) t = Ok s ∧ unmarshal (go_lib isp) s = Err.
Proof.
  intros isp. exists (TObj [("speed", TLeaf (PNum (f64_of_Z 1000000)) 5)]). eexists.
  split; [repeat constructor; set_solver|]. split; [constructor; repeat constructor|].
  split; [apply evs_obj, Forall_cons_2, Forall_nil_2; simpl; constructor; lia|].
  split; [vm_compute; reflexivity|]. vm_compute; reflexivity.
Qed.
Lemma number_changed : forall isp, exists ts s,
  marshal (go_lib isp) (TLeaf (PNum (f64_of_Z 1000000)) ts) = Ok s ∧
  unmarshal (go_lib isp) s = Ok (TLeaf (PNum (f64_of_Z 1)) (-1)).
Proof. intros isp. exists 5. eexists. split; [vm_compute; reflexivity|]. vm_compute. reflexivity. Qed.
Lemma null_member_panics : forall L, exists s, unmarshal L s = Panic.
Proof. intros L. exists "{""a"":null}". reflexivity. Qed.
Lemma null_case : forall L, null_inside L "{""a"":[true,null ]x".
Proof.
  intros L. pose proof blank_nil as B. pose proof os_none as O.
  apply (ni_obj L """a"":[true,null ]x").
  apply (nm_here L "" "a" "a" "" "" None "" "" "[true,null ]x"); auto.
  { by repeat constructor. }
  apply nh_inside, (ni_arr L "true,null ]x").
  apply (ne_later L (retime None (TLeaf (PBool true) (-1))) "true" "null ]x").
  - apply (elem_intro L "" "" None "" (Tail true false false) (TLeaf (PBool true) (-1)) "true" "");
      [done|done|done|apply (vt_scalar L closed), st_true|discriminate| |done].
    intros _ [r E]. discriminate.
  - apply (ne_here L "" "" None "" "null ]x"); auto. apply (nh_null L " ]x").
Qed.
Lemma default_not_used : forall L, exists s k p ts,
  unmarshal L s = Ok (TObj [(k, TLeaf p ts)]) ∧ s = "{""k"":true}" ∧ ts ≠ -1.
Proof. intros L. do 4 eexists. split; [|split; [reflexivity|]]. reflexivity. done. Qed.
