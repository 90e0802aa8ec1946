(** A concrete case for [Prop_VssAny.v]. *)
From Verif Require Import Base BaseSpec TjsonSpec F64 Bytes Vss VssSpec VssLemmas VssData VssDemo VssAnySpec VssAny.

Lemma lock_attr : attr spec_clean ["Vehicle"; "Body"; "Lock"] "datatype" (WStr "boolean").
Proof. by apply (spec_attr ["Vehicle"; "children"; "Body"; "children"; "Lock"; "datatype"]); [vm_compute; listed|]. Qed.
Lemma lock_possible b : possible (attr spec_clean ["Vehicle"; "Body"; "Lock"]) 1000 (reading (WBool b) 1000).
Proof. split; [apply ft_bool, lock_attr|]. right. intros f [[=]|(l & [=] & _)]. Qed.
Lemma codes_attr n x : attr spec_clean ["Vehicle"; "Body"; "Codes"] n x -> (n = "datatype" ∧ x = WStr "uint8[]") ∨ n = "unit".
Proof.
  intros (l & H & E). apply leaves_all in H. vm_compute in H. each H; cbn in E; try discriminate E; injection E as <-; auto.
Qed.
Lemma codes_possible : possible (attr spec_clean ["Vehicle"; "Body"; "Codes"]) 1000
  (WArr [reading (WInt 0) 1000; reading (WInt 100) 1000; reading (WInt 7) 1000]).
Proof.
  split.
  - apply (ft_array _ _ "uint8").
    + intros x H. destruct (codes_attr _ _ H) as [[[=] _]|[=]].
    + set_solver.
    + by apply (spec_attr ["Vehicle"; "children"; "Body"; "children"; "Codes"; "datatype"]); [vm_compute; listed|].
    + cbn. split; repeat constructor.
    + repeat (apply Forall_cons_2; [eexists; split; [|done]; apply ir_uint; [set_solver|done]|]). apply Forall_nil_2.
  - right. intros f [[=]|(l & [= <-] & H)]. repeat (apply elem_of_cons in H as [[=]|H]). by apply elem_of_nil in H.
Qed.
Lemma some_draws : (exists u, go_float u ∧ SFltb one_half u = false) ∧ exists u, go_float u ∧ SFltb one_half u = true.
Proof.
  split; [exists quarter|exists three_quarters]; (split; [apply go_check_ok; by vm_compute|by vm_compute]).
Qed.
Lemma possible_case : schema spec_clean ∧ (forall b, possible (attr spec_clean ["Vehicle"; "Body"; "Lock"]) 1000 (reading (WBool b) 1000)) ∧
  possible (attr spec_clean ["Vehicle"; "Body"; "Codes"]) 1000 (WArr [reading (WInt 0) 1000; reading (WInt 100) 1000; reading (WInt 7) 1000]) ∧
  (exists u, go_float u ∧ SFltb one_half u = false) ∧ (exists u, go_float u ∧ SFltb one_half u = true).
Proof. exact (conj spec_schema (conj lock_possible (conj codes_possible some_draws))). Qed.
(** A boolean can be changed, renewed or kept. *)
Lemma lock_moves : moves one_half quarter 2000 (reading (WBool true) 1000) (reading (WBool false) 2000) ∧
  moves one_half quarter 2000 (reading (WBool true) 1000) (reading (WBool true) 2000) ∧
  moves one_half quarter 2000 (reading (WBool true) 1000) (reading (WBool true) 1000).
Proof.
  assert (Hv : has_value (reading (WBool true) 1000) (WBool true)) by (eexists; split; [done|by left]).
  assert (G : forall r x', go_check r = true -> moved one_half quarter r 2000 (reading (WBool true) 1000) x' -> moves one_half quarter 2000 (reading (WBool true) 1000) x').
  { intros r x' Hr HM. exists r. split; [by apply go_check_ok|]. split; [done|]. intros f f' (m & [= <-] & H). exfalso.
    repeat (apply elem_of_cons in H as [[=]|H]). by apply elem_of_nil in H. }
  split; [|split].
  - apply (G quarter); [by vm_compute|]. apply (mv_changed _ _ _ _ _ (WBool true)); [by vm_compute|done|apply (si_bool true)].
  - apply (G one_half); [by vm_compute|]. by apply mv_renewed; [vm_compute|vm_compute|].
  - apply (G three_quarters); [by vm_compute|]. apply mv_kept; [by eexists|by vm_compute|by vm_compute].
Qed.
Lemma moves_case : dataset (demo_data (f64_of_Z 75) false "OFF" 1000 1000 1000 1000) ∧
  moves one_half quarter 2000 (reading (WBool true) 1000) (reading (WBool false) 2000) ∧
  moves one_half quarter 2000 (reading (WBool true) 1000) (reading (WBool true) 2000) ∧
  moves one_half quarter 2000 (reading (WBool true) 1000) (reading (WBool true) 1000).
Proof. exact (conj demo_dataset lock_moves). Qed.
