(** C64: which data sets can come up. *)
From Verif Require Import Base BaseSpec TjsonSpec F64 Bytes Vss VssSpec VssDemo VssAnySpec VssAny VssAnyNext VssAnyDemo.

(** C64: a choice [V] of leaves for the nodes of a schema is what Generate gives for some random numbers exactly
    if each leaf is possible for its node and the size of the data set admits keeping the nodes with a leaf and
    leaving out the others, where a node of an unknown datatype has no leaf.  So nothing that fits is left out,
    and the nodes do not depend on each other. *)
Theorem C64_possible : forall size ord ts b d V, schema d -> (forall l, ord l ≡ₚ l) ->
  (exists R r, (forall p, machine (R p)) ∧ generate size R ord ts (Vss b d) = Ok (Vss true r) ∧
     forall q x, leaf_at r q x <-> node d q ∧ V q = Some x) <->
  (forall q, node d q -> match V q with
     | Some x => possible (attr d q) ts x ∧ exists u, go_float u ∧ SFltb size u = false
     | None => ~ known (attr d q) ∨ exists u, go_float u ∧ SFltb size u = true
     end).
Proof. exact generate_possible. Qed.
Print Assumptions C64_possible.
Example C64_possible_case : schema spec_clean ∧ (forall b, possible (attr spec_clean ["Vehicle"; "Body"; "Lock"]) 1000 (reading (WBool b) 1000)) ∧
  possible (attr spec_clean ["Vehicle"; "Body"; "Codes"]) 1000 (WArr [reading (WInt 0) 1000; reading (WInt 100) 1000; reading (WInt 7) 1000]) ∧
  (exists u, go_float u ∧ SFltb one_half u = false) ∧ (exists u, go_float u ∧ SFltb one_half u = true).
Proof. exact possible_case. Qed.

(** C65: a choice [V] of leaves is what GenerateNext gives for some random numbers exactly if each leaf can become
    the one chosen for it. *)
Theorem C65_possible : forall c m ts d V, dataset d ->
  (exists R d', (forall p, machine (R p)) ∧ next_data c m R ts (Vss true d) = Ok d' ∧
     forall l x', leaf_at d' l x' <-> (exists x, leaf_at d l x) ∧ x' = V l) <->
  (forall l x, leaf_at d l x -> moves c m ts x (V l)).
Proof. exact next_possible. Qed.
Print Assumptions C65_possible.
Example C65_possible_case : dataset (demo_data (f64_of_Z 75) false "OFF" 1000 1000 1000 1000) ∧
  moves one_half quarter 2000 (reading (WBool true) 1000) (reading (WBool false) 2000) ∧
  moves one_half quarter 2000 (reading (WBool true) 1000) (reading (WBool true) 2000) ∧
  moves one_half quarter 2000 (reading (WBool true) 1000) (reading (WBool true) 1000).
Proof. exact moves_case. Qed.
