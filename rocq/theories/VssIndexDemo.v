(** A concrete case for [Prop_VssIndex.v]. *)
From Verif Require Import Base BaseLemmas BaseSpec BaseSpecLemmas Tson TsonSpec PatchSpec F64 Bytes Vss VssSpec VssLemmas VssPlace VssData VssDemo VssBuild VssBuildDemo
  VssIndexSpec VssIndex.

Definition rows : wjson :=
  WObj [("Row", WObj [("[1]", WInt 5); ("[0]", WObj [("children", WObj [("[+2]", WBool true)]); ("x", WNull)]);
    ("[k]", WObj [("y", WStr "s")])])].
Definition rows_built : wjson :=
  WObj [("Row", WObj [("array", WArr [WObj [("array", WArr [WNull; WNull; WBool true]); ("x", WNull)]; WInt 5]); ("y", WStr "s")])].
Definition ways : list (list string * (wjson * list step)) :=
  [(["Row"; "[1]"], (WInt 5, [Key "Row"; Key "array"; Elem 1]));
   (["Row"; "[0]"; "children"; "[+2]"], (WBool true, [Key "Row"; Key "array"; Elem 0; Key "array"; Elem 2]));
   (["Row"; "[0]"; "x"], (WNull, [Key "Row"; Key "array"; Elem 0; Key "x"]));
   (["Row"; "[k]"; "y"], (WStr "s", [Key "Row"; Key "y"]))].
Lemma no_number_k z : ~ int_text "k" z.
Proof. revert z. apply parse_int_none. vm_compute. reflexivity. Qed.
Lemma number i s : parse_int s = Some (Z.of_nat i) -> int_text s (Z.of_nat i).
Proof. apply parse_int_text. Qed.
Lemma rows_leaves l x : leaf_at rows l x -> exists q, (l, (x, q)) ∈ ways.
Proof.
  intros H%leaves_all. vm_compute in H. each H; eexists; vm_compute; repeat (apply elem_of_list_here || apply elem_of_list_further).
Qed.
Lemma rows_ways l x q : (l, (x, q)) ∈ ways -> way (visible l) q.
Proof.
  intros H. unfold ways in H.
  assert (R : ~ index_name "Row") by (apply no_index; reflexivity).
  assert (X : ~ index_name "x") by (apply no_index; reflexivity).
  assert (Y : ~ index_name "y") by (apply no_index; reflexivity).
  repeat (apply elem_of_cons in H as [[= -> -> ->]|H]); [| | | |by apply elem_of_nil in H]; cbn [visible List.filter negb String.eqb]; apply wy_name; [done| |done| |done| |done|].
  - apply (wy_index "1" 1); [by apply number|constructor].
  - apply (wy_index "0" 0); [by apply number|]. apply (wy_index "+2" 2); [by apply number|constructor].
  - apply (wy_index "0" 0); [by apply number|]. apply wy_name; [done|constructor].
  - apply (wy_skip "k"); [apply no_number_k|done|]. apply wy_name; [done|constructor].
Qed.
Lemma rows_build : is_map rows ∧ ~ stamped rows ∧ keyed schema_name rows ∧
  (forall l x, leaf_at rows l x -> "array" ∉ l ∧ exists q, way (visible l) q) ∧
  (forall l l' x x' q q', leaf_at rows l x -> leaf_at rows l' x' -> way (visible l) q -> way (visible l') q' -> q `prefix_of` q' -> l = l') ∧
  build_from_leaf_nodes rows = Ok rows_built.
Proof.
  split; [by eexists|]. split; [intros (m & [= <-] & H); revert H; vm_compute; set_solver|].
  split; [|split; [|split; [|vm_compute; reflexivity]]].
  - show_keyed.
  - intros l x [q H]%rows_leaves. split; [|exists q; by eapply rows_ways]. unfold ways in H.
    repeat (apply elem_of_cons in H as [[= -> -> ->]|H]); [set_solver..|by apply elem_of_nil in H].
  - intros l l' x x' q q' [q1 H]%rows_leaves [q1' H']%rows_leaves Hq Hq'.
    rewrite (way_fun _ _ _ Hq (rows_ways _ _ _ H)), (way_fun _ _ _ Hq' (rows_ways _ _ _ H')). clear Hq Hq'. unfold ways in H, H'.
    repeat (apply elem_of_cons in H as [[= -> -> ->]|H]); [| | | |by apply elem_of_nil in H];
    repeat (apply elem_of_cons in H' as [[= -> -> ->]|H']); try (by apply elem_of_nil in H'); intros [z E]; first [reflexivity|discriminate E].
Qed.
