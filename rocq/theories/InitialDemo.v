(** Concrete cases and witnesses for [Prop_Initial.v]. *)
From stdpp Require Import pretty.
From Verif Require Import Base BaseSpec BaseSpecLemmas BaseLemmas F64 Tson TsonInd TsonSpec.
From Verif Require Import Tjson TjsonSpec TjsonLemmas TjsonDemo Initial InitialSpec InitialLemmas.
From Coq Require Import Lia.

Definition car : tson :=
  TObj [("Vehicle", TObj [("Speed", TLeaf (PNum (f64_of_Z 0)) 3);
                          ("Body", TObj [("Door", TLeaf (PStr "shut") 4)]);
                          ("Seats", TArr [TLeaf (PBool true) 5; TLeaf (PBool false) 6])])].
Definition car_members : list (string * json) :=
  [("Vehicle", JObj [("Speed", jn 0); ("Body", JObj [("Door", JStr "shut")]);
                     ("Seats", JArr [JBool true; JBool false])])].
Definition car_file : json := compat_image car.
Lemma car_unstamped : unstamped car.
Proof. repeat (constructor; try (intros [H1 H2]; set_solver)). Qed.
Lemma car_plain : to_compatible car = Ok car_file ∧ transform car_file = JObj car_members.
Proof. split; reflexivity. Qed.
Lemma good k : free_of ["/"; "."]%char k -> k ≠ "" -> simple_name k.
Proof. by split. Qed.
Lemma scalar_by j : is_primitive j = true -> scalar j.
Proof. apply primitive_scalar. Qed.
Ltac free := repeat (constructor; [intros [[=]|[[=]|[]]]|]); constructor.
Lemma car_named : named simple_name (JObj car_members).
Proof.
  repeat first [ apply nd_scalar; apply scalar_by; reflexivity
               | apply nd_obj | apply nd_arr
               | apply good; [free|done]
               | apply NoDup_nil_2
               | apply Forall_nil_2 | apply Forall_cons_2
               | apply NoDup_cons_2; [set_solver|] ].
Qed.
Definition null_file : json :=
  JObj [("a", JObj [("timestamp", jn 1); ("value", JNull)]); ("b", JArr [JObj [("value", jn 2); ("timestamp", JNull)]])].
Lemma null_case : named (fun _ => True) null_file ∧ transform null_file = JObj [("a", JStr ""); ("b", JArr [jn 2])].
Proof.
  split; [|reflexivity].
  repeat first [ apply nd_scalar; apply scalar_by; reflexivity | apply nd_obj | apply nd_arr | exact I | apply NoDup_nil_2
               | apply Forall_nil_2 | apply Forall_cons_2 | apply NoDup_cons_2; [set_solver|] ].
Qed.
Definition car_updates : list tpatch :=
  [TPatch "replace" "/Vehicle/Speed" (jn 50) 10; TPatch "replace" "/Vehicle/Speed" (jn 80) 20;
   TPatch "replace" "/Vehicle/Body/Door" (JStr "open") 15].
Lemma car_speed : place (JObj car_members) ["Vehicle"; "Speed"] (jn 0).
Proof. econstructor; [left|]. econstructor; [left|]. constructor. Qed.
Lemma car_door : place (JObj car_members) ["Vehicle"; "Body"; "Door"] (JStr "shut").
Proof.
  econstructor; [left|]. econstructor; [right; left|]. econstructor; [left|]. constructor.
Qed.
Lemma car_seat : place (JObj car_members) ["Vehicle"; "Seats"; "1"] (JBool false).
Proof.
  econstructor; [left|]. econstructor; [right; right; left|].
  change "1" with (pretty 1%nat). econstructor; [reflexivity|]. constructor.
Qed.
Lemma route_by s l : split_on dot (tj_path s) = l -> route s l.
Proof. apply route_split. Qed.
Lemma car_updates_ok u : u ∈ car_updates -> 0 <= tp_ts u < 2 ^ 63 ∧
  exists l v, place (JObj car_members) l v ∧ scalar v ∧ sets u l.
Proof.
  intros H. repeat apply elem_of_cons in H as [->|H]; [..|by apply elem_of_nil in H]; (split; [simpl; lia|]).
  - exists ["Vehicle"; "Speed"], (jn 0). split; [exact car_speed|]. split; [by apply scalar_by|].
    split; [by right|by apply route_by].
  - exists ["Vehicle"; "Speed"], (jn 0). split; [exact car_speed|]. split; [by apply scalar_by|].
    split; [by right|by apply route_by].
  - exists ["Vehicle"; "Body"; "Door"], (JStr "shut"). split; [exact car_door|]. split; [by apply scalar_by|].
    split; [by right|by apply route_by].
Qed.
Lemma car_shown : shown car_updates ["Vehicle"; "Speed"] (jn 0) 12 (jn 50)
  ∧ shown car_updates ["Vehicle"; "Body"; "Door"] (JStr "shut") 12 (JStr "shut").
Proof.
  split.
  - apply (sh_update _ _ _ _ (TPatch "replace" "/Vehicle/Speed" (jn 50) 10)); simpl; [left| |lia|].
    + split; [by right|by apply route_by].
    + intros u H. repeat apply elem_of_cons in H as [->|H]; [..|by apply elem_of_nil in H]; intros _ Hle; simpl in *; [by left|lia|lia].
  - apply sh_initial. intros u H.
    repeat apply elem_of_cons in H as [->|H]; [..|by apply elem_of_nil in H]; intros [_ Hr] ; simpl in *; try lia;
      apply route_split in Hr; vm_compute in Hr; discriminate.
Qed.
Lemma car_late u : u ∈ car_updates -> 1 <= tp_ts u.
Proof. intros H. repeat apply elem_of_cons in H as [->|H]; [..|by apply elem_of_nil in H]; simpl; lia. Qed.
Definition car_doc : tdoc := from_patches psort ord0 1000 (initial_patches car_file ++ car_updates).
Lemma car_snapshot : tj_snapshot car_doc 12 =
  [("Vehicle", JObj [("Speed", jn 50); ("Body", JObj [("Door", JStr "shut")]);
                     ("Seats", JObj [("0", JBool true); ("1", JBool false)])])].
Proof. vm_compute. reflexivity. Qed.

(** Updates at time 0, the members of the root, and arrays. *)
Definition zero_updates : list tpatch := [TPatch "replace" "/Vehicle/Speed" (jn 50) 0].
Lemma zero_shown : shown zero_updates ["Vehicle"; "Speed"] (jn 0) 0 (jn 50)
  ∧ below ["Vehicle"; "Speed"] (JObj (tj_snapshot
      (from_patches psort ord0 1000 (initial_patches car_file ++ zero_updates)) 0)) = Some (jn 0)
  ∧ ~ alike (jn 0) (jn 50).
Proof.
  split; [|split; [vm_compute; reflexivity|]].
  - apply (sh_update _ _ _ _ (TPatch "replace" "/Vehicle/Speed" (jn 50) 0)); simpl; [left| |lia|].
    + split; [by right|by apply route_by].
    + intros u H. repeat apply elem_of_cons in H as [->|H]; [by left|by apply elem_of_nil in H].
  - intros [H|H]; [discriminate H|]. apply json_deep_eq_spec in H. by vm_compute in H.
Qed.
(** A sort that puts the update at time 0 in front of the initial value. *)
Definition tie_sort (l : list tpatch) : list tpatch := psort (rev l).
Lemma tie_lost : sorting tp_ts tie_sort ∧ shown zero_updates ["Vehicle"; "Speed"] (jn 0) 5 (jn 50)
  ∧ below ["Vehicle"; "Speed"] (JObj (tj_snapshot
      (from_patches tie_sort ord0 1000 (initial_patches car_file ++ zero_updates)) 5)) = Some (jn 0)
  ∧ below ["Vehicle"; "Speed"] (JObj (tj_snapshot
      (from_patches psort ord0 1000 (initial_patches car_file ++ zero_updates)) 5)) = Some (jn 50).
Proof.
  split; [|split; [|split; vm_compute; reflexivity]].
  - intros l. destruct (psort_sorting (rev l)) as [H1 H2]. split; [|exact H2].
    etrans; [exact H1|]. symmetry. apply Permutation_rev.
  - apply (sh_update _ _ _ _ (TPatch "replace" "/Vehicle/Speed" (jn 50) 0)); simpl; [left| |lia|].
    + split; [by right|by apply route_by].
    + intros u H. repeat apply elem_of_cons in H as [->|H]; [by left|by apply elem_of_nil in H].
Qed.
Definition root_file : json := JObj [("Speed", jn 7); ("Vehicle", JObj [("Speed", jn 8)])].
Lemma root_lost : place root_file ["Speed"] (jn 7)
  ∧ below ["Speed"] (JObj (tj_snapshot (from_patches psort ord0 1000 (initial_patches root_file)) 5)) = None.
Proof. split; [|vm_compute; reflexivity]. econstructor; [left|]. constructor. Qed.
Lemma array_lost : place (JObj car_members) ["Vehicle"; "Seats"] (JArr [JBool true; JBool false])
  ∧ below ["Vehicle"; "Seats"] (JObj (tj_snapshot car_doc 12))
    = Some (JObj [("0", JBool true); ("1", JBool false)]).
Proof.
  split; [|vm_compute; reflexivity].
  econstructor; [left|]. econstructor; [right; right; left|]. constructor.
Qed.
(** An object with members named like the parts of a leaf. *)
Definition stamped : tson :=
  TObj [("Trip", TObj [("timestamp", TLeaf (PNum (f64_of_Z 1)) 9); ("value", TLeaf (PNum (f64_of_Z 2)) 9);
                       ("km", TLeaf (PNum (f64_of_Z 3)) 9)])].
Lemma stamped_lost : transform (compat_image stamped)
    = JObj [("Trip", JObj [("value", jn 2); ("timestamp", jn 9)])]
  ∧ plain_json stamped
    = JObj [("Trip", JObj [("timestamp", jn 1); ("value", jn 2); ("km", jn 3)])].
Proof. split; vm_compute; reflexivity. Qed.
Lemma initial_case : initial_patches car_file =
  [TPatch "add" "Vehicle" (JObj [("Speed", jn 0)]) 0; TPatch "add" "Vehicle.Speed" (jn 0) 0;
   TPatch "add" "Vehicle" (JObj [("Speed", jn 0)]) 0;
   TPatch "add" "Vehicle.Body" (JObj [("Door", JStr "shut")]) 0;
   TPatch "add" "Vehicle.Body.Door" (JStr "shut") 0;
   TPatch "add" "Vehicle" (JObj [("Speed", jn 0)]) 0;
   TPatch "add" "Vehicle.Seats.0" (JBool true) 0; TPatch "add" "Vehicle.Seats.1" (JBool false) 0].
Proof. vm_compute. reflexivity. Qed.
Lemma car_nonempty : named nonempty (JObj car_members).
Proof. eapply named_impl; [|exact car_named]. by intros k [? _]. Qed.
Lemma car_encodable : json_encodable (JObj car_members) = true.
Proof. reflexivity. Qed.
