(** Concrete cases and witnesses for [Prop_Tjson.v]. *)
From Verif Require Import Base BaseSpec BaseSpecLemmas F64 Tson BaseLemmas Tjson TjsonSpec TjsonLemmas.
From Coq Require Import Lia.

(** A sort: insertion, stable. *)
Section isort.
Context {A : Type} (key : A -> Z).
Fixpoint ins (x : A) (l : list A) : list A :=
  match l with
  | [] => [x]
  | y :: l' => if key x <=? key y then x :: l else y :: ins x l'
  end.
Fixpoint isort (l : list A) : list A :=
  match l with [] => [] | x :: l' => ins x (isort l') end.
Lemma ins_perm x l : Permutation (ins x l) (x :: l).
Proof.
  induction l as [|y l IH]; [done|]. simpl. destruct (key x <=? key y); [done|]. rewrite IH. constructor.
Qed.
Lemma ins_sorted x l : StronglySorted (fun x y => key x <= key y) l ->
  StronglySorted (fun x y => key x <= key y) (ins x l).
Proof.
  induction 1 as [|y l Hs IH Hf]; [by repeat constructor|]. simpl.
  destruct (key x <=? key y) eqn:E.
  - constructor; [by constructor|]. apply Z.leb_le in E. constructor; [done|].
    eapply Forall_impl; [exact Hf|]. simpl. intros. lia.
  - constructor; [done|]. rewrite ins_perm. apply Z.leb_gt in E. constructor; [lia|done].
Qed.
Lemma isort_sorting : sorting key isort.
Proof.
  intros l. induction l as [|x l [IH1 IH2]]; [split; constructor|]. simpl. split.
  - rewrite ins_perm. by constructor.
  - by apply ins_sorted.
Qed.
End isort.

Lemma period_parse x a b : period x a b -> a < 2 ^ 63 -> b < 2 ^ 63 -> parse_range x = (a, b).
Proof.
  intros (y & z & -> & Hy & Hz) Ha Hb.
  assert (Hlax : forall s n, nat_text s n -> n < 2 ^ 63 -> parse_int_lax s = n ∧ contains "-" s = false).
  { intros s n [s0 m Hm] Hn. split; [|by eapply digits_no_dash].
    destruct (digits_head _ _ Hm) as (c & r & -> & Hc). apply digits_model in Hm as (_ & Hd & Hv).
    unfold parse_int_lax. destruct (is_digit_not_sign c Hc) as [H1 H2]. rewrite !decide_False by done.
    rewrite Hd, Hv. unfold int64_min, int64_max. lia. }
  apply Hlax in Hy as [Hy1 Hy2]; [|done]. apply Hlax in Hz as [Hz1 Hz2]; [|done].
  unfold parse_range. change ("-" +++ z) with (String "-" z).
  rewrite split_on_app, split_on_none by done. by rewrite Hy1, Hz1.
Qed.
Definition tsort : list (string * json) -> list (string * json) :=
  isort (fun v => fst (parse_range (fst v))).
Lemma tsort_by_start : by_start tsort.
Proof.
  intros l Hl. destruct (isort_sorting (fun v : string * json => fst (parse_range (fst v))) l) as [HP HS].
  split; [exact HP|]. unfold tsort.
  assert (Hl' : forall x v, (x, v) ∈ isort (fun v : string * json => fst (parse_range (fst v))) l ->
     exists a b, period x a b ∧ a < 2 ^ 63 ∧ b < 2 ^ 63).
  { intros x v Hx. rewrite HP in Hx. eauto. }
  clear HP Hl. revert Hl'. induction HS as [|[x v] m Hs IH Hf]; intros Hl; [constructor|].
  constructor; [apply IH; intros x' v' Hx; apply (Hl x' v'); set_solver|].
  rewrite Forall_forall in Hf. apply Forall_forall. intros [y w] Hy a b a' b' H1 H2.
  specialize (Hf _ Hy). cbn [fst] in *.
  destruct (Hl x v) as (c & d & Hp & Hc & Hd); [set_solver|].
  destruct (Hl y w) as (c' & d' & Hp' & Hc' & Hd'); [set_solver|].
  destruct (period_fun _ _ _ _ _ H1 Hp) as [-> ->]. destruct (period_fun _ _ _ _ _ H2 Hp') as [-> ->].
  rewrite (period_parse _ _ _ Hp), (period_parse _ _ _ Hp') in Hf by done. done.
Qed.
Definition psort : list tpatch -> list tpatch := isort tp_ts.
Definition ord0 (m : list (string * (Z * json))) : list (string * (Z * json)) := m.
Lemma psort_sorting : sorting tp_ts psort.
Proof. apply isort_sorting. Qed.
Lemma ord0_perm m : Permutation (ord0 m) m.
Proof. done. Qed.

Definition jn (z : Z) : json := JNum (f64_of_Z z).
(** A speed that changes twice, is set again to the same value and removed; a door below a
    body that was itself set to an object. *)
Definition trip : list tpatch :=
  [TPatch "replace" "/Vehicle/Speed" (jn 80) 20;
   TPatch "add" "/Vehicle/Speed" (jn 0) 0;
   TPatch "replace" "/Vehicle/Speed" (jn 50) 10;
   TPatch "replace" "/Vehicle/Speed" (jn 50) 12;
   TPatch "remove" "/Vehicle/Speed" JNull 30;
   TPatch "add" "Vehicle.Body" (JObj [("Lights", JBool false)]) 4;
   TPatch "add" "/Vehicle/Body/Door" (JStr "open") 5;
   TPatch "add" "/Solo" (jn 1) 6].
Definition tripdoc : tdoc := from_patches psort ord0 1000 trip.

Lemma names_by s l : split_on dot s = l -> names ["."%char] s l.
Proof. intros H. by apply names_split. Qed.
Lemma trip_times key : (forall p, p ∈ trip -> 0 <= tp_ts p < 2 ^ 63) ∧
  (length (List.filter (at_zero key) trip) <= 1)%nat -> times_ok (split_on dot key) trip.
Proof.
  intros [H1 H2]. split; [eauto|]. left. intros a p b p' c E Hp Hp' H0 H0'.
  apply route_split, split_inj in Hp. apply route_split, split_inj in Hp'.
  eapply (proj1 (at_most_one (at_zero key) trip) H2 a p b p' c); [done|..];
    unfold at_zero; rewrite bool_decide_eq_true_2 by done; by apply Z.eqb_eq.
Qed.
Lemma trip_range p : p ∈ trip -> 0 <= tp_ts p < 2 ^ 63.
Proof.
  assert (H : forallb (fun p => (0 <=? tp_ts p) && (tp_ts p <? 2 ^ 63)) trip = true) by reflexivity.
  rewrite forallb_forall in H. intros Hp. apply elem_of_list_In, H, andb_true_iff in Hp. lia.
Qed.
Lemma speed_times : times_ok ["Vehicle"; "Speed"] trip.
Proof. apply (trip_times "Vehicle.Speed"). split; [apply trip_range|vm_compute; lia]. Qed.
Lemma door_times : times_ok ["Vehicle"; "Body"; "Door"] trip.
Proof. apply (trip_times "Vehicle.Body.Door"). split; [apply trip_range|vm_compute; lia]. Qed.
Lemma body_times : times_ok ["Vehicle"; "Body"] trip.
Proof. apply (trip_times "Vehicle.Body"). split; [apply trip_range|vm_compute; lia]. Qed.

Lemma trip_track : tj_track tsort tripdoc "Vehicle.Speed" 5 15 = Ok [("0-9", jn 0); ("10-19", jn 50)].
Proof. vm_compute. reflexivity. Qed.
Lemma trip_events : tj_events tsort tripdoc "Vehicle.Speed" 5 40
    (fun j => match j with JNum x => f64_eq x (f64_of_Z 80) | _ => false end) = Ok [20].
Proof. vm_compute. reflexivity. Qed.
Lemma pred_alike v w : alike v w ->
  (fun j => match j with JStr x => bool_decide (x = "open") | _ => false end) v
  = (fun j => match j with JStr x => bool_decide (x = "open") | _ => false end) w.
Proof. intros [->|H]; [done|]. by destruct H. Qed.
Lemma door_events : tj_events tsort tripdoc "Vehicle.Body.Door" 0 900
    (fun j => match j with JStr x => bool_decide (x = "open") | _ => false end) = Ok [5].
Proof. vm_compute. reflexivity. Qed.

Lemma value_by key t ps r : val_at key t ps = r -> value_at (split_on dot key) t ps r.
Proof. intros H. by apply value_at_fun. Qed.
Lemma trip_value : value_at ["Vehicle"; "Speed"] 14 (psort trip) (Some (jn 50))
  ∧ value_at ["Vehicle"; "Speed"] 35 (psort trip) None
  ∧ value_at ["Vehicle"; "Body"; "Door"] 7 (psort trip) (Some (JStr "open")).
Proof.
  split; [|split].
  - apply (value_by "Vehicle.Speed"). vm_compute. reflexivity.
  - apply (value_by "Vehicle.Speed"). vm_compute. reflexivity.
  - apply (value_by "Vehicle.Body.Door"). vm_compute. reflexivity.
Qed.
Lemma not_sets_door p k r : p ∈ trip -> ~ sets p (["Vehicle"; "Body"; "Door"] ++ k :: r).
Proof.
  intros Hp [_ H]. apply route_split in H. revert H.
  repeat (apply elem_of_cons in Hp as [->|Hp]; [vm_compute; congruence|]). by apply elem_of_nil in Hp.
Qed.
Lemma door_ancestors p pre k r : p ∈ trip -> ["Vehicle"; "Body"; "Door"] = pre ++ k :: r ->
  (2 <= length pre)%nat -> sets p pre -> exists m, tp_value p = JObj m.
Proof.
  intros Hp E Hl [Ho H]. apply route_split in H.
  assert (pre = ["Vehicle"; "Body"]) as ->.
  { destruct pre as [|a [|b [|c pre]]]; simpl in *; try lia; [by injection E as <- <- <- <-|].
    injection E as <- <- <- E. destruct pre; done. }
  revert H. repeat (apply elem_of_cons in Hp as [->|Hp]; [vm_compute; try congruence; eauto|]).
  by apply elem_of_nil in Hp.
Qed.
Lemma trip_snapshot : tj_snapshot tripdoc 14
  = [("Vehicle", JObj [("Speed", jn 50);
       ("Body", JObj [("Lights", JBool false); ("Door", JStr "open")])])].
Proof. vm_compute. reflexivity. Qed.

(** Findings. *)
Definition tie : list tpatch := [TPatch "add" "/a/b" (jn 1) 0; TPatch "replace" "/a/b" (jn 2) 0].
Lemma tie_refuted : value_at ["a"; "b"] 0 (psort tie) (Some (jn 2)) ∧
  below ["a"; "b"] (JObj (tj_snapshot (from_patches psort ord0 1000 tie) 0)) = Some (jn 1) ∧
  ~ alike (jn 1) (jn 2).
Proof.
  split; [apply (value_by "a.b"); vm_compute; reflexivity|]. split; [vm_compute; reflexivity|].
  intros [H|H]; [discriminate H|]. apply json_deep_eq_spec in H. by vm_compute in H.
Qed.
Lemma gone_refuted :
  value_at ["Vehicle"; "Speed"] 35 (psort trip) None ∧
  below ["Vehicle"; "Speed"] (JObj (tj_snapshot tripdoc 35)) = Some (jn 80) ∧
  value_at ["Vehicle"; "Body"; "Door"] 2 (psort trip) None ∧
  below ["Vehicle"; "Body"; "Door"] (JObj (tj_snapshot tripdoc 2)) = Some (JStr "open").
Proof.
  split; [apply trip_value|]. split; [vm_compute; reflexivity|]. split; [|vm_compute; reflexivity].
  apply (value_by "Vehicle.Body.Door"). vm_compute. reflexivity.
Qed.
Definition late : list tpatch := [TPatch "add" "/a/b" (jn 1) 5000].
Lemma late_refuted : value_at ["a"; "b"] 6000 (psort late) (Some (jn 1)) ∧
  tj_track tsort (from_patches psort ord0 1000 late) "a.b" 5500 7000 = Ok [].
Proof. split; [apply (value_by "a.b")|]; vm_compute; reflexivity. Qed.
Definition shadow : list tpatch := [TPatch "add" "/a/b" (jn 1) 5; TPatch "add" "/a/b/c" (jn 2) 6].
Lemma shadow_refuted : value_at ["a"; "b"; "c"] 7 (psort shadow) (Some (jn 2)) ∧
  below ["a"; "b"; "c"] (JObj (tj_snapshot (from_patches psort ord0 1000 shadow) 7)) = None.
Proof. split; [apply (value_by "a.b.c")|]; vm_compute; reflexivity. Qed.
Definition clash : list tpatch := [TPatch "add" "/a.b/c" (jn 1) 5; TPatch "add" "/a/b/c" (jn 2) 6].
Lemma clash_refuted : tj_track tsort (from_patches psort ord0 1000 clash) "a.b.c" 0 2000
  = Ok [("5-5", jn 1); ("6-1000", jn 2)].
Proof. vm_compute. reflexivity. Qed.
Lemma solo_refuted : value_at ["Solo"] 7 (psort trip) (Some (jn 1)) ∧
  below ["Solo"] (JObj (tj_snapshot tripdoc 7)) = None ∧
  tj_track tsort tripdoc "Solo" 0 1000 = Ok [].
Proof. split; [apply (value_by "Solo")|split]; vm_compute; reflexivity. Qed.
