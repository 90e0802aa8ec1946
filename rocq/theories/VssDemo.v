(** Concrete cases and witnesses for [Prop_Vss.v]. *)
From stdpp Require Import pretty.
From Verif Require Import Base BaseLemmas BaseSpec TjsonSpec TjsonLemmas F64 Bytes BytesLemmas Vss VssSpec VssLemmas VssPlace VssFloat VssGen VssData VssNext.
From Coq Require Import Lia.

(** The leaves of concrete data. *)
Fixpoint leaves (d : wjson) : list (list string * wjson) :=
  match d with
  | WObj m =>
      match alookup "timestamp" m with
      | Some _ => [([], d)]
      | None =>
          (fix go (m : list (string * wjson)) : list (list string * wjson) :=
             match m with
             | [] => []
             | (k, v) :: m' => map (fun lx => (k :: fst lx, snd lx)) (leaves v) ++ go m'
             end) m
      end
  | _ => [([], d)]
  end.
Lemma leaves_go m k v l x : (k, v) ∈ m -> (l, x) ∈ leaves v ->
  (k :: l, x) ∈ (fix go (m : list (string * wjson)) : list (list string * wjson) :=
             match m with
             | [] => []
             | (k, v) :: m' => map (fun lx => (k :: fst lx, snd lx)) (leaves v) ++ go m'
             end) m.
Proof.
  intros H Hl. induction m as [|[k' v'] m IH]; [by apply elem_of_nil in H|].
  apply elem_of_app. apply elem_of_cons in H as [[= <- <-]|H]; [left|right; by apply IH].
  apply elem_of_list_fmap. by exists (l, x).
Qed.
Lemma leaves_all d l x : leaf_at d l x -> (l, x) ∈ leaves d.
Proof.
  induction 1 as [d Hd|m k v l x Hs Hin Hl IH].
  - destruct d; try (cbn; by left). cbn [leaves]. destruct Hd as [Hd|(m' & [= ->] & Hin)]; [destruct Hd; by eexists|].
    destruct (alookup "timestamp" m') eqn:E; [by left|]. by apply alookup_None_iff in E.
  - cbn [leaves]. destruct (alookup "timestamp" m) eqn:E.
    + destruct Hs. exists m. split; [done|]. apply alookup_Some_in in E. apply elem_of_list_fmap. by eexists (_, _).
    + by apply leaves_go with v.
Qed.
Lemma leaves_go_inv m p : p ∈ (fix go (m : list (string * wjson)) : list (list string * wjson) :=
             match m with
             | [] => []
             | (k, v) :: m' => map (fun lx => (k :: fst lx, snd lx)) (leaves v) ++ go m'
             end) m -> exists k v l x, (k, v) ∈ m ∧ (l, x) ∈ leaves v ∧ p = (k :: l, x).
Proof.
  induction m as [|[k v] m IH]; [by intros H%elem_of_nil|]. intros [H|H]%elem_of_app.
  - apply elem_of_list_fmap in H as ([l x] & -> & H). exists k, v, l, x. split; [by left|done].
  - destruct (IH H) as (k' & v' & l & x & H1 & H2 & H3). exists k', v', l, x. split; [by right|done].
Qed.
Lemma leaves_sound d : forall l x, (l, x) ∈ leaves d -> leaf_at d l x.
Proof.
  induction d as [| | | | | |m IH] using wjson_ind'; intros q y Hq;
    try (cbn in Hq; apply elem_of_list_singleton in Hq as [= -> ->]; apply la_here; left; by intros [? ?]).
  cbn [leaves] in Hq. destruct (alookup "timestamp" m) eqn:E.
  - apply elem_of_list_singleton in Hq as [= -> ->]. apply la_here. right. exists m. split; [done|].
    apply alookup_Some_in in E. apply elem_of_list_fmap. by eexists (_, _).
  - apply leaves_go_inv in Hq as (k & v & l' & x' & H1 & H2 & [= -> ->]). rewrite Forall_forall in IH.
    apply la_in with v; [|done|by apply (IH (k, v))]. intros (m' & [= <-] & Hi). by apply alookup_None_iff in E.
Qed.
Ltac each H := repeat (apply elem_of_cons in H as [[= -> ->]|H]); [..|by apply elem_of_nil in H].

(** ** A schema *)
Definition signal (t : string) : wjson :=
  WObj [("datatype", WStr t); ("type", WStr "sensor"); ("uuid", WStr "1f"); ("unit", WStr "percent")].
Definition spec_file : wjson :=
  WObj [("Vehicle", WObj [("children", WObj
     [("Speed", signal "float");
      ("Body", WObj [("children", WObj [("Lock", signal "boolean"); ("Mode", WObj [("datatype", WStr "string"); ("allowed", WArr [WStr "ON"; WStr "OFF"])]);
                                        ("Codes", signal "uint8[]")])])])])].
Definition signal' (t : string) : wjson := WObj [("datatype", WStr t); ("unit", WStr "percent")].
Definition spec_clean : wjson :=
  WObj [("Vehicle", WObj [("children", WObj
     [("Speed", signal' "float");
      ("Body", WObj [("children", WObj [("Lock", signal' "boolean"); ("Mode", WObj [("datatype", WStr "string"); ("allowed", WArr [WStr "ON"; WStr "OFF"])]);
                                        ("Codes", signal' "uint8[]")])])])])].
Lemma spec_new : new_vss spec_file = Ok (Vss false spec_clean).
Proof. reflexivity. Qed.
Lemma not_map d : match d with WObj _ => False | _ => True end -> ~ is_map d.
Proof. intros H [m ->]. done. Qed.
Ltac show_keyed := repeat first
  [ apply ky_scalar; [by apply not_map|done] | apply ky_obj | apply ky_arr
  | apply NoDup_nil_2 | apply Forall_nil_2 | apply Forall_cons_2 | apply NoDup_cons_2; [set_solver|]
  | split; [split; [done|repeat (constructor; [intros [[=]|[]]|]); constructor]|] ].
Lemma spec_names : keyed schema_name spec_clean.
Proof. show_keyed. Qed.
Lemma spec_schema : schema spec_clean.
Proof.
  constructor.
  - by eexists.
  - apply spec_names.
  - intros l x H%leaves_all. vm_compute in H. each H; cbn; lia.
  - intros l l' x x' H%leaves_all H'%leaves_all. vm_compute in H, H'. each H; each H'; intros E; first [reflexivity|discriminate E].
  - intros ns ns' (n & x & l & H & E) (n' & x' & l' & H' & E'). apply leaves_all in H, H'. vm_compute in H, H'.
    assert (F : forall k r (s : list string) y, (k :: r = s ++ [y]) -> s = removelast (k :: r)).
    { intros k r s y ->. by rewrite removelast_last. }
    intros P. each H; each H'; cbn in E, E'; apply F in E; apply F in E'; subst; cbn in *; first [reflexivity|
      exfalso; destruct P as [z P]; discriminate P].
  - intros ns x (l & H & E). apply leaves_all in H. vm_compute in H. each H; cbn in E; try (by eauto);
    exfalso; apply (f_equal (fun z => last z)) in E; rewrite last_snoc in E; discriminate E.
Qed.

Lemma spec_attr l x n ns : (l, x) ∈ leaves spec_clean -> visible l = ns ++ [n] -> attr spec_clean ns n x.
Proof. intros H E. exists l. split; [by apply leaves_sound|done]. Qed.
Ltac listed := repeat first [left; reflexivity|right].
Lemma spec_typed : typed spec_clean.
Proof.
  assert (F : forall k r (s : list string) y, (k :: r = s ++ [y]) -> s = removelast (k :: r)).
  { intros k r s y ->. by rewrite removelast_last. }
  intros ns (n & x & l & H & E). apply leaves_all in H. vm_compute in H.
  split.
  - each H; cbn in E; apply F in E; subst ns; cbn.
    1-2: exists "float"; split; [listed|]; by apply (spec_attr ["Vehicle"; "children"; "Speed"; "datatype"]); [vm_compute; listed|].
    1-2: exists "boolean"; split; [listed|]; by apply (spec_attr ["Vehicle"; "children"; "Body"; "children"; "Lock"; "datatype"]); [vm_compute; listed|].
    1-2: exists "string"; split; [listed|]; by apply (spec_attr ["Vehicle"; "children"; "Body"; "children"; "Mode"; "datatype"]); [vm_compute; listed|].
    1-2: exists "uint8[]"; split; [listed|]; by apply (spec_attr ["Vehicle"; "children"; "Body"; "children"; "Codes"; "datatype"]); [vm_compute; listed|].
  - clear. intros al (l & H & E). apply leaves_all in H.
    assert (forall l x, (l, x) ∈ leaves spec_clean -> forall al, x = WArr al -> Forall plain_value al) as G.
    { clear. intros l x H al. vm_compute in H. each H; intros E; try discriminate E. injection E as <-. by repeat constructor. }
    by apply (G l (WArr al) H).
Qed.
(** The numbers drawn: 1/4 for every float, 1 for every integer; for the speed 1/4 and 3/4. *)
Definition quarter : f64 := S754_finite false 4503599627370496 (-54).
Definition three_quarters : f64 := S754_finite false 6755399441055744 (-53).
Definition few : draws := Draws (fun n => if Nat.even n then quarter else three_quarters) (fun _ b => Z.min 1 (b - 1)).
Definition many : draws := Draws (fun _ => three_quarters) (fun _ b => Z.min 1 (b - 1)).
Definition demo_draws (p : string) : draws := if String.eqb p "Vehicle.Speed" then few else if String.eqb p "Vehicle.Body.Mode" then many else few.
Lemma quarter_unit : unit_float quarter.
Proof. constructor; vm_compute; intuition discriminate. Qed.
Lemma three_quarters_unit : unit_float three_quarters.
Proof. constructor; vm_compute; intuition discriminate. Qed.
Lemma demo_fair p : fair (demo_draws p).
Proof.
  assert (H1 : fair few).
  { split; [intros n; cbn; destruct (Nat.even n); [apply quarter_unit|apply three_quarters_unit]|]. intros n b. cbn. lia. }
  assert (H2 : fair many) by (split; [intros n; apply three_quarters_unit|intros n b; cbn; lia]).
  unfold demo_draws. by repeat case_match.
Qed.
Definition leaf_case (v : wjson) (ts : Z) : wjson := WObj [("value", v); ("timestamp", WInt ts)].
Definition demo_data (speed : f64) (lock : bool) (mode : string) (t1 t2 t3 t4 : Z) : wjson :=
  WObj [("Vehicle", WObj [("Speed", leaf_case (WNum speed) t1);
    ("Body", WObj [("Lock", leaf_case (WBool lock) t2); ("Mode", leaf_case (WStr mode) t3);
                   ("Codes", WArr [leaf_case (WInt 1) t4; leaf_case (WInt 1) t4])])])].
Lemma demo_generate : generate (f64_of_Z 1) demo_draws id 1000 (Vss false spec_clean)
  = Ok (Vss true (demo_data (f64_of_Z 75) false "OFF" 1000 1000 1000 1000)).
Proof. vm_compute. reflexivity. Qed.
Lemma demo_half : generate one_half demo_draws id 1000 (Vss false spec_clean)
  = Ok (Vss true (WObj [("Vehicle", WObj [("Speed", leaf_case (WNum (f64_of_Z 75)) 1000);
      ("Body", WObj [("Lock", leaf_case (WBool false) 1000);  ("Codes", WArr [leaf_case (WInt 1) 1000; leaf_case (WInt 1) 1000])])])])).
Proof. vm_compute. reflexivity. Qed.
Lemma demo_dataset : dataset (demo_data (f64_of_Z 75) false "OFF" 1000 1000 1000 1000).
Proof.
  destruct (generate_dataset (f64_of_Z 1) demo_draws id 1000 false spec_clean) as (r & E & H & _).
  - apply spec_schema.
  - apply spec_typed.
  - apply demo_fair.
  - done.
  - rewrite demo_generate in E. by injection E as <-.
Qed.
(** Half of the values change; the others keep value and timestamp. *)
Lemma demo_next : next_data one_half (S754_zero false) demo_draws 2000 (Vss true (demo_data (f64_of_Z 75) false "OFF" 1000 1000 1000 1000))
  = Ok (demo_data (f64_of_Z 75) true "OFF" 2000 2000 1000 2000).
Proof. vm_compute. reflexivity. Qed.
Lemma demo_renew : next_data (S754_zero false) one_half demo_draws 2000 (Vss true (demo_data (f64_of_Z 75) false "OFF" 1000 1000 1000 1000))
  = Ok (demo_data (f64_of_Z 75) false "OFF" 2000 2000 1000 2000).
Proof. vm_compute. reflexivity. Qed.
Lemma demo_rounds : rounds one_half (S754_zero false) (demo_data (f64_of_Z 75) false "OFF" 1000 1000 1000 1000)
  (demo_data (f64_of_Z 75) true "OFF" 2000 2000 1000 2000).
Proof. apply (ro_more _ _ demo_draws 2000 _ _ _ demo_fair demo_next). apply ro_none. Qed.
(** ** Other cases *)
Definition listed_branch : wjson :=
  WObj [("A", WObj [("type", WObj [("x", WInt 1)]); ("y", WInt 2)]); ("B", WObj [("type", WObj [("x", WInt 3)]); ("z", WObj [])])].
Lemma branch_removed : new_vss listed_branch =
  Ok (Vss false (WObj [("A", WObj [("y", WInt 2)]); ("B", WObj [("type", WObj [("x", WInt 3)]); ("z", WObj [])])])).
Proof. reflexivity. Qed.
Definition twice : wjson := WObj [("a", WObj [("b", WInt 1); ("children", WObj [("b", WInt 2)])])].
Lemma twice_keyed : keyed schema_name twice.
Proof. show_keyed. Qed.
Lemma twice_nodes : leaf_nodes twice = [("a.b", WInt 1); ("a.b", WInt 2)].
Proof. reflexivity. Qed.
Definition with_null : wjson := WObj [("a", WObj [("b", leaf_case WNull 1000)])].
Lemma null_lost : next_data (f64_of_Z 1) (S754_zero false) demo_draws 2000 (Vss true with_null) = Ok (WObj [("a", WObj [("b", WObj [])])]).
Proof. vm_compute. reflexivity. Qed.
Definition with_empty : wjson := WObj [("a", WObj [("b", leaf_case (WInt 1) 1000); ("c", WObj [])])].
Lemma empty_lost : next_data (S754_zero false) (S754_zero false) demo_draws 2000 (Vss true with_empty)
  = Ok (WObj [("a", WObj [("b", leaf_case (WInt 1) 1000)])]).
Proof. vm_compute. reflexivity. Qed.
(** A node below a node: whichever is visited first, one of them is not where it belongs. *)
Definition below_node : wjson := WObj [("a", WObj [("datatype", WStr "boolean"); ("children", WObj [("b", WObj [("datatype", WStr "boolean")])])])].
Lemma below_misplaced : generate (f64_of_Z 1) demo_draws id 1000 (Vss false below_node)
    = Ok (Vss true (WObj [("a", WObj [("value", WBool false); ("timestamp", WInt 1000); ("b", leaf_case (WBool false) 1000)])]))
  ∧ generate (f64_of_Z 1) demo_draws (@rev _) 1000 (Vss false below_node)
    = Ok (Vss true (WObj [("a", WObj [("b", leaf_case (WBool false) 1000); ("a", leaf_case (WBool false) 1000)])])).
Proof. split; vm_compute; reflexivity. Qed.
Lemma top_panics : generate (f64_of_Z 1) demo_draws id 1000 (Vss false (WObj [("datatype", WStr "boolean")])) = Panic.
Proof. vm_compute. reflexivity. Qed.
(** A datatype that [Generate] does not know. *)
Lemma unknown_empty : generate (f64_of_Z 1) demo_draws id 1000 (Vss false (WObj [("a", WObj [("datatype", WStr "int64")])]))
  = Ok (Vss true (WObj [("a", WObj [])])).
Proof. vm_compute. reflexivity. Qed.
Lemma demo_clear : keyed clear_name (demo_data (f64_of_Z 75) false "OFF" 1000 1000 1000 1000)
  ∧ map fst (leaf_nodes (demo_data (f64_of_Z 75) false "OFF" 1000 1000 1000 1000))
    = ["Vehicle.Speed"; "Vehicle.Body.Lock"; "Vehicle.Body.Mode"; "Vehicle.Body.Codes"].
Proof.
  split; [|reflexivity].
  repeat first
  [ apply ky_scalar; [by apply not_map|done] | apply ky_obj | apply ky_arr
  | apply NoDup_nil_2 | apply Forall_nil_2 | apply Forall_cons_2 | apply NoDup_cons_2; [set_solver|]
  | split; [split; [done|split; [done|repeat (constructor; [intros [[=]|[]]|]); constructor]]|] ].
Qed.
