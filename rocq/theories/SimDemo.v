(** Concrete runs. *)
From Verif Require Import Base BaseSpec F64 Tson Bytes GoText TjsonSpec TjsonLemmas Vss Sensor Scenario Sim SimSpec SimDocs SimInit.

(** A world in which every float drawn is [r]. *)
Definition drawing (r : f64) : draws := {| d_float := fun _ => r; d_int := fun _ _ => 0 |}.
Definition plain_world (r : f64) : world :=
  World (fun x => x) 0 (fun _ _ => drawing r) (fun _ => drawing r) (fun _ _ g => rev g) (fun _ _ g => g).
Lemma plain_orders r : orders_ok (plain_world r).
Proof. split; intros; cbn; [symmetry; apply Permutation_rev|done]. Qed.

Definition num (n d : positive) : f64 := f64_of_ratio false n d.
(** A speed, a fuel level and a light. *)
Definition speed_sensor : sensor :=
  Sensor "Vehicle.Speed" (PNum (f64_of_Z 50)) "number" 7 200 "random_walk" [("step_size", f64_of_Z 2); ("min", f64_of_Z 0); ("max", f64_of_Z 52)] 0.
Definition fuel_sensor : sensor :=
  Sensor "Vehicle.Fuel.Level" (PNum (f64_of_Z 40)) "number" 8 100 "linear" [("slope", f64_of_ratio true 1 100); ("min", f64_of_Z 0); ("max", f64_of_Z 100)] 0.
Definition light_sensor : sensor :=
  Sensor "Vehicle.Light" (PBool false) "boolean" 9 300 "toggle" [("toggle_probability", f64_of_Z 1)] 0.
Definition car : vehicle :=
  [[("Vehicle.Speed", speed_sensor)]; [("Vehicle.Fuel.Level", fuel_sensor); ("Vehicle.Light", light_sensor)]; []; []; []; []].
Definition separate_check (ks : list string) : bool :=
  forallb (fun p => forallb (fun q => bool_decide (p = q) || negb (bool_decide (split_on dot p `prefix_of` split_on dot q))) ks) ks.
Lemma separate_by v : NoDup (akeys (sensors v)) -> separate_check (akeys (sensors v)) = true -> separate v.
Proof.
  intros N G. split; [done|]. intros p q l l' Hp Hq Hne Hl Hl'. unfold dotted in *. apply names_split in Hl, Hl'. subst.
  apply elem_of_list_In in Hp, Hq. pose proof (proj1 (forallb_forall _ _) G p Hp) as G1. pose proof (proj1 (forallb_forall _ _) G1 q Hq) as G'.
  apply orb_prop in G' as [G'|G']; [by apply bool_decide_eq_true in G'|]. apply negb_true_iff in G'. by apply bool_decide_eq_false in G'.
Qed.
Lemma car_separate : separate car.
Proof. apply separate_by; [apply (bool_decide_unpack _); vm_compute; exact I|vm_compute; reflexivity]. Qed.
Lemma car_steady x : x ∈ sensors car -> s_interval (snd x) <> 0.
Proof. intros H. repeat (apply elem_of_cons in H as [->|H]; [done|]). by apply elem_of_nil in H. Qed.
(** One second in steps of 100 ms; every float drawn is 3/4. *)
Definition trip : res run_state := simulate (plain_world (num 3 4)) car None 1 100.
Definition read {A} (f : run_state -> A) (r : res run_state) : option A := match r with Ok m => Some (f m) | _ => None end.
Lemma trip_counts : read (fun m => (m_updates m, m_changes m, m_stamps m)) trip = Some (19, 6, 13).
Proof. vm_compute. reflexivity. Qed.
Lemma trip_lists : read (fun m => (length (m_jpatches m), map sp_ts (filter (fun q => sp_path q = "Vehicle.Speed") (m_spatches m)),
    map (fun q => (sp_path q, sp_ts q)) (m_tpatches m))) trip
  = Some (25%nat, [0; 200; 400; 600; 800],
      [("Vehicle.Speed", 0); ("Vehicle.Light", 0); ("Vehicle.Speed", 200); ("Vehicle.Light", 300); ("Vehicle.Light", 600); ("Vehicle.Light", 900)]).
Proof. vm_compute. reflexivity. Qed.
Lemma trip_total : total_updates 1000 100 (map (fun x => s_interval (snd x)) (sensors car)) = 19.
Proof. vm_compute. reflexivity. Qed.
Lemma trip_tson : read m_tson trip = Some [("Vehicle", WObj [
  ("Speed", leaf_obj "_ts" (PNum (f64_of_Z 52)) 200);
  ("Fuel", WObj [("Level", leaf_obj "_ts" (PNum (f64_of_Z 40)) 8)]);
  ("Light", leaf_obj "_ts" (PBool false) 900)])].
Proof. vm_compute. reflexivity. Qed.
Definition drifted : f64 := f64_add (f64_of_Z 40) (f64_div (f64_mul (f64_of_ratio true 1 100) (f64_of_Z 100)) (f64_of_Z 1000)).
Definition at_leaf (l : list string) (d : doc) : option wjson := wbelow l (WObj d).
Lemma trip_rows : read (fun m => map (fun r => (rw_time r, rw_value r)) (take 4 (m_rows m))) trip
  = Some [(0, PNum (f64_of_Z 50)); (100, PNum (f64_of_Z 51)); (200, PNum (f64_of_Z 51)); (300, PNum (f64_of_Z 52))].
Proof. vm_compute. reflexivity. Qed.
(** Thirty seconds with steps of two seconds, for the cumulative counts. *)
Lemma trip_cumulative : read (fun m => (m_times m, m_jcounts m, m_tcounts m)) (simulate (plain_world (num 3 4)) car None 30 2000)
  = Some ([0; 10000; 20000], [0%nat; 16%nat; 30%nat], [0%nat; 4%nat; 6%nat]).
Proof. vm_compute. reflexivity. Qed.

Lemma some_eq {A} (x y : A) : Some x = Some y -> x = y.
Proof. by intros [= ->]. Qed.
(** The level falls by a thousandth of a percent per step: the JSON document follows, the patches
    do not. *)
Lemma trip_drift : exists m v z v', trip = Ok m ∧
  wbelow ["Vehicle"; "Fuel"; "Level"] (WObj (m_json m)) = Some (WObj [("value", write_prim v); ("timestamp", WInt z)]) ∧
  wbelow ["Vehicle"; "Fuel"; "Level"] (WObj (m_tson m)) = Some (WObj [("value", write_prim v'); ("_ts", WInt 8)]) ∧
  v <> v' ∧ last_json (m_jpatches m) "Vehicle.Fuel.Level/value" None.
Proof.
  destruct trip as [m| |] eqn:E; [|by vm_compute in E..].
  assert (Ej : read (fun m => at_leaf ["Vehicle"; "Fuel"; "Level"] (m_json m)) trip =
    Some (Some (leaf_obj "timestamp" (PNum drifted) 900)))
    by (vm_compute; reflexivity).
  assert (Et : read (fun m => at_leaf ["Vehicle"; "Fuel"; "Level"] (m_tson m)) trip = Some (Some (leaf_obj "_ts" (PNum (f64_of_Z 40)) 8)))
    by (vm_compute; reflexivity).
  assert (Ep : read (fun m => forallb (fun q => negb (String.eqb (jp_path q) "Vehicle.Fuel.Level/value")) (m_jpatches m)) trip = Some true)
    by (vm_compute; reflexivity).
  rewrite E in Ej, Et, Ep. cbn [read] in Ej, Et, Ep. apply some_eq in Ej, Et, Ep.
  do 4 eexists. split; [done|]. split; [exact Ej|]. split; [exact Et|]. split; [by vm_compute|].
  apply lj_none. intros q Hq Eq. apply elem_of_list_In in Hq. apply (proj1 (forallb_forall _ _) Ep) in Hq. by rewrite Eq in Hq.
Qed.

(** A run of the mixed scenario that changes it after a minute: the speed is set to 0 without a
    patch. *)
Definition slow_speed : sensor := Sensor "Vehicle.Speed" (PNum (f64_of_Z 50)) "number" 7 70000 "constant" [] 0.
Definition low_battery : sensor := Sensor soc (PNum (f64_of_Z 9)) "number" 8 70000 "constant" [] 0.
Definition tired : vehicle := [[("Vehicle.Speed", slow_speed)]; [(soc, low_battery)]; []; []; []; []].
Lemma tired_separate : separate tired.
Proof. apply separate_by; [apply (bool_decide_unpack _); vm_compute; exact I|vm_compute; reflexivity]. Qed.
Definition stop : res run_state := simulate (plain_world (num 3 4)) tired (Some (new_state "urban_traffic" (f64_of_Z 60))) 61 10000.
Lemma stop_silent : exists m s, stop = Ok m ∧ ("Vehicle.Speed", s) ∈ sensors (m_vehicle m) ∧ s_value s = PNum (f64_of_Z 0) ∧
  wbelow ["Vehicle"; "Speed"] (WObj (m_tson m)) = Some (WObj [("value", write_prim (PNum (f64_of_Z 50))); ("_ts", WInt 7)]) ∧
  m_tpatches m = [].
Proof.
  destruct stop as [m| |] eqn:E; [|by vm_compute in E..].
  assert (Et : read (fun m => at_leaf ["Vehicle"; "Speed"] (m_tson m)) stop = Some (Some (leaf_obj "_ts" (PNum (f64_of_Z 50)) 7))) by (vm_compute; reflexivity).
  assert (Ep : read m_tpatches stop = Some []) by (vm_compute; reflexivity).
  assert (Ev : read (fun m => match sensors (m_vehicle m) with x :: _ => (fst x, s_value (snd x)) | [] => ("", PBool true) end) stop
    = Some ("Vehicle.Speed", PNum (f64_of_Z 0))) by (vm_compute; reflexivity).
  rewrite E in Et, Ep, Ev. cbn [read] in Et, Ep, Ev. apply some_eq in Et, Ep, Ev.
  destruct (sensors (m_vehicle m)) as [|[p s] xs] eqn:Es; [done|]. cbn [fst snd] in Ev. injection Ev as -> Ev2.
  exists m, s. split; [done|]. split; [rewrite Es; by left|]. split; [by rewrite Ev2|]. split; [exact Et|done].
Qed.
