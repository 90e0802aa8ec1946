(** The results of concrete runs. *)
From Verif Require Import Base BaseSpec F64 Tson Bytes Vss Sensor Scenario Sim SimSpec SimDocs Temporal Report SimDemo RangeDemo.

Definition digits : f64 -> string := fun _ => "51.5".
Lemma trip_report : read (fun m => let r := report_of digits 1 m in
    ((rp_updates r, rp_changes r, rp_stamps r), (rp_jcount r, rp_tcount r, rp_scount r), (rp_jsize r, rp_tsize r, rp_ssize r))) trip
  = Some ((19, 6, 13), (25, 6, 19), (1579, 413, 1358)).
Proof. vm_compute. reflexivity. Qed.
Lemma figures_checked r : read (fun m => forallb (fun q => finite (sp_value q)) (m_spatches m) && SFltb (f64_of_Z 75) (rp_reduction (report_of digits 1 m))
     && SFltb (rp_reduction (report_of digits 1 m)) (f64_of_Z 77)) r = Some true ->
  exists m, r = Ok m ∧ (forall q, q ∈ m_spatches m -> finite (sp_value q) = true) ∧
  SFltb (f64_of_Z 75) (rp_reduction (report_of digits 1 m)) = true ∧ SFltb (rp_reduction (report_of digits 1 m)) (f64_of_Z 77) = true.
Proof.
  destruct r as [m| |]; cbn [read]; [|done|done]. intros C. exists m. apply some_eq in C. apply andb_true_iff in C as [[C1 C2]%andb_true_iff C3].
  split; [reflexivity|]. split; [|exact (conj C2 C3)]. intros q Hq. rewrite forallb_forall in C1. by apply C1, elem_of_list_In.
Qed.
Lemma trip_figures : exists m, trip = Ok m ∧ (forall q, q ∈ m_spatches m -> finite (sp_value q) = true) ∧
  SFltb (f64_of_Z 75) (rp_reduction (report_of digits 1 m)) = true ∧ SFltb (rp_reduction (report_of digits 1 m)) (f64_of_Z 77) = true.
Proof. apply figures_checked. vm_compute. reflexivity. Qed.
(** Every update changes the value, and none does. *)
Definition blinker : vehicle := [[("Vehicle.Light", light_sensor)]].
Definition parked : vehicle := [[("Vehicle.Fuel.Level", fuel_sensor)]].
Lemma extremes : read (fun m => let r := report_of digits 1 m in (rp_updates r, rp_stamps r, rp_reduction r)) (simulate (plain_world (num 3 4)) blinker None 1 100) = Some (4, 0, f64_of_Z 50)
  ∧ read (fun m => let r := report_of digits 1 m in (rp_updates r, rp_changes r, rp_reduction r)) (simulate (plain_world (num 3 4)) parked None 1 100) = Some (10, 0, f64_of_Z 100).
Proof. split; vm_compute; reflexivity. Qed.
(** A level that is infinite after the first update. *)
Definition burst_sensor : sensor :=
  Sensor "Vehicle.Fuel.Level" (PNum (f64_of_Z 40)) "number" 8 100 "linear" [("slope", S754_infinity false); ("min", f64_of_Z 0); ("max", S754_infinity false)] 0.
Definition burst : res run_state := simulate (plain_world (num 3 4)) [[("Vehicle.Speed", speed_sensor)]; [("Vehicle.Fuel.Level", burst_sensor)]] None 1 100.
Lemma infinite_checked r : read (fun m => existsb (fun q => negb (finite (sp_value q))) (m_tpatches m) && (0 <? m_updates m)) r = Some true ->
  exists m q, r = Ok m ∧ q ∈ m_tpatches m ∧ finite (sp_value q) = false ∧ 0 < m_updates m.
Proof.
  destruct r as [m| |]; cbn [read]; [|done|done]. intros C. exists m.
  apply some_eq in C. apply andb_true_iff in C as [C U]. apply existsb_exists in C as (q & Hq & F).
  exists q. split; [done|]. split; [by apply elem_of_list_In|]. split; [by apply negb_true_iff|]. by apply Z.ltb_lt.
Qed.
Lemma burst_infinite : exists m q, burst = Ok m ∧ q ∈ m_tpatches m ∧ finite (sp_value q) = false ∧ 0 < m_updates m.
Proof. apply infinite_checked. vm_compute. reflexivity. Qed.
Lemma parked_idle : read (fun m => rp_updates (report_of digits 0 m)) (simulate (plain_world (num 3 4)) car None 0 100) = Some 0.
Proof. vm_compute. reflexivity. Qed.
Lemma trip_long_rows : read cumulative_rows (simulate (plain_world (num 3 4)) car None 30 2000) = Some (Ok [(0, 0%nat, 0%nat); (10000, 16%nat, 4%nat); (20000, 30%nat, 6%nat)]).
Proof. vm_compute. reflexivity. Qed.
