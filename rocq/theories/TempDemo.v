(** A short run, the experiment on its files, and directories. *)
From Verif Require Import Base BaseSpec F64 GoText Tson TsonSpec Bytes Heap Patch PatchSpec Logument LogSpec ReplaySpec TjsonSpec TjsonLemmas Tjson Initial
  InitialSpec Query QuerySpec LogDemo TjsonDemo Vss VssSpec Sensor Scenario Sim SimSpec SimDocs SimInit SimExp SimDemo RangeSpec RangeDemo Temporal TemporalSpec TempUrban TempCharge BytesLemmas InitialDemo.

Definition bench : Temporal.lab :=
  Lab (go_lib (fun _ => true)) (fun _ => fwd) (@rev _) psort tsort (@rev _) (@rev _) (2 ^ 40) (fun n => n - 1).
Lemma bench_ok : lab_ok bench.
Proof.
  split; cbn.
  - intros i. apply fwd_ok.
  - intros x. symmetry. apply Permutation_rev.
  - apply psort_sorting.
  - apply tsort_by_start.
  - intros x. symmetry. apply Permutation_rev.
  - intros x. symmetry. apply Permutation_rev.
  - intros n Hn. lia.
Qed.
Definition speed2 : sensor :=
  Sensor "Vehicle.Speed" (PNum (f64_of_Z 52)) "number" 7 2500 "random_walk" [("step_size", f64_of_Z 30); ("min", f64_of_Z 0); ("max", f64_of_Z 52)] 0.
Definition latitude : sensor :=
  Sensor "Vehicle.CurrentLocation.Latitude" (PNum (f64_of_Z 37)) "number" 7 4000 "linear" [("slope", f64_of_Z 1); ("min", f64_of_Z (-90)); ("max", f64_of_Z 90)] 0.
Definition longitude : sensor :=
  Sensor "Vehicle.CurrentLocation.Longitude" (PNum (f64_of_Z 127)) "number" 7 4000 "linear" [("slope", f64_of_ratio false 1 10000); ("min", f64_of_Z (-180)); ("max", f64_of_Z 180)] 0.
Definition charge : sensor :=
  Sensor "Vehicle.Powertrain.TractionBattery.StateOfCharge.Current" (PNum (f64_of_Z 80)) "number" 7 3000 "linear" [("slope", f64_of_Z (-1)); ("min", f64_of_Z 0); ("max", f64_of_Z 100)] 0.
Definition door : sensor := Sensor "Vehicle.Door" (PStr "shut") "string" 9 1000 "" [] 0.
Definition cab : vehicle :=
  [[("Vehicle.Speed", speed2); ("Vehicle.Door", door)]; [("Vehicle.CurrentLocation.Latitude", latitude); ("Vehicle.CurrentLocation.Longitude", longitude)];
   [("Vehicle.Powertrain.TractionBattery.StateOfCharge.Current", charge)]; []; []; []].
Notation ride := (simulate fair_world cab None 13 500).
Definition start_file (r : res run_state) : json := match r with Ok m => unmarshal_any (WObj (m_json m)) | _ => JNull end.
Notation ride_file := (start_file (start fair_world cab None)).
Definition ride_answers : option answers :=
  match ride with Ok m => match temporal_experiment bench ride_file ride_file (map loaded (m_tpatches m)) [] with Ok a => Some a | _ => None end | _ => None end.
Lemma decoded_self w : decoded w (unmarshal_any w).
Proof.
  induction w as [|b|f|z|s|l IH|m IH] using wjson_ind'; try (by apply dec_scalar).
  - cbn. apply dec_arr. induction IH as [|x l Hx _ IHl]; [constructor|]. cbn. apply List.Forall2_cons; [exact Hx|exact IHl].
  - cbn. apply dec_obj with m; [done|]. induction IH as [|x l Hx _ IHl]; [constructor|]. cbn. apply List.Forall2_cons; [split; [done|exact Hx]|exact IHl].
Qed.
Lemma ride_patches : read (fun m => map (fun q => (sp_path q, sp_ts q)) (m_tpatches m)) ride = Some [
  ("Vehicle.CurrentLocation.Latitude", 0); ("Vehicle.Powertrain.TractionBattery.StateOfCharge.Current", 0); ("Vehicle.Speed", 2500);
  ("Vehicle.Powertrain.TractionBattery.StateOfCharge.Current", 3000); ("Vehicle.CurrentLocation.Latitude", 4000); ("Vehicle.Speed", 5000);
  ("Vehicle.Powertrain.TractionBattery.StateOfCharge.Current", 6000); ("Vehicle.Speed", 7500); ("Vehicle.CurrentLocation.Latitude", 8000);
  ("Vehicle.Powertrain.TractionBattery.StateOfCharge.Current", 9000); ("Vehicle.Speed", 10000); ("Vehicle.CurrentLocation.Latitude", 12000);
  ("Vehicle.Powertrain.TractionBattery.StateOfCharge.Current", 12000); ("Vehicle.Speed", 12500)].
Proof. vm_compute. reflexivity. Qed.
Lemma ride_found : option_map an_window ride_answers = Some (2500, 12500)
  ∧ option_map an_events ride_answers = Some (Ok [([2500; 5000; 7500; 10000; 12500], [2500; 5000; 7500; 10000; 12500]); ([5000; 10000], [5000; 10000]); ([], [])]).
Proof. split; vm_compute; reflexivity. Qed.
Lemma cab_separate : separate cab.
Proof. apply separate_by; [apply (bool_decide_unpack _); vm_compute; exact I|vm_compute; reflexivity]. Qed.
Lemma cab_checked : forallb (fun e => forallb name_check (split_on dot (fst e)) && finite (s_value (snd e))) (sensors cab) = true.
Proof. vm_compute. reflexivity. Qed.
Lemma cab_plain : plain_paths cab.
Proof.
  intros p s l Hin Hd. apply names_split in Hd. subst l. pose proof cab_checked as C. rewrite forallb_forall in C.
  specialize (C _ (proj1 (elem_of_list_In _ _) Hin)). apply andb_true_iff in C as [C _]. rewrite forallb_forall in C. apply List.Forall_forall. intros k Hk. apply name_checked. by apply C.
Qed.
Lemma listed m q : q ∈ m_tpatches m -> (sp_path q, sp_ts q) ∈ map (fun q => (sp_path q, sp_ts q)) (m_tpatches m).
Proof. intros Hq. apply elem_of_list_fmap. by exists q. Qed.
Lemma patch_listed m p t : (p, t) ∈ map (fun q => (sp_path q, sp_ts q)) (m_tpatches m) -> exists q, q ∈ m_tpatches m ∧ sp_path q = p ∧ sp_ts q = t.
Proof. intros Hq. apply elem_of_list_fmap in Hq as (q & [= -> ->] & Hq). by exists q. Qed.
Definition times_check (l : list (string * Z)) : bool :=
  forallb (fun x => (0 <=? snd x) && (snd x <=? 12500) && negb (bool_decide (fst x = "Vehicle.Speed") && (snd x =? 0))) l
  && existsb (fun x => snd x =? 12500) l && existsb (fun x => bool_decide (fst x = "Vehicle.CurrentLocation.Latitude") && (snd x =? 0)) l.
Definition run_check (r : res run_state) : bool :=
  match r with
  | Ok m => times_check (map (fun q => (sp_path q, sp_ts q)) (m_tpatches m)) && forallb (fun q => finite (sp_value q)) (m_tpatches m)
  | _ => false
  end.
Lemma times_ok m : times_check (map (fun q => (sp_path q, sp_ts q)) (m_tpatches m)) = true ->
  spans m 0 12500 ∧ later m "Vehicle.Speed" ∧ (exists q, q ∈ m_tpatches m ∧ sp_path q = "Vehicle.CurrentLocation.Latitude" ∧ sp_ts q = 0).
Proof.
  unfold times_check. rewrite !andb_true_iff, forallb_forall, !existsb_exists. intros [[H1 ([p1 t1] & I1 & E1)] ([p2 t2] & I2 & E2)].
  apply elem_of_list_In, patch_listed in I1 as (q1 & Q1 & <- & <-), I2 as (q2 & Q2 & <- & <-). cbn [fst snd] in *.
  apply andb_true_iff in E2 as [P2%bool_decide_eq_true T2%Z.eqb_eq]. apply Z.eqb_eq in E1.
  assert (HA : forall q, q ∈ m_tpatches m -> 0 <= sp_ts q <= 12500 ∧ ~ (sp_path q = "Vehicle.Speed" ∧ sp_ts q = 0)).
  { intros q Hq. specialize (H1 _ (proj1 (elem_of_list_In _ _) (listed m q Hq))). cbn [fst snd] in H1.
    rewrite !andb_true_iff, negb_true_iff, andb_false_iff, bool_decide_eq_false, !Z.leb_le, Z.eqb_neq in H1. destruct H1 as [? [?|?]]; split; [lia|tauto|lia|tauto]. }
  split; [split; [by exists q2|split; [by exists q1|]]|split].
  - intros q Hq. by apply HA.
  - intros q Hq Hp Ht. by apply (HA q Hq).
  - by exists q2.
Qed.
Lemma run_checked r : run_check r = true -> exists m, r = Ok m ∧ writable cab m ∧ spans m 0 12500 ∧ later m "Vehicle.Speed"
  ∧ (exists q, q ∈ m_tpatches m ∧ sp_path q = "Vehicle.CurrentLocation.Latitude" ∧ sp_ts q = 0).
Proof.
  destruct r as [m| |]; [|done|done]. cbn [run_check]. intros [HT HF]%andb_true_iff. exists m. split; [done|]. split; [|by apply times_ok]. split.
  - intros p s Hin. pose proof cab_checked as C. rewrite forallb_forall in C. specialize (C _ (proj1 (elem_of_list_In _ _) Hin)). apply andb_true_iff in C as [_ C]. exact C.
  - intros q Hq. rewrite forallb_forall in HF. apply HF. apply elem_of_list_In. exact Hq.
Qed.
Lemma ride_checked : run_check ride = true.
Proof. vm_compute. reflexivity. Qed.
Lemma run_started w v sec inc m : simulate w v None sec inc = Ok m -> exists m0, start w v None = Ok m0 ∧ decoded (WObj (m_json m0)) (start_file (start w v None)).
Proof. intros (m0 & H0 & _)%SimLemmas.simulate_inv. exists m0. split; [done|]. rewrite H0. apply decoded_self. Qed.
Lemma ride_ok : exists m m0, ride = Ok m ∧ start fair_world cab None = Ok m0 ∧ writable cab m ∧ decoded (WObj (m_json m0)) ride_file
  ∧ spans m 0 12500 ∧ later m "Vehicle.Speed" ∧ (exists q, q ∈ m_tpatches m ∧ sp_path q = "Vehicle.CurrentLocation.Latitude" ∧ sp_ts q = 0).
Proof.
  destruct (run_checked ride ride_checked) as (m & E & HW & HR). destruct (run_started fair_world cab 13 500 m E) as (m0 & H0 & HD).
  exists m, m0. exact (conj E (conj H0 (conj HW (conj HD HR)))).
Qed.
Lemma cab_tracked p : p ∈ tracked_paths -> p ∈ akeys (sensors cab).
Proof. intros H. repeat (apply elem_of_cons in H as [->|H]; [apply (bool_decide_unpack _); vm_compute; exact I|]). by apply elem_of_nil in H. Qed.

(** Directories. *)
Definition run_dirs : list (string * bool) :=
  [("20250601_120000", true); ("20250601_093000", true); ("20250601_120001", false); ("20250602", true); ("2025060a_120000", true); ("notes", true)].
Lemma run_dirs_latest : latest_dir run_dirs = Ok "20250601_120000" ∧ is_run "20250601_120000" 20250601120000 ∧ latest_dir [("notes", true)] = Err.
Proof. split; [vm_compute; reflexivity|]. split; [split; [lia|vm_compute; reflexivity]|vm_compute; reflexivity]. Qed.

(** The program's urban run. *)
Lemma urban_started w ord now d v m : init_vehicle ord now "urban_traffic" d = Ok v -> experiment w ord now d "urban_traffic" = Ok m ->
  exists m0, start w v None = Ok m0 ∧ decoded (WObj (m_json m0)) (start_file (start w v None)).
Proof.
  intros E X. assert (Hv : simulate w v None simulation_sec simulation_step = Ok m). { unfold experiment in X. rewrite E in X. exact X. }
  by apply run_started in Hv.
Qed.
Lemma urban_case : exists v m0 m file, experiment fair_world (@rev _) (fun _ => 5) (drawing (num 3 4)) "urban_traffic" = Ok m
  ∧ orders_ok fair_world ∧ Permutation (rev vss_sensors) vss_sensors ∧ random_ok fair_world ∧ fair (drawing (num 3 4)) ∧ sine (w_sin fair_world)
  ∧ init_vehicle (@rev _) (fun _ => 5) "urban_traffic" (drawing (num 3 4)) = Ok v ∧ start fair_world v None = Ok m0
  ∧ decoded (WObj (m_json m0)) file ∧ lab_ok bench ∧ 1 <= lb_now bench < 2 ^ 63.
Proof.
  assert (P : Permutation (rev vss_sensors) vss_sensors) by (symmetry; apply Permutation_rev).
  destruct (experiment_total fair_world (@rev _) (fun _ => 5) (drawing (num 3 4)) "urban_traffic" fair_orders P) as (v & m & E & _ & _ & X & _).
  destruct (urban_started _ _ _ _ v m E X) as (m0 & H0 & HD). exists v, m0, m, (start_file (start fair_world v None)).
  assert (N : 1 <= lb_now bench < 2 ^ 63) by (cbn [lb_now bench]; lia).
  exact (conj X (conj fair_orders (conj P (conj fair_random (conj (drawing_fair _ unit_34) (conj square_sine (conj E (conj H0 (conj HD (conj bench_ok N)))))))))).
Qed.

(** An update at time 0. *)
Lemma zero_case : named simple_name (JObj car_members) ∧ json_encodable (JObj car_members) = true ∧ InitialSpec.place (JObj car_members) ["Vehicle"; "Speed"] (jn 0)
  ∧ (forall u, u ∈ zero_updates -> 0 <= tp_ts u < 2 ^ 63 ∧ exists l' v', InitialSpec.place (JObj car_members) l' v' ∧ scalar v' ∧ sets u l')
  ∧ sets (TPatch "replace" "/Vehicle/Speed" (jn 50) 0) ["Vehicle"; "Speed"] ∧ ~ alike (jn 50) (jn 0).
Proof.
  split; [apply car_named|]. split; [apply car_encodable|]. split; [apply car_speed|].
  assert (S : sets (TPatch "replace" "/Vehicle/Speed" (jn 50) 0) ["Vehicle"; "Speed"]) by (split; [by right|by apply route_by]).
  split; [|split; [exact S|]].
  - intros u [->|H]%elem_of_cons; [|by apply elem_of_nil in H]. split; [cbn; lia|]. exists ["Vehicle"; "Speed"], (jn 0). split; [apply car_speed|]. split; [by apply scalar_by|exact S].
  - intros [H|H]; [discriminate H|]. apply json_deep_eq_spec in H. by vm_compute in H.
Qed.
