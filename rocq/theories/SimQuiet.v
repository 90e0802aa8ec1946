(** A run in which the scenario never changes is the run without scenarios; sensors that follow a
    line; the mixed scenario of the program. *)
From Verif Require Import Base BaseSpec BaseLemmas F64 GoText Tson Bytes TjsonSpec TjsonLemmas Vss Sensor Scenario Sim SimSpec SimTrace SimLemmas SimTimes SimDocs SimFinal SimInit SimPlace SimExp SimRows SimTrans.

Definition strip (m : run_state) : run_state :=
  Sim (m_vehicle m) None (m_transitions m) (m_json m) (m_tson m) (m_jpatches m) (m_tpatches m) (m_spatches m)
    (m_updates m) (m_changes m) (m_stamps m) (m_timing m) (m_rows m) (m_times m) (m_jcounts m) (m_tcounts m).
Lemma run_sensor_strip w t p s m s' m' : run_sensor w t p s m = Ok (s', m') -> run_sensor w t p s (strip m) = Ok (s', strip m').
Proof.
  unfold run_sensor. destruct (decide (s_interval s = 0)); [done|]. destruct (decide _); [|by intros [= <- <-]].
  destruct (new_value _ _ _ _ _) as [[s1 v]| |]; cbn [rbind]; [|done|done]. by intros [= <- <-].
Qed.
Lemma run_map_strip w t g m g' m' : run_map w t g m = Ok (g', m') -> run_map w t g (strip m) = Ok (g', strip m').
Proof.
  revert m g' m'. induction g as [|[p s] g IH]; intros m g' m'; cbn [run_map]; [by intros [= <- <-]|].
  destruct (run_sensor w t p s m) as [[s1 m1]| |] eqn:E; cbn [rbind fst snd]; [|done|done]. rewrite (run_sensor_strip _ _ _ _ _ _ _ E). cbn [rbind fst snd].
  destruct (run_map w t g m1) as [[g2 m2]| |] eqn:E2; cbn [rbind fst snd]; [|done|done]. rewrite (IH _ _ _ E2). by intros [= <- <-].
Qed.
Lemma run_maps_strip w t i v m v' m' : run_maps w t i v m = Ok (v', m') -> run_maps w t i v (strip m) = Ok (v', strip m').
Proof.
  revert i m v' m'. induction v as [|g v IH]; intros i m v' m'; cbn [run_maps]; [by intros [= <- <-]|].
  destruct (run_map w t _ m) as [[g1 m1]| |] eqn:E; cbn [rbind fst snd]; [|done|done]. rewrite (run_map_strip _ _ _ _ _ _ E). cbn [rbind fst snd].
  destruct (run_maps w t (S i) v m1) as [[v2 m2]| |] eqn:E2; cbn [rbind fst snd]; [|done|done]. rewrite (IH _ _ _ _ E2). by intros [= <- <-].
Qed.

(** The battery stays above 10 at the given steps. *)
Definition high (s : sensor) : Prop := exists x, s_type s = "number" ∧ s_value s = PNum x ∧ SFleb x (fl 10) = false.
Lemma switch_quiet w t m m' lvl last s : switch w t m = Ok m' -> m_scenario m = Some (SState "urban_traffic" "urban_traffic" lvl last) ->
  get 1 soc (m_vehicle m) = Some s -> high s ->
  strip m' = strip m ∧ m_transitions m' = m_transitions m ∧ exists lvl', m_scenario m' = Some (SState "urban_traffic" "urban_traffic" lvl' last).
Proof.
  intros H Hsc Hs (x & _ & Hx & Hl). unfold switch in H. rewrite Hsc in H. unfold update_state in H.
  assert (El : battery_level (m_vehicle m) (ss_level (SState "urban_traffic" "urban_traffic" lvl last)) = x).
  { unfold battery_level. unfold get in Hs. destruct (m_vehicle m !! 1%nat); [|done]. by rewrite Hs, Hx. }
  rewrite El in H. cbn [ss_last ss_current ss_previous ss_level] in H.
  destruct (t - last <? cooldown).
  - cbn [rbind] in H. injection H as <-. split; [done|]. split; [done|]. by eexists.
  - rewrite decide_True in H by done. rewrite Hl in H. rewrite decide_True in H by done. cbn [rbind] in H. injection H as <-.
    split; [done|]. split; [done|]. by eexists.
Qed.
Lemma run_quiet w ts m m' lvl last s : run_times w ts m = Ok m' -> (forall t i g, Permutation (w_order w t i g) g) ->
  NoDup (akeys (concat (m_vehicle m))) -> m_scenario m = Some (SState "urban_traffic" "urban_traffic" lvl last) ->
  get 1 soc (m_vehicle m) = Some s ->
  (forall ts1 ts2 s1 us, ts = ts1 ++ ts2 -> ts2 ≠ [] -> solo_times w ts1 soc s = Ok (s1, us) -> high s1) ->
  run_times w ts (strip m) = Ok (strip m') ∧ m_transitions m' = m_transitions m.
Proof.
  intros H Ho. revert m lvl s H. induction ts as [|t ts IH]; intros m lvl s H Hnd Hsc Hs Hh; cbn [run_times] in H; [by injection H as <-|].
  destruct (tick w t m) as [m1| |] eqn:E; cbn [rbind] in H; [|done|done].
  pose proof (tick_times w t m m1 E (Ho t) Hnd) as (_ & _ & Sh & _).
  assert (Hnd1 : NoDup (akeys (concat (m_vehicle m1)))). { rewrite <- shape_keys, Sh, shape_keys. done. }
  unfold tick in E. destruct (switch w t m) as [ma| |] eqn:Ea; cbn [rbind] in E; [|done|done].
  destruct (switch_quiet _ _ _ _ _ _ _ Ea Hsc Hs) as (St & Tr & lvl' & Sc); [by apply (Hh [] (t :: ts) s []); [done..|]|].
  destruct (run_maps w t 0 (m_vehicle (record t ma)) (record t ma)) as [[vb mb]| |] eqn:Eb; cbn [rbind fst snd] in E; [|done|done].
  injection E as <-. pose proof (run_maps_solo _ _ _ _ _ _ _ Eb (Ho t)) as (xs & rs & _ & _ & _ & _ & Fr). destruct Fr as (_ & Fs & Ft & _).
  assert (Va : m_vehicle ma = m_vehicle m) by by apply (f_equal m_vehicle) in St.
  change (m_vehicle (record t ma)) with (m_vehicle ma) in Eb. rewrite Va in Eb.
  destruct (run_maps_get _ _ _ _ _ _ _ 1 soc s Eb (Ho t) Hnd Hs) as (sb & us & So & Gb).
  destruct (IH (set_vehicle vb mb) lvl' sb) as [R T].
  - done.
  - done.
  - change (m_scenario (set_vehicle vb mb)) with (m_scenario mb). by rewrite Fs.
  - done.
  - intros ts1 ts2 s1 us1 -> Hne E1. apply (Hh (t :: ts1) ts2 s1 (us ++ us1)); [done|done|]. cbn [solo_times]. rewrite So. cbn [rbind fst snd].
    rewrite E1. done.
  - split; [|rewrite T; change (m_transitions (set_vehicle vb mb)) with (m_transitions mb); rewrite Ft; exact Tr].
    cbn [run_times]. unfold tick. cbn [switch strip m_scenario rbind]. change (m_vehicle (record t (strip m))) with (m_vehicle m).
    assert (Er : record t (strip m) = strip (record t ma)) by (rewrite <- St; done). rewrite Er.
    rewrite (run_maps_strip _ _ _ _ _ _ _ Eb). cbn [rbind fst snd]. exact R.
Qed.

(** ** Lines *)
Definition line_step (s : sensor) (x : f64) : f64 :=
  clamp (param s "min") (param s "max") (f64_add x (f64_div (f64_mul (param s "slope") (f64_of_Z (s_interval s))) (f64_of_Z 1000))).
(** What the sensor keeps. *)
Definition line_keep (f : f64 -> f64) (x : f64) : f64 := if is_equal (PNum x) (PNum (f x)) then x else f x.
Definition line_run (i : Z) (f : f64 -> f64) (ts : list Z) (x : f64) : f64 :=
  fold_left (fun x t => if due i t then line_keep f x else x) ts x.
Lemma solo_line w t p s x s' us : s_type s = "number" -> s_pattern s = "linear" -> s_value s = PNum x -> solo w t p s = Ok (s', us) ->
  s_type s' = "number" ∧ s_pattern s' = "linear" ∧ s_params s' = s_params s ∧ s_interval s' = s_interval s ∧
  s_value s' = PNum (if due (s_interval s) t then line_keep (line_step s) x else x) ∧
  us = if due (s_interval s) t then [Upd p (PNum (line_step s x)) t (negb (is_equal (PNum x) (PNum (line_step s x))))] else [].
Proof.
  intros Ty Pt Ex H. pose proof (solo_facts _ _ _ _ _ _ H) as (Hi & _ & _ & Hty & Hpt & Hps & _).
  split; [congruence|]. split; [congruence|]. split; [done|]. split; [done|]. clear Hi Hty Hpt Hps.
  unfold solo in H. destruct (decide (s_interval s = 0)); [done|]. unfold due. destruct (decide _) as [Ed|Ed].
  2:{ injection H as <- <-. apply Z.eqb_neq in Ed. by rewrite Ed. }
  rewrite Ed. cbn [Z.eqb]. unfold new_value in H. cbn [s_type set_count] in H. rewrite Ty in H. rewrite decide_True in H by done.
  cbn [s_value set_count] in H. rewrite Ex in H. unfold new_number in H. cbn [s_pattern set_count] in H. rewrite Pt in H.
  rewrite decide_False in H by done. rewrite decide_True in H by done. cbn [rbind] in H. injection H as <- <-.
  change (clamp _ _ _) with (line_step s x). rewrite ?Ex. unfold line_keep.
  unfold is_equal. destruct (f64_lt _ _); cbn [negb]; by split.
Qed.
Lemma line_step_frame s s' : s_params s' = s_params s -> s_interval s' = s_interval s -> line_step s' = line_step s.
Proof. intros E1 E2. unfold line_step, param. by rewrite E1, E2. Qed.
Lemma solo_times_line w ts p s x s' us : s_type s = "number" -> s_pattern s = "linear" -> s_value s = PNum x -> solo_times w ts p s = Ok (s', us) ->
  s_type s' = "number" ∧ s_value s' = PNum (line_run (s_interval s) (line_step s) ts x).
Proof.
  revert s x us. induction ts as [|t ts IH]; intros s x us Ty Pt Ex; cbn [solo_times]; [by intros [= <- <-]|].
  destruct (solo w t p s) as [[s1 us1]| |] eqn:E; cbn [rbind fst snd]; [|done|done].
  destruct (solo_times w ts p s1) as [[s2 us2]| |] eqn:E2; cbn [rbind fst snd]; [|done|done]. intros [= <- <-].
  apply (solo_line w t p s x) in E as (Ty1 & Pt1 & Ps & Hi & V & _); [|done..].
  apply (IH s1 _ us2 Ty1 Pt1 V) in E2 as [Ty2 V2]. split; [done|]. rewrite V2, Hi, (line_step_frame s s1 Ps Hi). done.
Qed.
Fixpoint all_high (i : Z) (f : f64 -> f64) (ts : list Z) (x : f64) : bool :=
  match ts with
  | [] => true
  | t :: ts' => negb (SFleb x (fl 10)) && all_high i f ts' (if due i t then line_keep f x else x)
  end.
Lemma all_high_run i f ts1 ts2 x : all_high i f (ts1 ++ ts2) x = true -> ts2 ≠ [] -> SFleb (line_run i f ts1 x) (fl 10) = false.
Proof.
  revert x. induction ts1 as [|t ts1 IH]; intros x H Hne.
  - destruct ts2; [done|]. cbn in H. apply andb_true_iff in H as [H _]. by apply negb_true_iff.
  - cbn [app all_high] in H. apply andb_true_iff in H as [_ H]. by apply IH.
Qed.

(** ** The mixed scenario of the program *)
Definition soc_entry : string * vss_sensor :=
  (soc, VSensor (PNum (f64_of_Z 80)) "number" CMedium 200 fz (f64_of_Z 100) (in_scenarios "linear" "linear" "linear")).
Lemma soc_listed : soc_entry ∈ vss_sensors.
Proof. repeat (left || right). Qed.
Definition soc_line (slope : f64) : f64 -> f64 :=
  fun x => clamp fz (f64_of_Z 100) (f64_add x (f64_div (f64_mul slope (f64_of_Z 200)) (f64_of_Z 1000))).
Lemma mixed_soc now d : let s := start_sensor "mixed_scenario" now d soc_entry in
  s_type s = "number" ∧ s_pattern s = "linear" ∧ s_value s = PNum (fl 60) ∧ s_interval s = 200 ∧
  line_step s = soc_line (minus_decimal 1 10).
Proof. repeat split; vm_compute; reflexivity. Qed.
Lemma mixed_high : all_high 200 (soc_line (minus_decimal 1 10)) (loop_times (simulation_sec * 1000) simulation_step) (fl 60) = true.
Proof. vm_compute. reflexivity. Qed.
Lemma run_none w ts m m' : run_times w ts m = Ok m' -> (forall t i g, Permutation (w_order w t i g) g) -> m_scenario m = None ->
  m_scenario m' = None ∧ m_transitions m' = m_transitions m.
Proof.
  intros H Ho. revert m H. induction ts as [|t ts IH]; intros m H Hn; cbn [run_times] in H; [by injection H as <-|].
  destruct (tick w t m) as [m1| |] eqn:E; cbn [rbind] in H; [|done|done]. unfold tick, switch in E. rewrite Hn in E. cbn [rbind] in E.
  destruct (run_maps _ _ _ _ _) as [[vb mb]| |] eqn:Eb; cbn [rbind fst snd] in E; [|done|done]. injection E as <-.
  pose proof (run_maps_solo _ _ _ _ _ _ _ Eb (Ho t)) as (xs & rs & _ & _ & _ & _ & Fr). destruct Fr as (_ & Fs & Ft & _).
  apply IH in H as [H1 H2]; [|cbn; by rewrite Fs]. split; [done|]. rewrite H2. cbn. by rewrite Ft.
Qed.
(** Every experiment of the program is a run without changes of the scenario. *)
Lemma experiment_plain w ord now d sc m : orders_ok w -> Permutation (ord vss_sensors) vss_sensors -> experiment w ord now d sc = Ok m ->
  m_transitions m = [] ∧
  exists v, simulate w v None simulation_sec simulation_step = Ok (strip m) ∧
    length v = 6%nat ∧ all_steady v ∧ Permutation (shape (concat v)) table_shape ∧
    (forall e, e ∈ vss_sensors -> get (map_index (vs_category (snd e))) (fst e) v = Some (start_sensor sc now d e)).
Proof.
  intros Ho P H. destruct (experiment_start w ord now d sc P) as (v & E & L & S & Sh & _ & G). rewrite E in H.
  pose proof (shape_separate v Sh) as [Hnd _]. unfold start_state in H. destruct (decide (sc = "mixed_scenario")) as [->|Hsc].
  - pose proof (G _ soc_listed) as Gs. cbn [soc_entry fst snd vs_category map_index] in Gs.
    destruct (mixed_soc now d) as (Ty & Pt & V & I & Ls). pose proof H as H'. apply simulate_inv in H as (m0 & H0 & H).
    pose proof (start_zero _ _ _ _ H0) as (V0 & Sc0 & T0 & _).
    apply run_quiet with (lvl := fl 60) (last := 0) (s := start_sensor "mixed_scenario" now d soc_entry) in H as [R T].
    + split; [by rewrite T|]. exists v. split; [|done]. unfold simulate in *. rewrite H0 in H'. cbn [rbind] in H'.
      assert (Hs : start w v None = Ok (strip m0)).
      { unfold start in *. destruct (vehicle_doc "timestamp" _) as [j| |]; cbn [rbind] in *; [|done|done].
        destruct (vehicle_doc "_ts" _) as [j'| |]; cbn [rbind] in *; [|done|done]. by injection H0 as <-. }
      rewrite Hs. cbn [rbind]. destruct (expected_count v simulation_sec); cbn [rbind] in *; done.
    + exact (proj1 Ho).
    + by rewrite V0.
    + done.
    + by rewrite V0.
    + intros ts1 ts2 s1 us Ets Hne So. apply (solo_times_line _ _ _ _ _ _ _ Ty Pt V) in So as [Ty1 V1]. eexists. split; [done|]. split; [done|].
      rewrite I, Ls. apply (all_high_run _ _ _ ts2); [|done]. rewrite <- Ets. apply mixed_high.
  - pose proof H as H'. apply simulate_inv in H as (m0 & H0 & H). pose proof (start_zero _ _ _ _ H0) as (V0 & Sc0 & T0 & _).
    apply run_none in H as [N T]; [|exact (proj1 Ho)|done]. split; [by rewrite T|]. exists v. split; [|done]. rewrite H'. f_equal.
    destruct m; cbn in N |- *. by subst.
Qed.
