(** Sensors that follow a line. *)
From Verif Require Import Base BaseSpec BaseLemmas F64 GoText Tson Bytes TjsonSpec TjsonLemmas Vss VssSpec Sensor Scenario Sim SimSpec SimTrace SimLemmas SimTimes SimDocs SimFinal SimInit SimPlace SimExp SimRows SimTrans SimQuiet SimStart RangeSpec.

Lemma iter_swap {A} (f : A -> A) n x : Nat.iter n f (f x) = f (Nat.iter n f x).
Proof. induction n as [|n IH]; [done|]. change (f (Nat.iter n f (f x)) = f (f (Nat.iter n f x))). by rewrite IH. Qed.
Lemma line_run_iter i f ts x : line_run i f ts x = Nat.iter (length (List.filter (due i) ts)) (line_keep f) x.
Proof.
  revert x. induction ts as [|t ts IH]; intros x; [done|]. unfold line_run in *. cbn [fold_left List.filter]. rewrite IH.
  destruct (due i t); [|done]. cbn [length]. rewrite iter_swap. done.
Qed.
Definition line_upd (p : string) (f : f64 -> f64) (x : f64) (u : upd) : Prop :=
  u_path u = p ∧ u_value u = PNum (f x) ∧ u_changed u = negb (is_equal (PNum x) (PNum (f x))).
Lemma solo_times_line_us w ts p s x s' us : s_type s = "number" -> s_pattern s = "linear" -> s_value s = PNum x -> solo_times w ts p s = Ok (s', us) ->
  length us = length (List.filter (due (s_interval s)) ts) ∧
  forall i u, us !! i = Some u -> line_upd p (line_step s) (Nat.iter i (line_keep (line_step s)) x) u.
Proof.
  revert s x us. induction ts as [|t ts IH]; intros s x us Ty Pt Ex; cbn [solo_times]; [by intros [= <- <-]|].
  destruct (solo w t p s) as [[s1 us1]| |] eqn:E; cbn [rbind fst snd]; [|done|done].
  destruct (solo_times w ts p s1) as [[s2 us2]| |] eqn:E2; cbn [rbind fst snd]; [|done|done]. intros [= <- <-].
  apply (solo_line w t p s x) in E as (Ty1 & Pt1 & Ps & Hi & V & ->); [|done..].
  apply (IH s1 _ us2 Ty1 Pt1 V) in E2 as [L2 F2]. rewrite Hi in L2. rewrite (line_step_frame s s1 Ps Hi) in F2. cbn [List.filter].
  destruct (due (s_interval s) t); [|by split]. split; [cbn [app length]; by rewrite L2|]. intros i u. destruct i as [|i]; cbn [app lookup list_lookup].
  - by intros [= <-].
  - intros Hu%F2. rewrite iter_swap in Hu. done.
Qed.
Lemma line_step_target s lo hi k : has s "min" lo -> has s "max" hi -> has s "slope" k -> line_step s = line_target lo hi k (s_interval s).
Proof. intros [H1 _] [H2 _] [H3 _]. unfold line_step, param. by rewrite H1, H2, H3. Qed.
Lemma filter_set_of p us : filter (fun q => sp_path q = p) (map set_of us) = map set_of (List.filter (on p) us).
Proof.
  induction us as [|u us IH]; [done|]. cbn [map List.filter]. rewrite filter_cons. unfold on at 1. case_decide as E; cbn in E.
  - rewrite bool_decide_true by done. cbn. by rewrite IH.
  - rewrite bool_decide_false by done. done.
Qed.
Lemma line_full w v sec inc m p s lo hi k x : simulate w v None sec inc = Ok m -> orders_ok w -> NoDup (akeys (sensors v)) ->
  (p, s) ∈ sensors v -> follows s "linear" -> has s "min" lo -> has s "max" hi -> has s "slope" k -> s_value s = PNum x ->
  let target := line_target lo hi k (s_interval s) in
  let updates := filter (fun q => sp_path q = p) (m_spatches m) in
  (forall i q, updates !! i = Some q -> sp_value q = PNum (target (Nat.iter i (taken target) x))) ∧
  length updates = length (List.filter (due (s_interval s)) (loop_times (sec * 1000) inc)) ∧
  (exists s', (p, s') ∈ sensors (m_vehicle m) ∧ s_value s' = PNum (Nat.iter (length updates) (taken target) x)) ∧
  (SFltb (SFabs (minus x (target x))) (dec 1 200) = true -> forall q, q ∈ m_tpatches m -> sp_path q ≠ p).
Proof.
  intros (m0 & H0 & H)%simulate_inv [Ho _] Hnd Hin [Ty Pt] Hlo Hhi Hk Hx target updates. apply start_zero in H0 as (V & Sc & _ & J & T & S & _).
  apply run_times_solo in H as (uss & A & _ & K & _ & _ & P); [|done|done|by rewrite V].
  rewrite V in *. destruct (P p s Hin) as (s' & E & Hin'). destruct A.
  assert (Eu : updates = map set_of (List.filter (on p) (concat uss))). { unfold updates. rewrite af_sp, S. apply filter_set_of. }
  pose proof (solo_times_line _ _ _ _ _ _ _ Ty Pt Hx E) as [_ Vs]. pose proof (solo_times_line_us _ _ _ _ _ _ _ Ty Pt Hx E) as [Le Us].
  rewrite line_run_iter in Vs. rewrite (line_step_target s lo hi k Hlo Hhi Hk) in Vs, Us.
  change (line_keep (line_target lo hi k (s_interval s))) with (taken target) in Vs, Us. fold target in Vs, Us.
  split; [|split; [|split]].
  - intros i q. rewrite Eu. rewrite list_lookup_fmap. intros (u & Hu & ->)%fmap_Some. apply Us in Hu as (_ & Hu & _). done.
  - by rewrite Eu, map_length.
  - exists s'. split; [done|]. rewrite Vs. f_equal. by rewrite Eu, map_length, Le.
  - intros Hlt q. assert (Hst : taken target x = x) by (unfold taken; by rewrite Hlt). rewrite af_tp, T. cbn [app]. intros Hq Hp. apply elem_of_list_fmap in Hq as (u & -> & Hu). apply elem_of_list_In, List.filter_In in Hu as [Hu Hc].
    assert (Hu' : u ∈ List.filter (on p) (concat uss)).
    { apply elem_of_list_In, List.filter_In. split; [done|]. by apply bool_decide_eq_true. }
    apply elem_of_list_lookup in Hu' as [i Hi]. apply Us in Hi as (_ & _ & Hc').
    assert (Fix : forall n, Nat.iter n (taken target) x = x). { induction n as [|n IH]; [done|]. change (taken target (Nat.iter n (taken target) x) = x). by rewrite IH. }
    rewrite Fix in Hc'. unfold is_equal in Hc'. change (f64_lt (f64_abs (f64_sub x (target x))) tolerance) with (SFltb (SFabs (minus x (target x))) (dec 1 200)) in Hc'.
    rewrite Hlt in Hc'. cbn in Hc'. congruence.
Qed.
Lemma line_moves w v sec inc m p s lo hi k x : simulate w v None sec inc = Ok m -> orders_ok w -> NoDup (akeys (sensors v)) ->
  (p, s) ∈ sensors v -> follows s "linear" -> has s "min" lo -> has s "max" hi -> has s "slope" k -> s_value s = PNum x ->
  let target := line_target lo hi k (s_interval s) in
  let updates := filter (fun q => sp_path q = p) (m_spatches m) in
  (forall i q, updates !! i = Some q -> sp_value q = PNum (target (Nat.iter i (taken target) x))) ∧
  (exists s', (p, s') ∈ sensors (m_vehicle m) ∧ s_value s' = PNum (Nat.iter (length updates) (taken target) x)) ∧
  (SFltb (SFabs (minus x (target x))) (dec 1 200) = true -> forall q, q ∈ m_tpatches m -> sp_path q ≠ p).
Proof.
  intros H Ho Hnd Hin F H1 H2 H3 Hx. destruct (line_full _ _ _ _ _ _ _ _ _ _ _ H Ho Hnd Hin F H1 H2 H3 Hx) as (A & _ & B & C). by split.
Qed.

(** ** The lines of the program *)
Definition line_check (r : string * string * f64 * f64) : bool :=
  let '(sc, p, x0, x1) := r in
  bool_decide (sc ∈ program_scenarios) &&
  match alookup p vss_sensors with
  | Some e =>
      let s := base_sensor sc (p, e) in
      bool_decide (s_type s = "number") && bool_decide (s_pattern s = "linear") &&
      match s_value s with
      | PNum x => bool_decide (x = x0) &&
          bool_decide (line_run (s_interval s) (line_step s) (loop_times (simulation_sec * 1000) simulation_step) x = x1)
      | _ => false
      end &&
      (* not drawn *)
      bool_decide (¬ (sc = "battery_charging" ∧ (p = soc ∨ p = rate))) && bool_decide (p ≠ "Vehicle.Speed")
  | None => false
  end.
Lemma lines_checked : forallb line_check line_results = true.
Proof. vm_compute. reflexivity. Qed.
Lemma line_values w ord now d sc m p x0 x1 : experiment w ord now d sc = Ok m -> orders_ok w -> Permutation (ord vss_sensors) vss_sensors ->
  (sc, p, x0, x1) ∈ line_results ->
  exists s z0 z, (p, s) ∈ sensors (m_vehicle m) ∧ s_value s = PNum x1 ∧ latest (m_tpatches m) p (PNum x0) z0 (PNum x1) z.
Proof.
  intros H Ho P He. destruct (experiment_plain _ _ _ _ _ _ Ho P H) as (_ & v & Hv & _ & _ & Sh & G).
  pose proof (shape_separate v Sh) as [Hnd _]. pose proof lines_checked as C. rewrite forallb_forall in C.
  specialize (C _ (proj1 (elem_of_list_In _ _) He)). unfold line_check in C. apply andb_true_iff in C as [C1 C2]. apply bool_decide_eq_true in C1.
  destruct (alookup p vss_sensors) as [e|] eqn:E; [|done]. apply alookup_Some_in in E. cbv zeta in C2.
  apply andb_true_iff in C2 as [C2 C6]. apply andb_true_iff in C2 as [C2 C5]. apply andb_true_iff in C2 as [C2 C4]. apply andb_true_iff in C2 as [C2 C3].
  apply bool_decide_eq_true in C2, C3, C5, C6. destruct (start_kind sc now d (p, e) C1 E) as [(K1 & K2 & K3 & K4) V].
  assert (Vp : start_prim sc d (p, e) = s_value (base_sensor sc (p, e))).
  { unfold start_prim. cbn [fst]. rewrite !decide_False by tauto. done. }
  rewrite Vp in V. destruct (s_value (base_sensor sc (p, e))) as [|x|]; [done| |done]. apply andb_true_iff in C4 as [C4 C7].
  apply bool_decide_eq_true in C4, C7. subst x. pose proof (get_in v p (start_sensor sc now d (p, e))) as Hin.
  assert (Hin' : (p, start_sensor sc now d (p, e)) ∈ sensors v). { apply get_in. eexists. exact (G (p, e) E). } clear Hin.
  destruct (final_sensors _ _ _ _ _ Hv Ho Hnd) as [_ Fs]. destruct (Fs _ _ Hin') as (s' & z & y & S1 & S2 & _).
  rewrite V in S2.
  pose proof Hv as (m0 & H0 & Hr)%simulate_inv. apply start_zero in H0 as (V0 & Sc & _ & _).
  apply run_times_solo in Hr as (uss & A & _ & K & _ & _ & Q); [|done|exact (proj1 Ho)|by rewrite V0].
  rewrite V0 in *. destruct (Q p _ Hin') as (s1 & E1 & Hin1).
  assert (s1 = s').
  { assert (N : NoDup (akeys (concat (m_vehicle (strip m))))) by (rewrite K; exact Hnd).
    apply (alookup_in _ _ _ N) in Hin1. apply (alookup_in _ _ _ N) in S1. congruence. }
  subst s1. apply (solo_times_line _ _ _ _ x0) in E1 as [_ V1]; [|congruence..].
  rewrite (line_step_frame (base_sensor sc (p, e)) _ K4 K2), K2, C7 in V1.
  exists s', (s_stamp (start_sensor sc now d (p, e))), z. split; [exact S1|]. split; [exact V1|]. by rewrite V1 in S2.
Qed.
Lemma experiment_sensors w ord now d sc m : experiment w ord now d sc = Ok m -> orders_ok w -> Permutation (ord vss_sensors) vss_sensors ->
  m_transitions m = [] ∧ Permutation (akeys (sensors (m_vehicle m))) (akeys vss_sensors) ∧
  forall p, p ∈ akeys vss_sensors -> exists s v0 z0 x z, (p, s) ∈ sensors (m_vehicle m) ∧
    latest (m_tpatches m) p v0 z0 (s_value s) z ∧ latest (m_spatches m) p v0 z0 x (s_stamp s) ∧ close (s_value s) x.
Proof.
  intros H Ho P. destruct (experiment_plain _ _ _ _ _ _ Ho P H) as (T & v & Hv & _ & _ & Sh & G). split; [done|].
  pose proof (shape_separate v Sh) as [Hnd _]. destruct (final_sensors _ _ _ _ _ Hv Ho Hnd) as [K Fs]. split.
  - change (m_vehicle (strip m)) with (m_vehicle m) in K. rewrite K. unfold sensors. rewrite <- shape_keys, Sh. unfold table_shape. by rewrite map_map.
  - intros p Hp. apply elem_of_list_fmap in Hp as ([q e] & -> & He). cbn [fst].
    assert (Hin : (q, start_sensor sc now d (q, e)) ∈ sensors v). { apply get_in. eexists. exact (G (q, e) He). }
    destruct (Fs _ _ Hin) as (s' & z & x & S1 & S2 & S3 & S4). by exists s', (s_value (start_sensor sc now d (q, e))), (s_stamp (start_sensor sc now d (q, e))), x, z.
Qed.
