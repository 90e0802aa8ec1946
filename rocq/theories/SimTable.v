(** The ranges of the table of sensors hold in every experiment of the program. *)
From Verif Require Import Base BaseSpec BaseLemmas F64 GoText Tson Bytes TjsonSpec TjsonLemmas Vss VssSpec Sensor Scenario Sim SimSpec SimTrace SimLemmas SimTimes SimDocs SimFinal SimInit SimPlace SimExp SimRows SimTrans SimQuiet SimStart RangeSpec FloatOrder SimRange.

Lemma leb_trans_any x y z : SFleb x y = true -> SFleb y z = true -> SFleb x z = true.
Proof.
  unfold SFleb. destruct x as [[]|[]| |[] m e], y as [[]|[]| |[] m1 e1], z as [[]|[]| |[] m2 e2]; cbn [SFcompare]; try done.
  all: destruct (Z.compare_spec e e1), (Z.compare_spec e1 e2), (Z.compare_spec e e2); try done; try lia.
  all: rewrite ?Pos.compare_cont_spec; change (Pos.compare_cont Eq) with Pos.compare; 
    destruct (Pos.compare_spec m m1), (Pos.compare_spec m1 m2), (Pos.compare_spec m m2); cbn; try done; try lia.
Qed.

Definition param_number (s : sensor) (k : string) : option f64 :=
  match alookup k (s_params s) with Some x => if f64_valid x && f64_finite x then Some x else None | None => None end.
Lemma param_number_has s k x : param_number s k = Some x -> has s k x.
Proof.
  unfold param_number, has. destruct (alookup k (s_params s)) as [y|]; [|done]. destruct (f64_valid y && f64_finite y) eqn:E; [|done].
  intros [= ->]. split; [done|]. by apply andb_true_iff in E.
Qed.
Definition moving : list string := ["linear"; "random_walk"; "stepped"; "constant_with_noise"; "sinusoidal"; "triggered"].
Definition fits (lo hi : f64) (s : sensor) : bool :=
  bool_decide (s_type s = "number") &&
  if decide (s_pattern s = "linear") then
    match param_number s "min", param_number s "max", param_number s "slope" with
    | Some a, Some b, Some _ => SFleb a b && SFleb lo a && SFleb b hi && (Z.abs (s_interval s) <=? 2 ^ 63)
    | _, _, _ => false
    end
  else if decide (s_pattern s = "random_walk") then
    match param_number s "min", param_number s "max", param_number s "step_size" with
    | Some a, Some b, Some k => SFleb a b && SFleb lo a && SFleb b hi && SFleb zero k
    | _, _, _ => false
    end
  else if decide (s_pattern s = "constant_with_noise") then
    match param_number s "baseline", param_number s "noise" with
    | Some b, Some k => SFleb zero k && SFleb lo (minus b k) && SFleb (plus b k) hi
    | _, _ => false
    end
  else if decide (s_pattern s = "sinusoidal") then
    match param_number s "baseline", param_number s "amplitude", param_number s "period" with
    | Some b, Some k, Some l => SFleb zero k && SFleb lo (minus b k) && SFleb (plus b k) hi && SFleb (f64_of_Z 1) l
    | _, _, _ => false
    end
  else bool_decide (s_pattern s ∉ moving).
(** The value of a sensor that does not move has to be in the range. *)
Definition fits_value (lo hi : f64) (pattern : string) (x : f64) : bool :=
  f64_valid x && f64_finite x && (bool_decide (pattern ∈ moving) || SFleb lo x && SFleb x hi).
Ltac halves := repeat match goal with H : _ && _ = true |- _ => apply andb_true_iff in H as [? ?] end.
Lemma fits_range lo hi s0 s x : fits lo hi s0 = true -> same_kind s s0 -> s_value s = PNum x -> fits_value lo hi (s_pattern s) x = true ->
  exists a b, range_of s a b ∧ fl_le lo a ∧ fl_le b hi.
Proof.
  intros H (K1 & K2 & K3 & K4) Hx Hv. unfold fits in H. rewrite <- K1, <- K2, <- K3 in H.
  assert (Hp : forall k y, param_number s0 k = Some y -> has s k y).
  { intros k y Hk%param_number_has. unfold has in *. by rewrite K4. }
  apply andb_true_iff in H as [Ty H]. apply bool_decide_eq_true in Ty.
  unfold fits_value in Hv. apply andb_true_iff in Hv as [Nx Hv]. apply andb_true_iff in Nx as Nx'. fold (number x) in Nx'.
  destruct (decide (s_pattern s = "linear")).
  { destruct (param_number s0 "min") as [a|] eqn:E1; [|done]. destruct (param_number s0 "max") as [b|] eqn:E2; [|done].
    destruct (param_number s0 "slope") as [k|] eqn:E3; [|done]. halves. exists a, b. split; [|done].
    apply (rg_linear s a b k x); auto; [done|by apply Z.leb_le]. }
  destruct (decide (s_pattern s = "random_walk")).
  { destruct (param_number s0 "min") as [a|] eqn:E1; [|done]. destruct (param_number s0 "max") as [b|] eqn:E2; [|done].
    destruct (param_number s0 "step_size") as [k|] eqn:E3; [|done]. halves. exists a, b. split; [|done].
    by apply (rg_walk s a b k x); auto. }
  destruct (decide (s_pattern s = "constant_with_noise")).
  { destruct (param_number s0 "baseline") as [b|] eqn:E1; [|done]. destruct (param_number s0 "noise") as [k|] eqn:E2; [|done]. halves.
    eexists _, _. split; [by apply (rg_noise s b k x); auto|done]. }
  destruct (decide (s_pattern s = "sinusoidal")).
  { destruct (param_number s0 "baseline") as [b|] eqn:E1; [|done]. destruct (param_number s0 "amplitude") as [k|] eqn:E2; [|done].
    destruct (param_number s0 "period") as [l|] eqn:E3; [|done]. halves.
    eexists _, _. split; [by apply (rg_wave s b k l x); auto|done]. }
  apply bool_decide_eq_true in H. apply orb_true_iff in Hv as [Hv|Hv]; [by apply bool_decide_eq_true in Hv|]. halves.
  exists x, x. split; [by apply rg_still|done].
Qed.
Lemma spread_number a b r : number (fl a) -> number (fl b) -> number (f64_add (fl a) (fl b)) -> fl_le zero (fl b) -> unit_float r -> number (spread a b r).
Proof.
  intros Na Nb Nab Hb (Nr & R0 & R1)%unit_number. unfold spread.
  destruct (part_range (fl a) (fl b) r (f64_mul r (fl b)) Na Nb Nr Hb R0 R1 (mul_rounds _ _ Nr Nb)) as (V & L & U).
  by apply (bounded_number (fl a) (f64_add (fl a) (fl b))).
Qed.
Definition drawn_start (sc p : string) : bool :=
  bool_decide ((sc, p) ∈ [("urban_traffic", "Vehicle.Speed"); ("mixed_scenario", "Vehicle.Speed"); ("highway_cruising", "Vehicle.Speed");
    ("battery_charging", soc); ("battery_charging", rate)]).
Lemma start_prim_number sc d e : fair d -> drawn_start sc (fst e) = true -> exists x, start_prim sc d e = PNum x ∧ number x.
Proof.
  intros [F _] H. unfold drawn_start in H. apply bool_decide_eq_true in H. destruct e as [p e]. cbn [fst] in *.
  repeat (apply elem_of_cons in H as [[= -> ->]|H]; [eexists; split; [reflexivity|apply spread_number; [split; by vm_compute..|by vm_compute|apply F]]|]).
  by apply elem_of_nil in H.
Qed.
Lemma start_prim_fixed sc d e : drawn_start sc (fst e) = false -> start_prim sc d e = s_value (base_sensor sc e).
Proof.
  intros H. unfold drawn_start in H. apply bool_decide_eq_false in H. unfold start_prim. rewrite !elem_of_cons in H. cbn [fst] in H.
  rewrite !decide_False; [done|..]; intros [E1 E2]; apply H; subst; destruct e; cbn [fst] in *; subst; intuition (subst; auto).
Qed.
Definition checked (sc : string) (e : string * vss_sensor) (lo hi : f64) : bool :=
  let s := base_sensor sc e in
  fits lo hi s && (if drawn_start sc (fst e) then bool_decide (s_pattern s ∈ moving)
                   else match s_value s with PNum x => fits_value lo hi (s_pattern s) x | _ => false end).
Lemma checked_range sc now d e lo hi : sc ∈ program_scenarios -> e ∈ vss_sensors -> fair d -> checked sc e lo hi = true ->
  exists a b, range_of (start_sensor sc now d e) a b ∧ fl_le lo a ∧ fl_le b hi.
Proof.
  intros Hs He F H. destruct (start_kind sc now d e Hs He) as [K V]. unfold checked in H. cbv zeta in H. apply andb_true_iff in H as [H1 H2].
  destruct (drawn_start sc (fst e)) eqn:E.
  - destruct (start_prim_number sc d e F E) as (x & Ex & Nx). apply (fits_range lo hi _ _ x H1 K); [congruence|].
    destruct Nx as [N1 N2]. unfold fits_value. rewrite N1, N2. destruct K as (_ & _ & -> & _). by rewrite H2.
  - rewrite start_prim_fixed in V by done. destruct (s_value (base_sensor sc e)) as [|x|]; [done| |done].
    apply (fits_range lo hi _ _ x H1 K V). by destruct K as (_ & _ & -> & _).
Qed.
Lemma table_checked : forallb (fun sc => forallb (fun e => bool_decide (vs_type (snd e) ≠ "number") || checked sc e (vs_min (snd e)) (vs_max (snd e))) vss_sensors)
  program_scenarios = true.
Proof. vm_compute. reflexivity. Qed.
Lemma narrow_checked : forallb (fun '(sc, p, lo, hi) => bool_decide (sc ∈ program_scenarios) &&
  match alookup p vss_sensors with Some e => checked sc (p, e) lo hi | None => false end) scenario_ranges = true.
Proof. vm_compute. reflexivity. Qed.

(** Other names of scenarios leave every sensor as it is. *)
Lemma other_start sc now d e : sc ∉ program_scenarios -> e ∈ vss_sensors ->
  start_sensor sc now d e = Sensor (fst e) (vs_default (snd e)) (vs_type (snd e)) (now (fst e)) (vs_interval (snd e)) "constant" [] 0.
Proof.
  intros Hs He. unfold program_scenarios in Hs. rewrite !not_elem_of_cons in Hs. destruct Hs as (S1 & S2 & S3 & S4 & _).
  assert (Hn : alookup sc (vs_patterns (snd e)) = None).
  { assert (G : forallb (fun e : string * vss_sensor => bool_decide (akeys (vs_patterns (snd e)) = ["urban_traffic"; "highway_cruising"; "battery_charging"])) vss_sensors = true)
      by (vm_compute; reflexivity).
    rewrite forallb_forall in G. apply elem_of_list_In in He. apply G, bool_decide_eq_true in He. destruct (alookup sc (vs_patterns (snd e))) eqn:E; [|done].
    apply alookup_Some_in in E. exfalso. assert (Hk : sc ∈ akeys (vs_patterns (snd e))) by (apply elem_of_list_fmap; by eexists (_, _)).
    rewrite He, !elem_of_cons, elem_of_nil in Hk. tauto. }
  unfold start_sensor. rewrite decide_False by tauto. unfold first_sensor, actual, level. rewrite !decide_False by tauto.
  unfold scenario_settings. rewrite !decide_False by tauto. unfold made. rewrite Hn. cbn [default snd fst].
  assert (Hu : forall s, updated sc e s = s).
  { intros s. unfold updated, update_pattern. rewrite (alookup_in (fst e) (snd e) vss_sensors); [by rewrite Hn|apply table_nodup|by destruct e]. }
  rewrite Hu. done.
Qed.

(** Sensors that are not numbers. *)
Definition keeps (v : prim) (s : sensor) : Prop :=
  match v with
  | PBool _ => s_type s = "boolean" ∧ exists b, s_value s = PBool b
  | PStr x => s_type s = "string" ∧ s_pattern s = "constant" ∧ s_value s = PStr x
  | PNum _ => False
  end.
Definition like (v x : prim) : Prop :=
  match v with PBool _ => exists b, x = PBool b | PStr y => x = PStr y | PNum _ => False end.
Lemma solo_keeps v w t p s s' us : keeps v s -> solo w t p s = Ok (s', us) -> keeps v s' ∧ Forall (fun u => like v (u_value u)) us.
Proof.
  intros K. unfold solo. destruct (decide (s_interval s = 0)); [done|]. destruct (decide _); [|by intros [= <- <-]].
  destruct (new_value _ _ _ _ _) as [[s1 y]| |] eqn:E; cbn [rbind]; [|done|done]. intros [= <- <-].
  pose proof (new_value_frame _ _ _ _ _ _ _ E) as (_ & Ev & Ety & _ & _ & Ept & _).
  assert (G : like v y).
  { unfold new_value in E. cbn [s_type s_value set_count] in E. destruct v as [x| |b0]; cbn in K.
    - destruct K as (Ty & Pt & Ex). rewrite Ty, Ex in E. rewrite !decide_False, decide_True in E by done. unfold new_string in E.
      cbn [s_pattern set_count] in E. rewrite Pt in E. rewrite decide_False in E by done. cbn [rbind] in E. by injection E as _ <-.
    - done.
    - destruct K as (Ty & b & Ex). rewrite Ty, Ex in E. rewrite decide_False, decide_True in E by done. injection E as _ <-. by eexists. }
  split; [|by repeat constructor]. destruct v as [x| |b0]; cbn in K, G |- *; [|done|].
  - destruct K as (Ty & Pt & Ex). destruct (negb _); cbn; repeat split; congruence.
  - destruct K as (Ty & b & Ex). destruct (negb _); cbn; (split; [congruence|]); [done|exists b; congruence].
Qed.
Lemma solo_times_keeps v w ts p s s' us : keeps v s -> solo_times w ts p s = Ok (s', us) -> Forall (fun u => like v (u_value u)) us.
Proof.
  revert s us. induction ts as [|t ts IH]; intros s us K; cbn [solo_times]; [by intros [= <- <-]|].
  destruct (solo w t p s) as [[s1 us1]| |] eqn:E; cbn [rbind fst snd]; [|done|done].
  destruct (solo_times w ts p s1) as [[s2 us2]| |] eqn:E2; cbn [rbind fst snd]; [|done|done]. intros [= <- <-].
  apply (solo_keeps v) in E as [K1 F1]; [|done]. apply IH in E2; [|done]. by apply Forall_app.
Qed.
Lemma values_keep v0 w v sec inc m p s : simulate w v None sec inc = Ok m -> orders_ok w -> NoDup (akeys (sensors v)) ->
  (p, s) ∈ sensors v -> keeps v0 s -> forall q, q ∈ m_spatches m -> sp_path q = p -> like v0 (sp_value q).
Proof.
  intros (m0 & H0 & H)%simulate_inv [Ho _] Hnd Hin R. apply start_zero in H0 as (V & Sc & _ & J & T & S & _).
  apply run_times_solo in H as (uss & A & _ & K & _ & _ & P); [|done|done|by rewrite V].
  rewrite V in *. destruct (P p s Hin) as (s' & E & Hin'). destruct A. rewrite af_sp, S. cbn [app].
  apply (solo_times_keeps v0) in E as F; [|done].
  intros q Hq Hp. apply elem_of_list_fmap in Hq as (u & -> & Hu). cbn in *. rewrite List.Forall_forall in F. apply F.
  apply List.filter_In. split; [by apply elem_of_list_In|]. unfold on. by apply bool_decide_eq_true.
Qed.
Definition keeps_check (sc : string) (e : string * vss_sensor) : bool :=
  let s := base_sensor sc e in
  negb (drawn_start sc (fst e)) &&
  match vs_default (snd e), s_value s with
  | PBool _, PBool _ => bool_decide (s_type s = "boolean")
  | PStr x, PStr y => bool_decide (s_type s = "string") && bool_decide (s_pattern s = "constant") && bool_decide (x = y)
  | _, _ => false
  end.
Lemma keeps_checked : forallb (fun sc => forallb (fun e => bool_decide (vs_type (snd e) = "number") || keeps_check sc e) vss_sensors) program_scenarios = true.
Proof. vm_compute. reflexivity. Qed.
Lemma table_types : forallb (fun e : string * vss_sensor => match vs_default (snd e) with
    | PNum x => bool_decide (vs_type (snd e) = "number") && fits_value (vs_min (snd e)) (vs_max (snd e)) "constant" x
    | PBool _ => bool_decide (vs_type (snd e) = "boolean")
    | PStr _ => bool_decide (vs_type (snd e) = "string") end) vss_sensors = true.
Proof. vm_compute. reflexivity. Qed.
Lemma default_kept sc now d e : e ∈ vss_sensors -> vs_type (snd e) ≠ "number" -> keeps (vs_default (snd e)) (start_sensor sc now d e).
Proof.
  intros He Ht. pose proof table_types as T. rewrite forallb_forall in T. specialize (T e (proj1 (elem_of_list_In _ _) He)).
  destruct (decide (sc ∈ program_scenarios)) as [Hs|Hs].
  - destruct (start_kind sc now d e Hs He) as [(K1 & _ & K3 & _) V].
    pose proof keeps_checked as G. rewrite forallb_forall in G. specialize (G sc (proj1 (elem_of_list_In _ _) Hs)). rewrite forallb_forall in G.
    specialize (G e (proj1 (elem_of_list_In _ _) He)). rewrite bool_decide_false in G by done. cbn [orb] in G. unfold keeps_check in G. cbv zeta in G.
    apply andb_true_iff in G as [G1 G]. apply negb_true_iff in G1. rewrite start_prim_fixed in V by done.
    destruct (vs_default (snd e)) as [x| |b]; [|done|]; destruct (s_value (base_sensor sc e)) as [y| |b']; try done; halves;
      repeat match goal with H : bool_decide _ = true |- _ => apply bool_decide_eq_true in H end; cbn.
    + split; [congruence|]. split; congruence.
    + split; [congruence|]. by exists b'.
  - rewrite other_start by done. destruct (vs_default (snd e)) as [x| |b]; cbn; halves;
      repeat match goal with H : bool_decide _ = true |- _ => apply bool_decide_eq_true in H end; [done..|]. split; [done|by eexists].
Qed.
Lemma start_listed sc now d e v : e ∈ vss_sensors ->
  (forall e, e ∈ vss_sensors -> get (map_index (vs_category (snd e))) (fst e) v = Some (start_sensor sc now d e)) ->
  (fst e, start_sensor sc now d e) ∈ sensors v.
Proof. intros He G. apply G in He. apply get_in. by eexists. Qed.
Lemma start_table_range sc now d e : e ∈ vss_sensors -> vs_type (snd e) = "number" -> fair d ->
  exists a b, range_of (start_sensor sc now d e) a b ∧ fl_le (vs_min (snd e)) a ∧ fl_le b (vs_max (snd e)).
Proof.
  intros He Ht F. destruct (decide (sc ∈ program_scenarios)) as [Hs|Hs].
  - apply checked_range; [done..|]. pose proof table_checked as G. rewrite forallb_forall in G. specialize (G sc (proj1 (elem_of_list_In _ _) Hs)).
    rewrite forallb_forall in G. specialize (G e (proj1 (elem_of_list_In _ _) He)). rewrite bool_decide_false in G by auto. done.
  - pose proof table_types as T. rewrite forallb_forall in T. specialize (T e (proj1 (elem_of_list_In _ _) He)).
    destruct (vs_default (snd e)) as [x|x|b] eqn:Ed; [apply bool_decide_eq_true in T; by rewrite Ht in T| |apply bool_decide_eq_true in T; by rewrite Ht in T].
    apply andb_true_iff in T as [_ T]. rewrite other_start by done.
    apply (fits_range (vs_min (snd e)) (vs_max (snd e)) (Sensor (fst e) (vs_default (snd e)) (vs_type (snd e)) (now (fst e)) (vs_interval (snd e)) "constant" [] 0) _ x);
      [|done|done|done]. unfold fits. cbn [s_type s_pattern]. rewrite Ht. vm_compute. reflexivity.
Qed.
Lemma within_wider lo hi a b v : within a b v -> fl_le lo a -> fl_le b hi -> within lo hi v.
Proof. intros (x & -> & L & U) H1 H2. exists x. split; [done|]. split; eapply leb_trans_any; eassumption. Qed.
Lemma table_values w ord now d sc m p e : experiment w ord now d sc = Ok m -> orders_ok w -> Permutation (ord vss_sensors) vss_sensors ->
  random_ok w -> fair d -> sine (w_sin w) -> (p, e) ∈ vss_sensors ->
  forall q, q ∈ m_spatches m -> sp_path q = p ->
  match vs_default e with
  | PNum _ => within (vs_min e) (vs_max e) (sp_value q)
  | PBool _ => exists b, sp_value q = PBool b
  | PStr x => sp_value q = PStr x
  end.
Proof.
  intros H Ho P R F Sn He q Hq Hp. destruct (experiment_plain _ _ _ _ _ _ Ho P H) as (_ & v & Hv & _ & _ & Sh & G).
  pose proof (shape_separate v Sh) as [Hnd _]. pose proof (start_listed sc now d (p, e) v He G) as Hin. cbn [fst] in Hin.
  pose proof table_types as T. rewrite forallb_forall in T. specialize (T (p, e) (proj1 (elem_of_list_In _ _) He)). cbn [snd] in T.
  destruct (decide (vs_type e = "number")) as [Ht|Ht].
  - destruct (start_table_range sc now d (p, e) He Ht F) as (a & b & Rg & L & U). cbn [snd] in L, U.
    destruct (vs_default e) as [x|x|x]; [apply bool_decide_eq_true in T; by rewrite Ht in T| |apply bool_decide_eq_true in T; by rewrite Ht in T].
    apply (within_wider _ _ a b); [|done..].
    by apply (values_range w v simulation_sec simulation_step (strip m) p _ a b Hv Ho Hnd eq_refl eq_refl R Sn Hin Rg q).
  - pose proof (default_kept sc now d (p, e) He Ht) as K. cbn [snd] in K.
    pose proof (values_keep (vs_default e) w v _ _ (strip m) p _ Hv Ho Hnd Hin K q Hq Hp) as L. by destruct (vs_default e).
Qed.
Lemma narrow_values w ord now d sc m p lo hi : experiment w ord now d sc = Ok m -> orders_ok w -> Permutation (ord vss_sensors) vss_sensors ->
  random_ok w -> fair d -> sine (w_sin w) -> (sc, p, lo, hi) ∈ scenario_ranges ->
  forall q, q ∈ m_spatches m -> sp_path q = p -> within lo hi (sp_value q).
Proof.
  intros H Ho P R F Sn He q Hq Hp. destruct (experiment_plain _ _ _ _ _ _ Ho P H) as (_ & v & Hv & _ & _ & Sh & G).
  pose proof (shape_separate v Sh) as [Hnd _]. pose proof narrow_checked as C. rewrite forallb_forall in C.
  specialize (C _ (proj1 (elem_of_list_In _ _) He)). cbv beta iota in C. apply andb_true_iff in C as [C1 C2]. apply bool_decide_eq_true in C1.
  destruct (alookup p vss_sensors) as [e|] eqn:E; [|done]. apply alookup_Some_in in E.
  destruct (checked_range sc now d (p, e) lo hi C1 E F C2) as (a & b & Rg & L & U).
  pose proof (start_listed sc now d (p, e) v E G) as Hin. cbn [fst] in Hin. apply (within_wider _ _ a b); [|done..].
  by apply (values_range w v simulation_sec simulation_step (strip m) p _ a b Hv Ho Hnd eq_refl eq_refl R Sn Hin Rg q).
Qed.
