(** The temporal experiment on the files of the urban scenario, the one the program runs it on. *)
From Verif Require Import Base BaseSpec BaseLemmas F64 GoText Tson TsonSpec Bytes Heap Patch PatchSpec LogSpec ReplaySpec TjsonSpec TjsonLemmas Tjson Initial
  InitialSpec Query QuerySpec Vss VssSpec Sensor Scenario Sim SimSpec SimTrace SimLemmas SimTimes SimDocs SimFinal SimInit SimPlace SimExp SimRows SimTrans SimQuiet SimStart SimLine
  RangeSpec SimTable Temporal TemporalSpec TempLog TempTrack TempRun.

Local Notation urban := "urban_traffic".
Lemma urban_listed : urban ∈ program_scenarios.
Proof. by left. Qed.

(** ** The names of the table *)
Fixpoint free_check (seps : list ascii) (s : string) : bool :=
  match s with "" => true | String a s' => negb (existsb (Ascii.eqb a) seps) && free_check seps s' end.
Lemma free_checked seps s : free_check seps s = true -> free_of seps s.
Proof.
  induction s as [|a s IH]; [constructor|]. cbn. intros [H1 H2]%andb_true_iff. constructor; [|by apply IH]. intros Hin. apply negb_true_iff in H1.
  assert (existsb (Ascii.eqb a) seps = true) by (apply existsb_exists; exists a; split; [done|by apply Ascii.eqb_eq]). congruence.
Qed.
Definition name_check (k : string) : bool :=
  negb (String.eqb k "") && free_check ["/"; "."]%char k && free_check ["/"; "."; "~"]%char k && negb (String.eqb k "value").
Lemma name_checked k : name_check k = true -> both_name k ∧ k <> "value".
Proof.
  unfold name_check. rewrite !andb_true_iff, !negb_true_iff, !String.eqb_neq. intros [[[H1 H2] H3] H4]. split; [|done].
  split; [split; [done|]|]; by apply free_checked.
Qed.
Lemma names_checked : forallb (fun e => forallb name_check (split_on dot (fst e))) vss_sensors = true.
Proof. vm_compute. reflexivity. Qed.
Lemma urban_keys v : Permutation (shape (concat v)) table_shape -> Permutation (akeys (sensors v)) (akeys vss_sensors).
Proof.
  intros H. unfold sensors. rewrite <- shape_keys. rewrite H. unfold table_shape. rewrite map_map. done.
Qed.
Lemma urban_plain v : Permutation (shape (concat v)) table_shape -> plain_paths v.
Proof.
  intros Sh p s l Hin Hd. apply names_split in Hd. subst l. assert (Hp : p ∈ akeys vss_sensors).
  { rewrite <- (urban_keys v Sh). apply elem_of_list_fmap. by exists (p, s). }
  apply elem_of_list_fmap in Hp as (e & -> & He). pose proof names_checked as C. rewrite forallb_forall in C.
  specialize (C e (proj1 (elem_of_list_In _ _) He)). rewrite forallb_forall in C. apply List.Forall_forall. intros k Hk. apply name_checked. by apply C.
Qed.
Lemma tracked_check : forallb (fun p => bool_decide (p ∈ akeys vss_sensors)) tracked_paths = true.
Proof. vm_compute. reflexivity. Qed.

(** ** The values are numbers *)
Lemma bounded_finite lo hi x : f64_finite lo = true -> f64_finite hi = true -> fl_le lo x -> fl_le x hi -> f64_finite x = true.
Proof. unfold fl_le. destruct x as [b|b| |b m e]; try done. destruct b, lo as [[]|[]| |[] ? ?], hi as [[]|[]| |[] ? ?]; done. Qed.
Lemma bounds_checked : forallb (fun e => f64_finite (vs_min (snd e)) && f64_finite (vs_max (snd e))) vss_sensors = true.
Proof. vm_compute. reflexivity. Qed.
Lemma base_checked : forallb (fun e => finite (s_value (base_sensor urban e))) vss_sensors = true.
Proof. vm_compute. reflexivity. Qed.
Lemma start_finite now d e : e ∈ vss_sensors -> fair d -> finite (s_value (start_sensor urban now d e)) = true.
Proof.
  intros He F. destruct (start_kind urban now d e urban_listed He) as [_ ->]. destruct (drawn_start urban (fst e)) eqn:D.
  - destruct (start_prim_number urban d e F D) as (x & -> & _ & Hx). done.
  - rewrite start_prim_fixed by done. pose proof base_checked as C. rewrite forallb_forall in C. by apply C, elem_of_list_In.
Qed.
Lemma patches_updates w v sec inc m q : simulate w v None sec inc = Ok m -> q ∈ m_tpatches m -> q ∈ m_spatches m.
Proof.
  intros (m0 & us & H0 & _ & A)%simulate_after. apply start_zero in H0 as (_ & _ & _ & _ & T & S & _). destruct A. rewrite af_tp, af_sp, T, S. cbn [app].
  intros (u & -> & Hu)%elem_of_list_fmap. apply elem_of_list_In, List.filter_In in Hu as [Hu _].
  apply elem_of_list_fmap. exists u. split; [done|by apply elem_of_list_In].
Qed.
Lemma patch_times w v sec inc m q : simulate w v None sec inc = Ok m -> orders_ok w -> NoDup (akeys (sensors v)) -> 0 < inc ->
  q ∈ m_tpatches m -> time_step (sec * 1000) inc (sp_ts q) ∧ sp_path q ∈ akeys (sensors v).
Proof.
  intros (m0 & H0 & H)%simulate_inv [Ho _] Hnd Hi Hq. apply start_zero in H0 as (V & Sc & _ & _ & T & _).
  apply run_times_solo in H as (uss & A & F & _); [|done|done|by rewrite V]. destruct A. rewrite af_tp, T in Hq. cbn [app] in Hq.
  apply elem_of_list_fmap in Hq as (u & -> & Hu). apply elem_of_list_In, List.filter_In in Hu as [Hu _].
  apply in_concat in Hu as (us & Hus & Hu). apply elem_of_list_In, elem_of_list_lookup in Hus as [i Hus].
  destruct (Forall2_lookup_r _ _ _ _ _ F Hus) as (t & Ht & HF). rewrite List.Forall_forall in HF. destruct (HF u Hu) as [Hu1 Hu2].
  rewrite V in Hu2. cbn [set_of sp_ts sp_path]. split; [|done]. apply (loop_times_spec _ _ _ Hi). rewrite Hu1. by apply elem_of_list_lookup_2 in Ht.
Qed.

(** ** The charge changes at each of its updates *)
Definition urban_charge : sensor := base_sensor urban soc_entry.
Definition charge_line : f64 -> f64 := line_step urban_charge.
Lemma charge_times : List.filter (due 200) (loop_times (simulation_sec * 1000) simulation_step) !! 0%nat = Some 0 ∧
  List.filter (due 200) (loop_times (simulation_sec * 1000) simulation_step) !! 1499%nat = Some 299800.
Proof. split; vm_compute; reflexivity. Qed.
Lemma charge_moves : forallb (fun i => let x := Nat.iter i (line_keep charge_line) (fl 80) in negb (is_equal (PNum x) (PNum (charge_line x)))) [0; 1499]%nat = true.
Proof. vm_compute. reflexivity. Qed.
Lemma charge_start now d : let s := start_sensor urban now d soc_entry in
  s_type s = "number" ∧ s_pattern s = "linear" ∧ s_value s = PNum (fl 80) ∧ s_interval s = 200 ∧ line_step s = charge_line.
Proof. repeat split; vm_compute; reflexivity. Qed.
Lemma charge_patched w v now d m i t : simulate w v None simulation_sec simulation_step = Ok m -> orders_ok w -> NoDup (akeys (sensors v)) ->
  (soc, start_sensor urban now d soc_entry) ∈ sensors v -> i ∈ [0; 1499]%nat ->
  List.filter (due 200) (loop_times (simulation_sec * 1000) simulation_step) !! i = Some t ->
  exists q, q ∈ m_tpatches m ∧ sp_path q = soc ∧ sp_ts q = t.
Proof.
  intros (m0 & H0 & H)%simulate_inv [Ho _] Hnd Hin Hi Ht. apply start_zero in H0 as (V & Sc & _ & _ & T & _).
  apply run_times_solo in H as (uss & A & _ & _ & _ & _ & P); [|done|done|by rewrite V]. rewrite V in P. destruct (P _ _ Hin) as (s' & E & _).
  destruct (charge_start now d) as (Ty & Pt & Vs & I & Ls).
  pose proof (solo_times_facts _ _ _ _ _ _ E) as (_ & _ & _ & _ & _ & _ & Tm & _).
  pose proof (solo_times_line_us _ _ _ _ _ _ _ Ty Pt Vs E) as [_ Us]. rewrite Ls in Us. rewrite I in Tm.
  rewrite <- Tm in Ht. rewrite list_lookup_fmap in Ht. apply fmap_Some in Ht as (u & Hu & ->). pose proof (Us i u Hu) as (Hp & _ & Hc).
  pose proof charge_moves as C. rewrite forallb_forall in C. specialize (C i (proj1 (elem_of_list_In _ _) Hi)). cbv zeta in C. rewrite <- Hc in C.
  apply elem_of_list_lookup_2, elem_of_list_In, List.filter_In in Hu as [Hu _].
  exists (set_of u). destruct A. rewrite af_tp, T. cbn [app]. split; [|by split]. apply elem_of_list_fmap. exists u. split; [done|].
  apply elem_of_list_In, List.filter_In. by split.
Qed.

(** ** The experiment *)
Lemma urban_vehicle ord now d v : Permutation (ord vss_sensors) vss_sensors -> init_vehicle ord now urban d = Ok v ->
  Permutation (shape (concat v)) table_shape ∧ separate v ∧ (forall e, e ∈ vss_sensors -> (fst e, start_sensor urban now d e) ∈ sensors v).
Proof.
  intros P E. destruct (init_vehicle_spec ord now urban d P) as (v' & E' & _ & _ & Sh & _ & G). rewrite E in E'. injection E' as <-.
  split; [done|]. split; [by apply shape_separate|]. intros e He. apply (start_listed urban now d e v He). intros e' He'. rewrite (G e' He'). done.
Qed.
Lemma urban_writable w ord now d v m : Permutation (ord vss_sensors) vss_sensors -> orders_ok w -> random_ok w -> fair d -> sine (w_sin w) ->
  init_vehicle ord now urban d = Ok v -> experiment w ord now d urban = Ok m -> writable v m.
Proof.
  intros P Ho R F Sn E H. destruct (urban_vehicle _ _ _ _ P E) as (Sh & Hs & G). destruct (separate_apart v Hs) as [Hnd _].
  assert (Hv : simulate w v None simulation_sec simulation_step = Ok m). { unfold experiment in H. rewrite E in H. exact H. }
  split.
  - intros p s Hin. assert (Hp : p ∈ akeys vss_sensors). { rewrite <- (urban_keys v Sh). apply elem_of_list_fmap. by exists (p, s). }
    apply elem_of_list_fmap in Hp as (e & -> & He). pose proof (G e He) as Hin'.
    apply (alookup_in _ _ _ Hnd) in Hin. apply (alookup_in _ _ _ Hnd) in Hin'. rewrite Hin in Hin'. injection Hin' as ->. by apply start_finite.
  - intros q Hq. pose proof (patches_updates _ _ _ _ _ _ Hv Hq) as Hq'. destruct (patch_times _ _ _ _ _ _ Hv Ho Hnd eq_refl Hq) as [_ Hp].
    rewrite (urban_keys v Sh) in Hp. apply elem_of_list_fmap in Hp as ([p e] & Ep & He). cbn [fst] in Ep.
    pose proof (table_values w ord now d urban m p e H Ho P R F Sn He q Hq' Ep) as Ht.
    pose proof bounds_checked as C. rewrite forallb_forall in C. specialize (C (p, e) (proj1 (elem_of_list_In _ _) He)). cbn [snd] in C.
    apply andb_true_iff in C as [C1 C2]. destruct (vs_default e).
    + by rewrite Ht.
    + destruct Ht as (x & -> & Lo & Hi). cbn. by apply (bounded_finite (vs_min e) (vs_max e)).
    + by destruct Ht as [y ->].
Qed.
Lemma urban_spans w ord now d v m : Permutation (ord vss_sensors) vss_sensors -> orders_ok w ->
  init_vehicle ord now urban d = Ok v -> experiment w ord now d urban = Ok m -> exists hi, 299800 <= hi <= 299900 ∧ spans m 0 hi.
Proof.
  intros P Ho E H. destruct (urban_vehicle _ _ _ _ P E) as (Sh & Hs & G). destruct (separate_apart v Hs) as [Hnd _].
  assert (Hv : simulate w v None simulation_sec simulation_step = Ok m). { unfold experiment in H. rewrite E in H. exact H. }
  destruct charge_times as [T1 T2]. pose proof (G _ soc_listed) as Hc. cbn [soc_entry fst] in Hc. fold soc_entry in Hc.
  destruct (charge_patched w v now d m 0 0 Hv Ho Hnd Hc) as (q0 & Q0 & _ & Z0); [by left|done|].
  destruct (charge_patched w v now d m 1499 299800 Hv Ho Hnd Hc) as (q1 & Q1 & _ & Z1); [by right; left|done|].
  assert (HB : forall q, q ∈ m_tpatches m -> 0 <= sp_ts q <= 299900).
  { intros q Hq. destruct (patch_times _ _ _ _ _ _ Hv Ho Hnd eq_refl Hq) as [[Hb [k Hk]] _]. unfold simulation_sec, simulation_step in *. lia. }
  assert (HK : forall q, q ∈ m_tpatches m -> sp_ts q <> 299900 -> sp_ts q <= 299800).
  { intros q Hq Hn. pose proof (HB q Hq). destruct (patch_times _ _ _ _ _ _ Hv Ho Hnd eq_refl Hq) as [[Hb [k Hk]] _]. unfold simulation_sec, simulation_step in *. lia. }
  clear -Q0 Z0 Q1 Z1 HB HK.
  assert (A : exists q, q ∈ m_tpatches m ∧ sp_ts q = 0) by (exists q0; exact (conj Q0 Z0)).
  destruct (decide (Exists (fun q => sp_ts q = 299900) (m_tpatches m))) as [HE|HN].
  - exists 299900. split; [lia|]. split; [exact A|]. split; [exact (proj1 (Exists_exists _ _) HE)|exact HB].
  - exists 299800. split; [lia|]. split; [exact A|]. split; [exists q1; exact (conj Q1 Z1)|]. intros q Hq. split; [apply HB, Hq|].
    apply (HK q Hq). intros E9. apply HN, Exists_exists. exists q. exact (conj Hq E9).
Qed.
Lemma urban_correct w ord now d v m0 m file file' b h : experiment w ord now d urban = Ok m -> orders_ok w -> Permutation (ord vss_sensors) vss_sensors ->
  random_ok w -> fair d -> sine (w_sin w) -> init_vehicle ord now urban d = Ok v -> start w v None = Ok m0 -> decoded (WObj (m_json m0)) file -> decoded (WObj (m_json m0)) file' -> lab_ok b ->
  exists hi a, 299800 <= hi <= 299900 ∧ temporal_experiment b file file' (map loaded (m_tpatches m)) h = Ok a ∧ correct v m (lb_now b) 0 hi a.
Proof.
  intros H Ho P R F Sn E H0 HD HD' B. destruct (urban_vehicle _ _ _ _ P E) as (Sh & Hs & G).
  assert (Hv : simulate w v None simulation_sec simulation_step = Ok m). { unfold experiment in H. rewrite E in H. exact H. }
  destruct (urban_spans _ _ _ _ _ _ P Ho E H) as (hi & Hhi & Hsp).
  destruct (experiment_correct w v simulation_sec simulation_step m m0 file file' b h 0 hi Hv H0 Ho Hs eq_refl (urban_plain v Sh)
    (urban_writable _ _ _ _ _ _ P Ho R F Sn E H) HD HD' B) as (a & Ea & Ca).
  - intros p Hp. rewrite (urban_keys v Sh). pose proof tracked_check as C. rewrite forallb_forall in C.
    specialize (C p (proj1 (elem_of_list_In _ _) Hp)). by apply bool_decide_eq_true in C.
  - done.
  - unfold search_gap. lia.
  - lia.
  - by exists hi, a.
Qed.
