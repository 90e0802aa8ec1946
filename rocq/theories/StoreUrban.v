(** The program on the directory of an urban run. *)
From Verif Require Import Base BaseSpec BaseLemmas F64 Tson Bytes Heap Patch Tjson TjsonSpec Vss VssSpec Sensor Scenario Sim SimSpec SimTrace SimLemmas SimTimes SimDocs SimInit SimPlace SimExp SimStart SimTable SimNumber
  JsonSpec RangeSpec Json Temporal TemporalSpec TempRun TempUrban Report Store StoreSpec StoreFiles StoreRead.

Local Notation urban := "urban_traffic".
Definition ascii_only : string -> bool := fix go s := match s with "" => true | String a s' => (N_of_ascii a <? 128)%N && go s' end.
Definition prim_check (p : prim) : bool := match p with PStr s => ascii_only s | PNum f => f64_valid f && f64_finite f | PBool _ => true end.
Lemma table_texts : forallb (fun sc => forallb (fun e => ascii_only (fst e) && prim_check (vs_default (snd e)) && prim_check (s_value (base_sensor sc e))) vss_sensors) program_scenarios = true.
Proof. vm_compute. reflexivity. Qed.
Lemma table_text sc e : sc ∈ program_scenarios -> e ∈ vss_sensors -> ascii_only (fst e) = true ∧ prim_check (vs_default (snd e)) = true ∧ prim_check (s_value (base_sensor sc e)) = true.
Proof.
  intros Hs He. pose proof table_texts as C. rewrite forallb_forall in C. specialize (C sc (proj1 (elem_of_list_In _ _) Hs)).
  rewrite forallb_forall in C. specialize (C e (proj1 (elem_of_list_In _ _) He)). apply andb_true_iff in C as [C C3]. apply andb_true_iff in C as [C1 C2]. auto.
Qed.
Lemma prim_checked T num p : reads_back T num -> prim_check p = true -> prim_kept T num p.
Proof. intros [H _]. destruct p as [s|f|b]; cbn; [apply ascii_utf8| |done]. intros [H1 H2]%andb_true_iff. apply H. by split. Qed.
Lemma start_check sc now d e : sc ∈ program_scenarios -> e ∈ vss_sensors -> fair d -> valid_value (s_value (start_sensor sc now d e)) ∧
  (forall T num, reads_back T num -> prim_kept T num (s_value (start_sensor sc now d e))).
Proof.
  intros Hs He F. destruct (start_kind sc now d e Hs He) as [_ ->]. destruct (drawn_start sc (fst e)) eqn:D.
  - destruct (start_prim_number sc d e F D) as (x & -> & Hx). split; [apply Hx|]. intros T num [H _]. by apply H.
  - rewrite start_prim_fixed by done. destruct (table_text sc e Hs He) as (_ & _ & C). split; [|intros T num H; exact (prim_checked T num _ H C)].
    destruct (s_value (base_sensor sc e)); try done. cbn [prim_check valid_value] in *. by apply andb_true_iff in C as [C _].
Qed.
Lemma update_times w v sec inc m q : simulate w v None sec inc = Ok m -> orders_ok w -> NoDup (akeys (sensors v)) -> 0 < inc ->
  q ∈ m_spatches m -> time_step (sec * 1000) inc (sp_ts q) ∧ sp_path q ∈ akeys (sensors v).
Proof.
  intros (m0 & H0 & H)%simulate_inv [Ho _] Hnd Hi Hq. apply start_zero in H0 as (V & Sc & _ & _ & _ & S & _).
  apply run_times_solo in H as (uss & A & F & _); [|done|done|by rewrite V]. destruct A. rewrite af_sp, S in Hq. cbn [app] in Hq.
  apply elem_of_list_fmap in Hq as (u & -> & Hu). apply elem_of_list_In in Hu.
  apply in_concat in Hu as (us & Hus & Hu). apply elem_of_list_In, elem_of_list_lookup in Hus as [i Hus].
  destruct (Forall2_lookup_r _ _ _ _ _ F Hus) as (t & Ht & HF). rewrite List.Forall_forall in HF. destruct (HF u Hu) as [Hu1 Hu2].
  rewrite V in Hu2. cbn [set_of sp_ts sp_path]. split; [|done]. apply (loop_times_spec _ _ _ Hi). rewrite Hu1. by apply elem_of_list_lookup_2 in Ht.
Qed.
Lemma start_stamp sc now d e : sc ∈ program_scenarios -> e ∈ vss_sensors -> s_stamp (start_sensor sc now d e) = now (fst e).
Proof. intros Hs He. unfold program_scenarios in Hs. unfold vss_sensors in He. each_in Hs. all: each_in He. all: vm_compute; reflexivity. Qed.
Lemma scenario_vehicle sc ord now d v : sc <> "mixed_scenario" -> Permutation (ord vss_sensors) vss_sensors -> init_vehicle ord now sc d = Ok v ->
  Permutation (shape (concat v)) table_shape ∧ separate v ∧ (forall e, e ∈ vss_sensors -> (fst e, start_sensor sc now d e) ∈ sensors v).
Proof.
  intros Hsc P E. destruct (init_vehicle_spec ord now sc d P) as (v' & E' & _ & _ & Sh & _ & G). rewrite E in E'. injection E' as <-.
  split; [done|]. split; [by apply shape_separate|]. intros e He. apply (start_listed sc now d e v He). intros e' He'. rewrite (G e' He'). unfold start_sensor. rewrite decide_False; [done|tauto].
Qed.
Lemma scenario_survives T num w ord now d sc v m : sc ∈ program_scenarios -> sc <> "mixed_scenario" ->
  reads_back T num -> (forall p, int64 (now p)) -> Permutation (ord vss_sensors) vss_sensors -> orders_ok w -> random_ok w -> fair d -> sine (w_sin w) ->
  init_vehicle ord now sc d = Ok v -> experiment w ord now d sc = Ok m -> simulate w v None simulation_sec simulation_step = Ok m ∧ run_survives T num v m.
Proof.
  intros Hsc Hmix RB Hnow P Ho R F Sn E H. destruct (scenario_vehicle _ _ _ _ _ Hmix P E) as (Sh & Hs & G). destruct (separate_apart v Hs) as [Hnd _].
  assert (Hv : simulate w v None simulation_sec simulation_step = Ok m). { unfold experiment in H. rewrite E in H. cbn [rbind] in H. by rewrite decide_False in H. }
  split; [done|]. split.
  - intros p s Hin. assert (Hp : p ∈ akeys vss_sensors). { rewrite <- (urban_keys v Sh). apply elem_of_list_fmap. by exists (p, s). }
    apply elem_of_list_fmap in Hp as (e & -> & He). pose proof (G e He) as Hin'.
    apply (alookup_in _ _ _ Hnd) in Hin. apply (alookup_in _ _ _ Hnd) in Hin'. rewrite Hin in Hin'. injection Hin' as ->.
    destruct (table_text sc e Hsc He) as (C1 & _ & _).
    split; [by apply ascii_utf8|]. split; [by apply (start_check sc now d e Hsc He F)|]. apply RB.
    rewrite start_stamp by done. apply Hnow.
  - intros q Hq. assert (HT : time_step (simulation_sec * 1000) simulation_step (sp_ts q) ∧ sp_path q ∈ akeys (sensors v)) by (by apply (update_times w v simulation_sec simulation_step m q Hv Ho Hnd eq_refl)).
    destruct HT as [[Ht _] Hp]. rewrite (urban_keys v Sh) in Hp. apply elem_of_list_fmap in Hp as ([p e] & Ep & He). cbn [fst] in Ep.
    destruct (table_text sc (p, e) Hsc He) as (C1 & C2 & _). cbn [fst snd] in C1, C2.
    split; [rewrite Ep; by apply ascii_utf8|]. assert (I : int64 (sp_ts q)) by (unfold int64, simulation_sec in *; lia).
    split; [|split; [by apply RB|done]].
    pose proof (table_values w ord now d sc m p e H Ho P R F Sn He q Hq Ep) as Ht'.
    destruct (vs_default e) as [x|x|x] eqn:Ed.
    + rewrite Ht'. by apply prim_checked.
    + destruct Ht' as (y & Ey & Lo & Hi). rewrite Ey. apply RB. split.
      * assert (Ty : vs_type e = "number").
        { pose proof table_types as TT. rewrite forallb_forall in TT. specialize (TT (p, e) (proj1 (elem_of_list_In _ _) He)). cbn [snd] in TT. rewrite Ed in TT.
          apply andb_true_iff in TT as [TT _]. by apply bool_decide_eq_true in TT. }
        destruct (start_table_range sc now d (p, e) He Ty F) as (a & b & Rg & _ & _).
        pose proof (values_valid w v simulation_sec simulation_step m p _ a b Hv Ho Hnd eq_refl eq_refl R Sn (G (p, e) He) Rg (proj1 (start_check sc now d (p, e) Hsc He F)) q Hq Ep) as V.
        by rewrite Ey in V.
      * pose proof bounds_checked as B. rewrite forallb_forall in B. specialize (B (p, e) (proj1 (elem_of_list_In _ _) He)). cbn [snd] in B.
        apply andb_true_iff in B as [B1 B2]. by apply (bounded_finite (vs_min e) (vs_max e)).
    + by destruct Ht' as [y ->].
Qed.
Lemma urban_program b num order entries content h c w ord now d v m0 m fs : experiment w ord now d urban = Ok m -> orders_ok w -> Permutation (ord vss_sensors) vss_sensors ->
  random_ok w -> fair d -> sine (w_sin w) -> init_vehicle ord now urban d = Ok v -> start w v None = Ok m0 -> lab_ok b ->
  reads_back (lb_text b) num -> (forall p, int64 (now p)) -> reorders order -> clock_ok c -> newest entries c -> content (run_dir c) = saved_files num m0 m fs ->
  exists hi a, 299800 <= hi <= 299900 ∧ temporal_program b order entries content h = Ok (Some a) ∧ correct v m (lb_now b) 0 hi a.
Proof.
  intros H Ho P R F Sn E H0 B RB Hnow Hr Hc Hn Ec.
  destruct (scenario_survives (lb_text b) num w ord now d urban v m urban_listed ltac:(done) RB Hnow P Ho R F Sn E H) as [Hv Hs].
  destruct (program_runs b num order entries content h c w v simulation_sec simulation_step m0 m fs Hv H0 Ho Hs Hr Hc Hn Ec) as (file & file' & D1 & D2 & EP).
  destruct (urban_correct w ord now d v m0 m file file' b h H Ho P R F Sn E H0 D1 D2 B) as (hi & a & Hhi & Ea & Ha).
  exists hi, a. split; [done|]. split; [|done]. by rewrite EP, Ea.
Qed.
