(** In every urban run the charge of the battery is patched at time 0. *)
From Verif Require Import Base BaseSpec BaseLemmas F64 GoText Tson TsonSpec Bytes Heap Patch PatchSpec LogSpec ReplaySpec TjsonSpec TjsonLemmas Tjson Initial
  InitialSpec Query QuerySpec Vss VssSpec Sensor Scenario Sim SimSpec SimTrace SimLemmas SimTimes SimDocs SimFinal SimInit SimPlace SimExp SimRows SimTrans SimQuiet SimStart SimLine
  RangeSpec SimTable Temporal TemporalSpec TempLog TempTrack TempRun TempUrban TempZero.

Local Notation urban := "urban_traffic".
Lemma log_of_run T w v sc sec inc m m0 file h qs : simulate w v sc sec inc = Ok m -> start w v sc = Ok m0 -> orders_ok w -> separate v -> 0 < inc ->
  plain_paths v -> writable v m -> decoded (WObj (m_json m0)) file -> Forall (fun q => oracle_ok (fst q)) qs -> StronglySorted Z.le (map snd qs) ->
  exists h' L st ds, create_logument T file (map loaded (m_tpatches m)) h = (h', Ok L) ∧ snapshot_run qs (h', L) = (st, Ok ds) ∧
    Forall2 (fun q => answer_ok v m (snd q)) qs ds.
Proof.
  intros H H0 Ho Hs Hi HP HW HD HO HS. destruct (run_files w v sc sec inc m m0 file H H0 Ho Hs Hi HP HW HD) as [jm HF].
  by apply (log_answers T v m file jm).
Qed.
Lemma zero_of_run w v sec inc m m0 file b p s l q0 : simulate w v None sec inc = Ok m -> start w v None = Ok m0 -> orders_ok w -> separate v -> 1 < inc ->
  plain_paths v -> writable v m -> decoded (WObj (m_json m0)) file -> lab_ok b -> sec * 1000 < 2 ^ 63 -> 1 <= lb_now b < 2 ^ 63 ->
  (p, s) ∈ sensors v -> dotted p l -> (2 <= length l)%nat -> q0 ∈ m_tpatches m -> sp_path q0 = p -> sp_ts q0 = 0 ->
  exists t u x z, 0 <= t <= 1 ∧ known m t p (s_value s) x z ∧
    below l (JObj (tj_snapshot (temporal_doc b file (map loaded (m_tpatches m))) t)) = Some u ∧ ~ alike u (json_of_prim x).
Proof.
  intros H H0 Ho Hs Hi HP HW HD B Hsec Hnow Hin Hd Hl Q0 P0 Z0. assert (Hi' : 0 < inc) by lia. destruct (separate_apart v Hs) as [Hnd _].
  destruct (run_files w v None sec inc m m0 file H H0 Ho Hs Hi' HP HW HD) as [jm HF].
  pose proof (run_moving w v sec inc m H Ho Hnd Hi' HW) as HM.
  assert (HT : forall q, q ∈ m_tpatches m -> sp_ts q < 2 ^ 63 ∧ sp_ts q <> 1).
  { intros q Hq. destruct (patch_times _ _ _ _ _ _ H Ho Hnd Hi' Hq) as [[Hb [k Hk]] _]. split; [lia|]. intros E1. rewrite E1 in Hk.
    assert (inc * k = 1) by lia. apply Z.eq_mul_1 in H1. lia. }
  apply (run_zero v m file jm b p s l q0 HF HM B Hin Hd Hl Q0 P0 Z0); [|intros q Hq; by apply HT|done]. intros q Hq _. by apply HT.
Qed.
Definition charge_names : list string := ["Vehicle"; "Powertrain"; "TractionBattery"; "StateOfCharge"; "Current"].
Lemma charge_dotted : dotted soc charge_names.
Proof. apply names_split. vm_compute. reflexivity. Qed.
Lemma urban_zero w ord now d v m0 m file b : experiment w ord now d urban = Ok m -> orders_ok w -> Permutation (ord vss_sensors) vss_sensors ->
  random_ok w -> fair d -> sine (w_sin w) -> init_vehicle ord now urban d = Ok v -> start w v None = Ok m0 -> decoded (WObj (m_json m0)) file -> lab_ok b ->
  1 <= lb_now b < 2 ^ 63 ->
  exists s t u x z, (soc, s) ∈ sensors v ∧ 0 <= t <= 1 ∧ known m t soc (s_value s) x z ∧
    below charge_names (JObj (tj_snapshot (temporal_doc b file (map loaded (m_tpatches m))) t)) = Some u ∧ ~ alike u (json_of_prim x).
Proof.
  intros H Ho P R F Sn E H0 HD B Hnow. destruct (urban_vehicle _ _ _ _ P E) as (Sh & Hs & G). destruct (separate_apart v Hs) as [Hnd _].
  assert (Hv : simulate w v None simulation_sec simulation_step = Ok m). { unfold experiment in H. rewrite E in H. exact H. }
  pose proof (urban_writable _ _ _ _ _ _ P Ho R F Sn E H) as HW.
  destruct charge_times as [T1 _]. pose proof (G _ soc_listed) as Hc. cbn [soc_entry fst] in Hc. fold soc_entry in Hc.
  destruct (charge_patched w v now d m 0 0 Hv Ho Hnd Hc) as (q0 & Q0 & P0 & Z0); [by left|done|].
  destruct (zero_of_run w v _ _ m m0 file b soc _ charge_names q0 Hv H0 Ho Hs eq_refl (urban_plain v Sh) HW HD B eq_refl Hnow Hc charge_dotted ltac:(cbn; lia) Q0 P0 Z0)
    as (t & u & x & z & Ht & Hk & Hb & Hn).
  eexists _, t, u, x, z. exact (conj Hc (conj Ht (conj Hk (conj Hb Hn)))).
Qed.
