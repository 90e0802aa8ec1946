(** The tables of the experiments. *)
From Verif Require Import Base BaseSpec BaseLemmas F64 Tson Serial Bytes Vss VssSpec Sensor Scenario Sim SimSpec SimRows RangeSpec Temporal Report ReportLemmas Csv CsvSpec CsvLemmas TableSpec.
From Verif Require CsvOrder ReportFloat SimFinal SimQuiet SimExp SimLine.

Lemma shows_one d s n n' : shows d s n -> shows d s n' -> n = n'.
Proof. intros [k H|k H] [k' H'|k' H']; destruct (decimal_one _ _ _ _ _ _ H H') as [E1 E2]; congruence. Qed.
Lemma fixed_shows d x : (0 < d)%nat -> f64_finite x = true -> exists n, shows d (fixed_text d x) n.
Proof.
  intros Hd Hx. destruct (fixed_rounded d x Hd Hx) as (n & _ & _ & D & _). destruct (negative x); eexists; by constructor.
Qed.
Lemma fixed_order d x y n n' : (0 < d)%nat -> number x -> number y -> fl_le x y -> shows d (fixed_text d x) n -> shows d (fixed_text d y) n' -> n <= n'.
Proof.
  intros Hd Nx Ny L S S'. destruct (CsvOrder.shown_order d x y _ _ Nx Ny L (fixed_rounded d x Hd (proj2 Nx)) (fixed_rounded d y Hd (proj2 Ny))) as (k & k' & K & K' & Hk).
  by rewrite (shows_one _ _ _ _ S K), (shows_one _ _ _ _ S' K').
Qed.

(** ** The sensor data *)
Lemma value_shown x : shows_value x (value_text x).
Proof. destruct x as [s|f|b]; cbn [shows_value value_text]; [done|intros H; by apply fixed_rounded; [lia|]|done]. Qed.
Lemma filter_same {A} (P : A -> Prop) `{!forall x, Decision (P x)} l : List.filter (fun x => bool_decide (P x)) l = filter P l.
Proof.
  induction l as [|x l IH]; [done|]. cbn [List.filter]. rewrite filter_cons, IH. destruct (decide (P x)).
  - by rewrite bool_decide_eq_true_2.
  - by rewrite bool_decide_eq_false_2.
Qed.
Lemma map_no_nil {A B} (f : A -> list B) l : (forall x, x ∈ l -> f x <> []) -> [] ∉ map f l.
Proof. intros H (x & E & Hx)%elem_of_list_fmap. by apply (H x Hx). Qed.
Lemma sensor_file clock w v sec inc m p s : simulate w v None sec inc = Ok m -> orders_ok w -> NoDup (akeys (sensors v)) -> 0 < inc ->
  (p, s) ∈ sensors v -> p ∈ key_sensors -> exists ts rows,
  reads_as (sensor_csv clock p m) (["TimestampMs"; "SimulationTimeMs"; "Value"] :: rows) ∧
  StronglySorted Z.lt ts ∧ (forall t, t ∈ ts <-> time_step (sec * 1000) inc t) ∧
  Forall2 (sensor_line clock (m_tpatches m) p (s_value s) (s_stamp s)) ts rows.
Proof.
  intros H Ho Hn Hi Hin Hk. destruct (rows _ _ _ _ _ _ _ H Ho Hn Hi Hin Hk) as (R1 & R2 & R3).
  set (l := filter (fun r => rw_path r = p) (m_rows m)) in *.
  exists (map rw_time l), (map (fun r => [z_text (clock (rw_time r)); z_text (rw_time r); value_text (rw_value r)]) l).
  split; [|split; [done|split]].
  - unfold sensor_csv. rewrite filter_same. fold l. apply text_reads. apply not_elem_of_cons. split; [done|]. by apply map_no_nil.
  - intros t. rewrite <- R2. split.
    + intros (r & -> & Hr)%elem_of_list_fmap. apply elem_of_list_filter in Hr as [<- Hr]. exists (rw_value r). by destruct r.
    + intros [x Hx]. apply elem_of_list_fmap. exists (Row p t x). split; [done|]. apply elem_of_list_filter. done.
  - assert (G : forall r, r ∈ l -> exists z, latest (filter (fun q => sp_ts q < rw_time r) (m_tpatches m)) p (s_value s) (s_stamp s) (rw_value r) z).
    { intros [p' t x] Hr. apply elem_of_list_filter in Hr as [Hp Hr]. cbn in Hp. subst p'. by apply R3. }
    clearbody l. clear R1 R2 R3. induction l as [|r l IH]; [constructor|]. cbn [map]. apply List.Forall2_cons.
    + destruct (G r ltac:(constructor)) as [z Hz]. do 5 eexists. split; [done|]. split; [apply z_integer|]. split; [apply z_integer|].
      split; [apply value_shown|exact Hz].
    + apply IH. intros r' Hr'. apply G. by constructor.
Qed.

(** ** The updates and the counts *)
Lemma percent_near z a t s : 0 < t -> number z -> (Rdefinitions.Rle (Rbasic_fun.Rabs (Rdefinitions.Rminus (FloatOrder.real z)
    (Rdefinitions.Rmult (Rdefinitions.IZR 100) (Rdefinitions.Rdiv (Rdefinitions.IZR a) (Rdefinitions.IZR t))))) (Rdefinitions.Rinv (Rdefinitions.IZR 1000))) ->
  s = fixed_text 2 z -> percent s a t.
Proof.
  intros Ht N H ->. destruct (CsvOrder.pct_shown a t z (fixed_text 2 z) Ht H) as (n & S & B); [apply fixed_rounded; [lia|apply N]|].
  exists n. done.
Qed.
Lemma zero_shown : shows 2 (fixed_text 2 (f64_of_Z 0)) 0.
Proof. constructor. change 0 with (Z.of_N 0 * 10 ^ Z.of_nat 2 + Z.of_N 0). apply (dc_plain 2 "0" "00"); [|apply (dg_more "0" 0 "0" 0)|done]; repeat constructor. Qed.
Lemma timing_shown j t : (0 < j < 2 ^ 31 -> 0 <= t < 2 ^ 31 -> percent (fixed_text 2 (timing_pct j t)) (j - t) j) ∧ (j <= 0 -> shows 2 (fixed_text 2 (timing_pct j t)) 0).
Proof.
  unfold timing_pct. split.
  - intros Hj Ht. rewrite (proj2 (Z.ltb_lt 0 j)) by lia. destruct (CsvOrder.timing_near t j Ht Hj) as [N B]. eapply percent_near; [lia|exact N|exact B|done].
  - intros Hj. rewrite (proj2 (Z.ltb_ge 0 j)) by lia. apply zero_shown.
Qed.
Lemma diff_shown l t : compared (fixed_text 2 (diff_pct l t)) l t.
Proof.
  unfold diff_pct. split.
  - intros Ht Hl. rewrite (proj2 (Z.ltb_lt 0 t)) by lia. destruct (CsvOrder.pct_near (l - t) t ltac:(lia) Ht) as [N B]. eapply percent_near; [lia|exact N|exact B|done].
  - intros Ht. rewrite (proj2 (Z.ltb_ge 0 t)) by lia. apply zero_shown.
Qed.
Lemma selects_length cs ps qs : selects cs ps qs -> length cs = length ps.
Proof. induction 1; cbn; congruence. Qed.
Lemma timing_file ns cur w v sc sec inc m : simulate w v sc sec inc = Ok m -> exists cs h rows,
  selects cs (m_spatches m) (m_tpatches m) ∧ reads_as (timing_csv ns cur m) (h :: rows) ∧ rectangular (h :: rows) ∧ length rows = length (m_spatches m) ∧
  forall i q c, m_spatches m !! i = Some q -> cs !! i = Some c -> exists r, rows !! i = Some r ∧
    let k := Z.of_nat i + 1 in timing_line k (fst (ns k)) (snd (ns k)) q c (match cur with Some name => [name k] | None => [] end) r.
Proof.
  intros H. destruct (SimLemmas.outputs _ _ _ _ _ _ H) as (cs & S1 & S2 & S3).
  set (h := ["UpdateIndex"; "TimeMs"; "SensorPath"; "JsonProcessingTimeNs"; "TsonProcessingTimeNs"; "ValueChanged"; "ProcessingTimeDiffPct"]
      ++ match cur with Some _ => ["CurrentScenario"] | None => [] end).
  exists cs, h, (map (timing_row ns cur) (m_timing m)). split; [done|]. split; [|split; [|split]].
  - apply text_reads. apply not_elem_of_cons. split; [by destruct cur|]. apply map_no_nil. intros r _. unfold timing_row. by destruct (ns (tm_index r)).
  - assert (L : forall r, r ∈ h :: map (timing_row ns cur) (m_timing m) -> length r = match cur with Some _ => 8%nat | None => 7%nat end).
    { intros r [->|(q & -> & _)%elem_of_list_fmap]%elem_of_cons; [by subst h; destruct cur|]. unfold timing_row. destruct (ns (tm_index q)), cur; done. }
    intros r r' Hr Hr'. by rewrite (L r Hr), (L r' Hr').
  - rewrite map_length. pose proof (selects_length _ _ _ S1) as L. apply Nat.le_antisymm.
    + apply Nat.nlt_ge. intros Hlt. apply lookup_lt_is_Some_2 in Hlt as [r Hr]. rewrite S3 in Hr. by rewrite (proj2 (lookup_ge_None (m_spatches m) _)) in Hr by lia.
    + apply Nat.nlt_ge. intros Hlt. pose proof (S3 (length (m_timing m))) as E. rewrite (proj2 (lookup_ge_None (m_timing m) _)) in E by lia.
      destruct (lookup_lt_is_Some_2 _ _ Hlt) as [q Hq]. destruct (lookup_lt_is_Some_2 cs (length (m_timing m))) as [c Hc]; [lia|]. by rewrite Hq, Hc in E.
  - intros i q c Hq Hc. eexists. split; [rewrite list_lookup_fmap, S3, Hq, Hc; reflexivity|]. cbn zeta. unfold timing_row. cbn [tm_index tm_time tm_path tm_changed].
    destruct (ns (Z.of_nat i + 1)) as [j t] eqn:E. cbn [fst snd]. destruct (timing_shown j t) as [T1 T2]. do 6 eexists.
    split; [reflexivity|]. do 4 (split; [apply z_integer|]). split; [done|]. split; [exact T1|exact T2].
Qed.
Lemma cumulative_file w v sc sec inc m : simulate w v sc sec inc = Ok m -> orders_ok w -> NoDup (akeys (sensors v)) -> 0 < inc ->
  exists s rows, cumulative_csv m = Ok s ∧ reads_as s (["TimeMs"; "JsonPatchCount"; "TsonPatchCount"] :: rows) ∧ length rows = length (m_times m) ∧
  forall i t j c, m_times m !! i = Some t -> m_jcounts m !! i = Some j -> m_tcounts m !! i = Some c ->
    exists r, rows !! i = Some r ∧ integers [t; Z.of_nat j; Z.of_nat c] r.
Proof.
  intros H Ho Hn Hi. destruct (row_list _ _ _ _ _ _ H Ho Hn Hi) as (l & E & T & J & C). unfold cumulative_csv. rewrite E. cbn [rbind].
  eexists _, _. split; [reflexivity|]. split; [apply text_reads; apply not_elem_of_cons; split; [done|]; apply map_no_nil; by intros [[t j] c]|].
  split; [by rewrite <- T, !map_length|]. intros i t j c. rewrite <- T, <- J, <- C, !list_lookup_fmap. destruct (l !! i) as [[[t' j'] c']|]; [|done].
  cbn. intros [= ->] [= ->] [= ->]. eexists. split; [reflexivity|]. repeat (apply List.Forall2_cons; [apply z_integer|]). apply List.Forall2_nil.
Qed.

(** ** The results *)
Lemma results_file num stamp jns tns w v sc sec inc m : simulate w v sc sec inc = Ok m -> (forall q, q ∈ m_spatches m -> finite (sp_value q) = true) ->
  0 < sec < 2 ^ 31 -> 0 < m_updates m ->
  let f := report_of num sec m in exists h r, reads_as (results_csv stamp jns tns sec f) [h; r] ∧ length h = length r ∧ results_line stamp jns tns sec f r.
Proof.
  intros H Hf Hs Hu f. destruct (report_counts num _ _ _ _ _ _ H) as (C1 & C2 & C3 & C4 & C5 & C6). destruct (report_sizes num _ _ _ _ _ _ H Hf) as (S0 & S1 & S2).
  fold f in C1, C2, C3, C4, C5, C6, S0, S1, S2. change (m_updates m) with (rp_updates f) in Hu.
  exists results_header. eexists. split; [apply text_reads; intros [?|[?|?%elem_of_nil]%elem_of_cons]%elem_of_cons; done|]. split; [done|].
  exists (map z_text [stamp; sec * 1000; rp_updates f; rp_changes f; rp_stamps f; rp_jcount f; rp_tcount f; rp_scount f; rp_jsize f; rp_tsize f; rp_ssize f; jns; tns]).
  exists (fixed_text 2 (rp_jband f)), (fixed_text 2 (rp_tband f)), (fixed_text 2 (rp_reduction f)). split; [done|]. split.
  { rewrite (Z.mul_comm 1000 sec). repeat (apply List.Forall2_cons; [apply z_integer|]). apply List.Forall2_nil. }
  assert (K : forall n, 0 <= n < 2 ^ 31 -> kilobytes (fixed_text 2 (bandwidth sec n)) n sec).
  { intros n Hn. destruct (CsvOrder.band_near sec n Hs Hn) as [N B].
    destruct (percent_near (bandwidth sec n) n (102400 * sec) _ ltac:(lia) N B eq_refl) as (k & S & L). exists k. split; [done|]. lia. }
  split.
  - intros Hj. split; [exact (K (rp_jsize f) ltac:(lia))|exact (K (rp_tsize f) ltac:(lia))].
  - intros Hj. assert (P : percent (fixed_text 2 (rp_reduction f)) (rp_jcount f - rp_tcount f) (rp_jcount f)).
    { destruct (CsvOrder.timing_near (rp_tcount f) (rp_jcount f) ltac:(lia) ltac:(lia)) as [N B]. eapply percent_near; [lia|exact N|exact B|done]. }
    split; [done|]. destruct P as (n & S & L). exists n. split; [done|]. nia.
Qed.
Lemma transitions_file mixed m : match transitions_csv mixed m with
  | Some s => mixed = true ∧ m_transitions m ≠ [] ∧ exists rows, reads_as s (["Timestamp"; "FromScenario"; "ToScenario"; "BatteryLevel"; "TransitionCount"] :: rows) ∧
      Forall2 transition_line (m_transitions m) rows
  | None => mixed = false ∨ m_transitions m = []
  end.
Proof.
  unfold transitions_csv. destruct (m_transitions m) as [|a l] eqn:E; [by right|]. destruct mixed; [|by left]. split; [done|]. split; [done|].
  eexists. split; [apply text_reads, not_elem_of_cons; split; [done|]; by apply map_no_nil|].
  apply Forall2_fmap_r, Forall_Forall2_diag, Forall_forall. intros t _. do 3 eexists. split; [reflexivity|]. do 2 (split; [apply z_integer|]).
  intros F. by apply fixed_rounded; [lia|].
Qed.
Lemma query_file qs : exists h rows, reads_as (query_csv qs) (h :: rows) ∧ rectangular (h :: rows) ∧ Forall2 query_line qs rows.
Proof.
  eexists _, _. split; [apply text_reads, not_elem_of_cons; split; [done|]; by apply map_no_nil|]. split.
  - assert (L : forall r, r ∈ [ "Scenario"; "QueryType"; "Parameter"; "LogumentTimeNs"; "TJSONTimeNs"; "TimeDiffPct"; "LogumentResultSize"; "TJSONResultSize"; "SizeDiffPct"] :: map query_row qs -> length r = 9%nat).
    { intros r [->|(q & -> & _)%elem_of_list_fmap]%elem_of_cons; done. }
    intros r r' Hr Hr'. by rewrite (L r Hr), (L r' Hr').
  - apply Forall2_fmap_r, Forall_Forall2_diag, Forall_forall. intros q _. do 6 eexists. split; [reflexivity|]. split.
    { repeat (apply List.Forall2_cons; [apply z_integer|]). apply List.Forall2_nil. }
    split; apply diff_shown.
Qed.
Lemma experiment_files num stamp jns tns mixed w ord now d sc m : experiment w ord now d sc = Ok m -> orders_ok w -> Permutation (ord vss_sensors) vss_sensors ->
  random_ok w -> fair d -> sine (w_sin w) -> let f := report_of num 300 m in
  transitions_csv mixed m = None ∧ exists h l b1 b2 b3, reads_as (results_csv stamp jns tns 300 f) [h; l ++ [b1; b2; b3]] ∧
    results_line stamp jns tns 300 f (l ++ [b1; b2; b3]) ∧ percent b3 34082 (34082 + rp_tcount f) ∧ exists n, shows 2 b3 n ∧ 5000 <= n <= 10000.
Proof.
  intros H Ho P R F Sn f. split. { unfold transitions_csv. by rewrite (proj1 (SimLine.experiment_sensors _ _ _ _ _ _ H Ho P)). }
  destruct (experiment_simulated _ _ _ _ _ _ H) as (v & s & Hv). pose proof (experiment_finite _ _ _ _ _ _ H Ho P R F Sn) as Hf.
  destruct (experiment_report num _ _ _ _ _ _ H Ho P R F Sn) as (U & J & _). change simulation_sec with 300 in *. fold f in U, J.
  destruct (results_file num stamp jns tns _ _ _ _ _ _ Hv Hf ltac:(lia)) as (h & r & A & B & C); [change (m_updates m) with (rp_updates f); lia|]. fold f in A, C.
  pose proof C as (l & b1 & b2 & b3 & -> & C1 & C2 & C3). exists h, l, b1, b2, b3. split; [done|]. split; [done|].
  destruct (report_counts num _ _ _ _ _ _ Hv) as (D1 & D2 & D3 & D4 & D5 & D6). change simulation_sec with 300 in *. fold f in D1, D2, D3, D4, D5, D6.
  destruct C3 as [C3 C4]; [lia|]. split; [|done]. replace (rp_jcount f - rp_tcount f) with 34082 in C3 by lia. by rewrite <- J.
Qed.
Lemma z_written z : integer (z_text z) z ∧ forall z', integer (z_text z) z' -> z' = z.
Proof. split; [apply z_integer|]. intros z' H. exact (integer_one _ _ _ H (z_integer z)). Qed.
