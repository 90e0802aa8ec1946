(** The tables of the experiments: [csv.Writer] with its defaults, the verbs %.1f, %.2f and %.4f, and the
    records written by exp/exp_scenario.go, exp/sensor_data_save.go and exp/utils_temporal.go. *)
From Verif Require Import Base F64 Tson Serial Bytes Vss Sensor Scenario Sim Report.

(** ** [encoding/csv] *)
Definition lf : ascii := "010"%char.
Definition cr : ascii := "013"%char.
Definition dquote : ascii := "034"%char.
Definition comma : ascii := ","%char.
Definition csv_special (a : ascii) : bool := bool_decide (a = lf ∨ a = cr ∨ a = dquote ∨ a = comma).
Fixpoint has_special (s : string) : bool :=
  match s with "" => false | String a s' => csv_special a || has_special s' end.
(** [unicode.IsSpace] of the first rune. *)
Definition space_rune (r : N) : bool :=
  bool_decide (r ∈ [9; 10; 11; 12; 13; 32; 133; 160; 5760; 8232; 8233; 8239; 8287; 12288]%N) || ((8192 <=? r) && (r <=? 8202))%N.
Definition starts_space (s : string) : bool :=
  match s with
  | "" => false
  | String a s1 =>
      if (bv a <? 128)%N then space_rune (bv a)
      else match s1 with
           | "" => false
           | String b s2 =>
               if utf8_2 a b then space_rune (rune_2 a b)
               else match s2 with
                    | "" => false
                    | String c _ => utf8_3 a b c && space_rune (rune_3 a b c)
                    end
           end
  end.
(** [fieldNeedsQuotes] of [csv.Writer]. *)
Definition needs_quotes (f : string) : bool :=
  match f with
  | "" => false
  | _ => bool_decide (f = "\.") || has_special f || starts_space f
  end.
Fixpoint double_quotes (s : string) : string :=
  match s with
  | "" => ""
  | String a s' => if decide (a = dquote) then String dquote (String dquote (double_quotes s')) else String a (double_quotes s')
  end.
Definition csv_field (f : string) : string :=
  if needs_quotes f then String dquote (double_quotes f) +++ String dquote "" else f.
(** [Write] of one record, and of several with [Flush] at the end. *)
Definition csv_record (r : list string) : string := String.concat (String comma "") (map csv_field r) +++ String lf "".
Fixpoint csv_text (rs : list (list string)) : string :=
  match rs with [] => "" | r :: rs' => csv_record r +++ csv_text rs' end.

(** ** Numbers *)
(** The nearest integer to [p / q], the even one of two. *)
Definition round_half_even (p q : Z) : Z :=
  let n := p / q in let r := 2 * (p `mod` q) in
  if r <? q then n else if q <? r then n + 1 else if Z.even n then n else n + 1.
(** [k] decimal digits of [r]. *)
Fixpoint frac_text (k : nat) (r : Z) : string :=
  match k with
  | O => ""
  | S k' => String (digit_char (Z.to_N ((r / 10 ^ Z.of_nat k') `mod` 10))) (frac_text k' r)
  end.
(** [fmt.Sprintf("%.df", x)] with [d] > 0: the exact value rounded to [d] decimals, the even one of two equally
    near ([strconv.FormatFloat] works on the exact decimal). *)
Definition fixed_text (d : nat) (x : f64) : string :=
  match x with
  | S754_nan => "NaN"
  | S754_infinity s => if s then "-Inf" else "+Inf"
  | S754_zero s => (if s then "-" else "") +++ "0." +++ frac_text d 0
  | S754_finite s m e =>
      let u := 10 ^ Z.of_nat d in
      let n := if 0 <=? e then Z.pos m * 2 ^ e * u else round_half_even (Z.pos m * u) (2 ^ (- e)) in
      (if s then "-" else "") +++ dec_text (Z.to_N (n / u)) +++ "." +++ frac_text d (n `mod` u)
  end.
Definition bool_text (b : bool) : string := if b then "true" else "false".

(** ** The tables of a simulation *)
(** cumulative.csv (exp/exp_scenario.go 153-168, 258-268). *)
Definition nat_text_z (n : nat) : string := z_text (Z.of_nat n).
Definition cumulative_csv (m : run_state) : res string :=
  do rows <- cumulative_rows m;
  Ok (csv_text (["TimeMs"; "JsonPatchCount"; "TsonPatchCount"]
                :: map (fun '(t, j, c) => [z_text t; nat_text_z j; nat_text_z c]) rows)).
(** results.csv (exp/exp_scenario.go 120-151, 237-258); [stamp] is the time of the run in Unix seconds and
    [jns], [tns] are the measured times, all of them arbitrary. *)
Definition results_header : list string := [
  "Timestamp"; "SimulationTimeMs"; "TotalUpdates"; "ValueChanges"; "TimestampOnlyChanges"; "JsonPatchCount"; "TsonPatchCount";
  "SetTsonPatchCount"; "JsonPatchSize"; "TsonPatchSize"; "SetTsonPatchSize"; "JsonProcessingTimeNs"; "TsonProcessingTimeNs";
  "JsonBandwidthUsage"; "TsonBandwidthUsage"; "PatchReduction"].
Definition results_csv (stamp jns tns sec : Z) (r : report) : string :=
  csv_text [results_header; [
    z_text stamp; z_text (sec * 1000); z_text (rp_updates r); z_text (rp_changes r); z_text (rp_stamps r);
    z_text (rp_jcount r); z_text (rp_tcount r); z_text (rp_scount r); z_text (rp_jsize r); z_text (rp_tsize r); z_text (rp_ssize r);
    z_text jns; z_text tns; fixed_text 2 (rp_jband r); fixed_text 2 (rp_tband r); fixed_text 2 (rp_reduction r)]].
(** timing.csv (exp/exp_scenario.go 170-198, 527-561); [ns] has the measured times of each update and [current]
    the name of the scenario at it, in the mixed scenario only. *)
Definition timing_pct (j t : Z) : f64 :=
  if 0 <? j then f64_mul (f64_sub (f64_of_Z 1) (f64_div (f64_of_Z t) (f64_of_Z j))) (f64_of_Z 100) else f64_of_Z 0.
Definition timing_row (ns : Z -> Z * Z) (current : option (Z -> string)) (r : timing) : list string :=
  let '(j, t) := ns (tm_index r) in
  [z_text (tm_index r); z_text (tm_time r); tm_path r; z_text j; z_text t; bool_text (tm_changed r); fixed_text 2 (timing_pct j t)]
  ++ match current with Some name => [name (tm_index r)] | None => [] end.
Definition timing_csv (ns : Z -> Z * Z) (current : option (Z -> string)) (m : run_state) : string :=
  csv_text (([ "UpdateIndex"; "TimeMs"; "SensorPath"; "JsonProcessingTimeNs"; "TsonProcessingTimeNs"; "ValueChanged"; "ProcessingTimeDiffPct"]
             ++ match current with Some _ => ["CurrentScenario"] | None => [] end)
            :: map (timing_row ns current) (m_timing m)).
(** transitions.csv (exp/exp_scenario.go 270-300): only for a mixed scenario with transitions. *)
Definition transitions_csv (mixed : bool) (m : run_state) : option string :=
  match m_transitions m with
  | [] => None
  | l =>
      if mixed then
        Some (csv_text (["Timestamp"; "FromScenario"; "ToScenario"; "BatteryLevel"; "TransitionCount"]
                        :: map (fun r => [z_text (tr_time r); tr_from r; tr_to r; fixed_text 2 (tr_level r); z_text (tr_count r)]) l))
      else None
  end.
(** The file of a key sensor (exp/sensor_data_save.go 46-65, 103-128, 133-145); [clock] has the measured times.  The
    file is called by the whole path, which has no slash, and ".csv". *)
Definition value_text (v : prim) : string :=
  match v with PNum x => fixed_text 4 x | PBool b => bool_text b | PStr s => s end.
Definition sensor_csv (clock : Z -> Z) (p : string) (m : run_state) : string :=
  csv_text (["TimestampMs"; "SimulationTimeMs"; "Value"]
            :: map (fun r => [z_text (clock (rw_time r)); z_text (rw_time r); value_text (rw_value r)])
                 (List.filter (fun r => bool_decide (rw_path r = p)) (m_rows m))).

(** ** The table of the temporal experiment *)
(** [TemporalQueryResult] without the file names (exp/utils_temporal.go 30-42), and [SaveResults]
    (exp/utils_temporal.go 294-349). *)
Record query_result : Type := QueryResult {
  q_scenario : string; q_type : string; q_param : string; q_ltime : Z; q_ttime : Z; q_lsize : Z; q_tsize : Z }.
Definition diff_pct (l t : Z) : f64 :=
  if 0 <? t then f64_mul (f64_div (f64_of_Z (l - t)) (f64_of_Z t)) (f64_of_Z 100) else f64_of_Z 0.
Definition query_row (q : query_result) : list string := [
  q_scenario q; q_type q; q_param q; z_text (q_ltime q); z_text (q_ttime q); fixed_text 2 (diff_pct (q_ltime q) (q_ttime q));
  z_text (q_lsize q); z_text (q_tsize q); fixed_text 2 (diff_pct (q_lsize q) (q_tsize q))].
Definition query_csv (qs : list query_result) : string :=
  csv_text ([ "Scenario"; "QueryType"; "Parameter"; "LogumentTimeNs"; "TJSONTimeNs"; "TimeDiffPct"; "LogumentResultSize"; "TJSONResultSize"; "SizeDiffPct"]
            :: map query_row qs).
