(** What the tables of the experiments should show. *)
From Verif Require Import Base F64 Tson Sim SimSpec Report Csv CsvSpec.

(** The text shows the share [a / t] in percent, with two decimals and an error of less than 0.01. *)
Definition percent (s : string) (a t : Z) : Prop := exists n, shows 2 s n ∧ Z.abs (n * t - 10000 * a) < t.
Definition shows_bool (b : bool) (s : string) : Prop := s = if b then "true" else "false".
(** Numbers have four decimals. *)
Definition shows_value (x : prim) (s : string) : Prop :=
  match x with
  | PNum f => f64_finite f = true -> rounded 4 f s
  | PBool b => shows_bool b s
  | PStr t => s = t
  end.
(** The line of the time [t] in the table of the sensor [p], which begins with [v0]: the value that the TSON patches
    up to then leave.  [clock] has the measured times. *)
Definition sensor_line (clock : Z -> Z) (ps : list spatch) (p : string) (v0 : prim) (z0 t : Z) (r : list string) : Prop :=
  exists c k y x z, r = [c; k; y] ∧ integer c (clock t) ∧ integer k t ∧ shows_value x y ∧ latest (filter (fun q => sp_ts q < t) ps) p v0 z0 x z.
(** The line of the [i]th update, counted from 1; [j] and [t] are the measured times and [c] says whether the
    value changed. *)
Definition timing_line (i j t : Z) (q : spatch) (c : bool) (extra r : list string) : Prop :=
  exists a b d e g y, r = [a; b; sp_path q; d; e; g; y] ++ extra ∧ integer a i ∧ integer b (sp_ts q) ∧ integer d j ∧ integer e t ∧ shows_bool c g ∧
    (0 < j < 2 ^ 31 -> 0 <= t < 2 ^ 31 -> percent y (j - t) j) ∧ (j <= 0 -> shows 2 y 0).
(** A line with integers in it. *)
Definition integers (l : list Z) (r : list string) : Prop := Forall2 (fun z s => integer s z) l r.
(** The line of a query; a size or time of the log is compared with that of the temporal JSON document. *)
Definition compared (y : string) (l t : Z) : Prop :=
  (0 < t < 2 ^ 31 -> 0 <= l < 2 ^ 31 -> percent y (l - t) t) ∧ (t <= 0 -> shows 2 y 0).
Definition query_line (q : query_result) (r : list string) : Prop :=
  exists a b y d e z, r = [q_scenario q; q_type q; q_param q; a; b; y; d; e; z] ∧ integers [q_ltime q; q_ttime q; q_lsize q; q_tsize q] [a; b; d; e] ∧
    compared y (q_ltime q) (q_ttime q) ∧ compared z (q_lsize q) (q_tsize q).
(** The text shows [n] bytes in [s] seconds as kilobytes per second, with an error of less than 0.01. *)
Definition kilobytes (y : string) (n s : Z) : Prop := exists k, shows 2 y k ∧ Z.abs (k * 1024 * s - 100 * n) < 1024 * s.
(** The line of the results of a run of [sec] seconds: its figures, the two bandwidths and the part of the patches saved. *)
Definition results_line (stamp jns tns sec : Z) (f : report) (r : list string) : Prop :=
  exists l b1 b2 b3, r = l ++ [b1; b2; b3] ∧
    integers [stamp; 1000 * sec; rp_updates f; rp_changes f; rp_stamps f; rp_jcount f; rp_tcount f; rp_scount f; rp_jsize f; rp_tsize f; rp_ssize f; jns; tns] l ∧
    (rp_jsize f < 2 ^ 31 -> kilobytes b1 (rp_jsize f) sec ∧ kilobytes b2 (rp_tsize f) sec) ∧
    (rp_jcount f < 2 ^ 31 -> percent b3 (rp_jcount f - rp_tcount f) (rp_jcount f) ∧ exists n, shows 2 b3 n ∧ 5000 <= n <= 10000).
(** The line of a transition of the mixed scenario. *)
Definition transition_line (t : transition) (r : list string) : Prop :=
  exists a y c, r = [a; tr_from t; tr_to t; y; c] ∧ integer a (tr_time t) ∧ integer c (tr_count t) ∧ (f64_finite (tr_level t) = true -> rounded 2 (tr_level t) y).
