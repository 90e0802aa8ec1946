(** What the experiment on the files of a run should answer, stated on the sensors of the run and on
    its patches. *)
From Verif Require Import Base BaseSpec F64 Tson Bytes TsonSpec Heap Patch PatchSpec Logument LogSpec ReplaySpec Tjson TjsonSpec InitialSpec Sensor Sim SimSpec QuerySpec Temporal.

(** The names in the sensors' paths stand for themselves in both kinds of paths, and none is taken for the
    value of a leaf. *)
Definition plain_paths (v : vehicle) : Prop :=
  forall p s l, (p, s) ∈ sensors v -> dotted p l -> Forall (fun k => both_name k ∧ k <> "value") l.
(** The values written to the files are JSON values. *)
Definition writable (v : vehicle) (m : run_state) : Prop :=
  (forall p s, (p, s) ∈ sensors v -> finite (s_value s) = true) ∧
  (forall q, q ∈ m_tpatches m -> finite (sp_value q) = true).
(** What the run's patches say about the sensor [p] at the time [t]: the value of the last patch on
    it up to then and that patch's time; the value at the start and -1 if there is none. *)
Definition known (m : run_state) (t : Z) (p : string) (v0 : prim) (x : prim) (z : Z) : Prop :=
  latest (filter (fun q => sp_ts q <= t) (m_tpatches m)) p v0 (-1) x z.
(** The document [d] shows exactly the sensors, each with what is known at the time [t]. *)
Definition shows_run (v : vehicle) (m : run_state) (t : Z) (d : tson) : Prop :=
  (forall p s l x z, (p, s) ∈ sensors v -> dotted p l -> known m t p (s_value s) x z ->
     at_path d (keys l) = Some (TLeaf x z)) ∧
  (forall q x z, at_path d q = Some (TLeaf x z) -> exists p s l, (p, s) ∈ sensors v ∧ dotted p l ∧ q = keys l).
(** What the log should answer at the time [t]. *)
Definition answer_ok (v : vehicle) (m : run_state) (t : Z) (d : tson) : Prop :=
  ((forall q, q ∈ m_tpatches m -> t < sp_ts q) -> d = TNil) ∧
  ((exists q, q ∈ m_tpatches m ∧ sp_ts q <= t) -> shows_run v m t d).

(** The patches on the sensor [p] from [s] to [e]. *)
Definition window (m : run_state) (p : string) (s e : Z) : list spatch :=
  filter (fun q => sp_path q = p ∧ s <= sp_ts q <= e) (m_tpatches m).
(** A patch as an operation of the log. *)
Definition as_operation (q : spatch) : operation :=
  Op OReplace (sp_path q) (match sp_value q with PStr x => AStr x | PNum x => ANum x | PBool x => ABool x end) (sp_ts q).
(** The track of a sensor: its patches in the window, all of them in version 1. *)
Definition track_ok (m : run_state) (p : string) (s e : Z) (track : gmap N (list operation)) : Prop :=
  forall v ops, track !! v = Some ops <-> v = 1%N ∧ ops = map as_operation (window m p s e) ∧ ops <> [].
(** A patch setting a number above the threshold. *)
Definition above (threshold : f64) (q : spatch) : Prop :=
  match sp_value q with PNum x => SFltb threshold x = true | _ => False end.
#[global] Instance above_dec threshold q : Decision (above threshold q).
Proof. unfold above. destruct (sp_value q); apply _. Defined.

(** ** The experiment *)
(** The sorting functions sort, the iteration orders are permutations, and [Int64N] stays below its
    bound. *)
Record lab_ok (b : lab) : Prop := {
  lk_oracle : forall i, oracle_ok (lb_oracle b i);
  lk_sort1 : forall x, Permutation (lb_sort1 b x) x;
  lk_sort2 : sorting tp_ts (lb_sort2 b);
  lk_periods : by_start (lb_periods b);
  lk_values : forall x, Permutation (lb_values b x) x;
  lk_track : forall x, Permutation (lb_track b x) x;
  lk_draw : forall n, 0 < n -> 0 <= lb_draw b n < n }.
(** The times of the first and of the last patch. *)
Definition spans (m : run_state) (lo hi : Z) : Prop :=
  (exists q, q ∈ m_tpatches m ∧ sp_ts q = lo) ∧ (exists q, q ∈ m_tpatches m ∧ sp_ts q = hi) ∧
  forall q, q ∈ m_tpatches m -> lo <= sp_ts q <= hi.
(** Times spread evenly from [lo] to [hi]: each is the exact one rounded down, or one less. *)
Definition spread_times (lo hi : Z) (count : nat) (ts : list Z) : Prop :=
  length ts = count ∧ StronglySorted Z.le ts ∧ head ts = Some lo ∧ last ts = Some hi ∧
  forall i t, ts !! i = Some t -> lo <= t <= hi ∧
    let n := Z.of_nat count - 1 in Z.of_nat i * (hi - lo) - n <= n * (t - lo) <= Z.of_nat i * (hi - lo).
(** No patch on the sensor at the time 0, that of the initial patches. *)
Definition later (m : run_state) (p : string) : Prop := forall q, q ∈ m_tpatches m -> sp_path q = p -> sp_ts q <> 0.
(** The document [j] shows what [d] shows at the sensors below the top level that are not patched at
    time 0. *)
Definition agrees (v : vehicle) (m : run_state) (d : tson) (j : list (string * json)) : Prop :=
  forall p s l, (p, s) ∈ sensors v -> dotted p l -> (2 <= length l)%nat -> later m p ->
    exists x z w, at_path d (keys l) = Some (TLeaf x z) ∧ below l (JObj j) = Some w ∧ alike w (json_of_prim x).
(** The sensors to follow, and the speeds to search for. *)
Definition watched : list string := [
  "Vehicle.Speed"; "Vehicle.CurrentLocation.Latitude"; "Vehicle.CurrentLocation.Longitude";
  "Vehicle.Powertrain.TractionBattery.StateOfCharge.Current"].
Definition limits : list f64 := [f64_of_Z 10; f64_of_Z 30; f64_of_Z 50].
(** What the experiment on a run with patches from [lo] to [hi] should leave; the search for speeds is in a
    window of ten seconds. *)
Record correct (v : vehicle) (m : run_state) (now lo hi : Z) (a : answers) : Prop := {
  co_times : spread_times lo hi 61 (an_times a);
  co_log : Forall2 (shows_run v m) (an_times a) (an_log a);
  co_doc : hi <= now < 2 ^ 63 -> Forall2 (agrees v m) (an_log a) (an_doc a);
  co_tracks : exists ts, an_tracks a = Ok ts ∧ Forall2 (fun p t => track_ok m p lo hi (fst t)) watched ts;
  co_window : exists s, an_window a = (s, s + 10000) ∧ lo <= s ∧ s + 10000 <= hi ∧
    exists es, an_events a = Ok es ∧ Forall2 (fun thr e =>
      fst e = map sp_ts (filter (above thr) (window m "Vehicle.Speed" s (s + 10000))) ∧
      (hi <= now < 2 ^ 63 -> later m "Vehicle.Speed" -> 1 <= s -> forall z, z ∈ fst e <-> z ∈ snd e ∧ s <= z)) limits es }.

(** ** The directories of the runs *)
(** The last [k] decimal digits of a number. *)
Fixpoint last_digits (k : nat) (n : Z) : string :=
  match k with
  | O => ""
  | S k' => String (ascii_of_N (Z.to_N (48 + (n / 10 ^ Z.of_nat k') `mod` 10))) (last_digits k' n)
  end.
(** The directory of the run started at [n], a date and time read as the number yyyymmddhhmmss, is
    named yyyymmdd_hhmmss. *)
Definition is_run (s : string) (n : Z) : Prop := 0 <= n < 10 ^ 14 ∧ s = last_digits 8 (n / 10 ^ 6) +++ "_" +++ last_digits 6 n.
