(** The files of a short run, written with all decimal digits, and the program on them. *)
From Verif Require Import Base BaseSpec BaseLemmas F64 GoText Tson TsonSpec TsonInd Bytes Serial TextSpec Heap Patch Json JsonSpec JsonDemo Tjson TjsonSpec Vss VssSpec Sensor Scenario Sim SimSpec SimLemmas SimInit SimDemo RangeSpec RangeDemo
  Temporal TemporalSpec TempDir TempDemo Report Store StoreSpec StoreText StoreFiles StoreRead StoreUrban ExactNum.

(** ** Names of directories *)
Definition noon : clock := Clock 2025 6 1 12 0 0.
Lemma noon_ok : clock_ok noon.
Proof. unfold clock_ok, noon. cbn. lia. Qed.
Lemma noon_before : before (Clock 2025 6 1 9 30 0) noon.
Proof. exists [2025; 6; 1], 9, [30; 0], 12, [0; 0]. cbn. split; [done|]. split; [done|lia]. Qed.
Lemma noon_newest : newest run_dirs noon.
Proof.
  destruct (latest_spec run_dirs "20250601_120000" (proj1 run_dirs_latest)) as [H1 (n & H2 & H3)].
  split; [exact H1|]. intros s n' Hs Hn'. specialize (H3 s n' Hs Hn').
  assert (n = clock_number noon). { rewrite <- (run_number _ _ H2). vm_compute. reflexivity. } lia.
Qed.

(** ** Texts *)
Definition sample : wjson := WObj [("speed", WNum speed); (odd_name, WArr [WInt (-7); WNull; WArr []; WObj []]); ("door", WStr odd_name)].
Lemma sample_survives : survives lib exact_num sample.
Proof.
  destruct (exact_reads_back (fun _ => true)) as [HN HI]. constructor.
  - repeat (constructor; [set_solver|]). constructor.
  - constructor; [split; [letters|]; apply sv_num, HN; split; reflexivity|].
    constructor; [split; [apply odd_utf8|]|constructor; [split; [letters|apply sv_str, odd_utf8]|constructor]].
    constructor. constructor; [apply sv_int, HI; unfold int64; lia|]. constructor; [constructor|]. constructor; [apply sv_arr; constructor|].
    constructor; [apply sv_obj; constructor|constructor].
Qed.
Lemma sample_text : indented exact_num "  " 0 (WObj [("a", WArr [WNum speed; WObj []]); ("b", WNull)])
  = "{" +++ line "  " 1 +++ """a"": [" +++ line "  " 2 +++ exact_num speed +++ "," +++ line "  " 2 +++ "{}" +++ line "  " 1 +++ "]," +++ line "  " 1 +++ """b"": null" +++ line "  " 0 +++ "}".
Proof. vm_compute. reflexivity. Qed.
Lemma sample_lost : no_number (WArr [WNull; WObj [("a", WNum (S754_infinity true))]]).
Proof. apply nn_elem with (WObj [("a", WNum (S754_infinity true))]); [set_solver|]. apply nn_member with "a" (WNum (S754_infinity true)); [set_solver|]. constructor. right. by eexists. Qed.
Lemma odd_doc_kept : doc_kept lib exact_num new_doc ∧ wf new_doc.
Proof.
  destruct (exact_reads_back (fun _ => true)) as [HN _]. split.
  - constructor. constructor; [split; [letters|]; constructor; apply HN; split; reflexivity|].
    constructor; [split; [apply odd_utf8|]; constructor; apply odd_utf8|constructor].
  - constructor; [vm_compute; repeat (constructor; [set_solver|]); constructor|repeat constructor].
Qed.

(** ** The run *)
Definition sensor_check (x : string * sensor) : bool :=
  ascii_only (fst x) && prim_check (s_value (snd x)) && in_int64 (s_stamp (snd x)).
Definition update_check (q : spatch) : bool := ascii_only (sp_path q) && prim_check (sp_value q) && in_int64 (sp_ts q).
Definition survive_check (v : vehicle) (r : res run_state) : bool :=
  forallb sensor_check (sensors v) && match r with Ok m => forallb update_check (m_spatches m) | _ => false end.
Lemma int64_checked z : in_int64 z = true -> int64 z.
Proof. unfold in_int64, int64, int64_min, int64_max. rewrite andb_true_iff, !Z.leb_le. lia. Qed.
Lemma survive_checked T num v m : reads_back T num -> survive_check v (Ok m) = true -> run_survives T num v m.
Proof.
  intros HR. unfold survive_check. rewrite andb_true_iff, !forallb_forall. intros [H1 H2]. split.
  - intros p s Hin%elem_of_list_In%H1. unfold sensor_check in Hin. cbn [fst snd] in Hin. apply andb_true_iff in Hin as [[A B]%andb_true_iff C].
    split; [by apply ascii_utf8|]. split; [by apply prim_checked|]. by apply HR, int64_checked.
  - intros q Hin%elem_of_list_In%H2. unfold update_check in Hin. apply andb_true_iff in Hin as [[A B]%andb_true_iff C].
    split; [by apply ascii_utf8|]. split; [by apply prim_checked|]. apply int64_checked in C. split; [by apply HR|done].
Qed.
Lemma ride_survives : survive_check cab ride = true.
Proof. vm_compute. reflexivity. Qed.
Definition ride_files : list (string * string) :=
  match start fair_world cab None, ride with Ok m0, Ok m => saved_files exact_num m0 m [("notes.txt", "x")] | _, _ => [] end.
Definition ride_content (dir : string) : list (string * string) := if decide (dir = "20250601_120000") then ride_files else [].
(** The second time the members of the document are met backwards. *)
Definition turned (i : nat) (j : json) : json := match i, j with 1%nat, JObj m => JObj (rev m) | _, _ => j end.
Lemma same_self j : TsonSpec.same_json j j.
Proof.
  induction j as [| | | |l IH|m IH] using json_ind'; try constructor.
  - induction IH as [|x l Hx _ IHl]; [constructor|]. by apply List.Forall2_cons.
  - eapply TsonSpec.sj_obj; [reflexivity|]. induction IH as [|x m Hx _ IHl]; [constructor|]. by apply List.Forall2_cons.
Qed.
Lemma turned_reorders : reorders turned.
Proof.
  intros [|[|i]] j; try apply same_self; destruct j; try apply same_self. cbn. eapply TsonSpec.sj_obj; [apply Permutation_rev|].
  induction (rev m) as [|x r IH]; [constructor|]. apply List.Forall2_cons; [split; [done|apply same_self]|done].
Qed.
Definition ride_program :=
  match temporal_program bench turned run_dirs ride_content ([] : heap) with Ok o => o | _ => None end.
Lemma ride_stored : exists m0 m, ride = Ok m ∧ start fair_world cab None = Ok m0 ∧ run_survives (lb_text bench) exact_num cab m ∧ spans m 0 12500
  ∧ ride_content (run_dir noon) = saved_files exact_num m0 m [("notes.txt", "x")].
Proof.
  destruct ride_ok as (m & m0 & E & E0 & _ & _ & HS & _). exists m0, m. split; [done|]. split; [done|].
  split. { apply survive_checked; [apply exact_reads_back|]. rewrite <- E. apply ride_survives. }
  split; [done|]. unfold ride_content. rewrite decide_True by (vm_compute; reflexivity). unfold ride_files. by rewrite E, E0.
Qed.
Lemma ride_answered : option_map an_window ride_program = Some (2500, 12500)
  ∧ option_map an_events ride_program = Some (Ok [([2500; 5000; 7500; 10000; 12500], [2500; 5000; 7500; 10000; 12500]); ([5000; 10000], [5000; 10000]); ([], [])]).
Proof. split; vm_compute; reflexivity. Qed.

(** A sensor that runs over, so that its patches cannot be written. *)
Definition huge : f64 := S754_finite false 9007199254740991 971.
Definition burst : vehicle :=
  [[("Vehicle.Speed", Sensor "Vehicle.Speed" (PNum (f64_of_Z 0)) "number" 7 500 "constant_with_noise" [("baseline", huge); ("noise", huge)] 0)]; []; []; []; []; []].
Definition lost_check (r : res run_state) : bool := match r with Ok m => existsb (fun q => negb (finite (sp_value q))) (m_tpatches m) | _ => false end.
Lemma burst_checked : lost_check (simulate fair_world burst None 2 500) = true.
Proof. vm_compute. reflexivity. Qed.
Lemma burst_lost : exists m0 m q, simulate fair_world burst None 2 500 = Ok m ∧ start fair_world burst None = Ok m0 ∧ q ∈ m_tpatches m ∧ finite (sp_value q) = false.
Proof.
  pose proof burst_checked as C. destruct (simulate fair_world burst None 2 500) as [m| |] eqn:E; [|done|done]. cbn [lost_check] in C.
  apply existsb_exists in C as (q & Hq & F). apply negb_true_iff in F. pose proof E as (m0 & H0 & _)%simulate_inv.
  exists m0, m, q. split; [done|]. split; [done|]. split; [by apply elem_of_list_In|done].
Qed.
(** A run too short for the window. *)
Definition short_check (r : res run_state) : bool :=
  match r with
  | Ok m => survive_check cab (Ok m) && forallb (fun q => (0 <=? sp_ts q) && (sp_ts q <=? 4000)) (m_tpatches m)
      && existsb (fun q => sp_ts q =? 0) (m_tpatches m) && existsb (fun q => sp_ts q =? 4000) (m_tpatches m)
  | _ => false
  end.
Lemma short_checked : short_check (simulate fair_world cab None 5 500) = true.
Proof. vm_compute. reflexivity. Qed.
Lemma short_found r : short_check r = true -> exists m, r = Ok m ∧ run_survives (lb_text bench) exact_num cab m ∧ spans m 0 4000.
Proof.
  intros C. destruct r as [m| |]; [|done|done]. unfold short_check in C.
  rewrite !andb_true_iff, !existsb_exists, forallb_forall in C. destruct C as [[[C1 C2] (q1 & I1 & T1)] (q2 & I2 & T2)].
  exists m. split; [done|].
  split; [apply survive_checked; [apply exact_reads_back|exact C1]|]. rewrite Z.eqb_eq in T1, T2. rewrite <- elem_of_list_In in I1, I2.
  split; [by exists q1|]. split; [by exists q2|]. intros q Hq%elem_of_list_In%C2. rewrite andb_true_iff, !Z.leb_le in Hq. lia.
Qed.
Lemma short_ride : exists m0 m, simulate fair_world cab None 5 500 = Ok m ∧ start fair_world cab None = Ok m0 ∧ run_survives (lb_text bench) exact_num cab m ∧ spans m 0 4000.
Proof.
  destruct (short_found _ short_checked) as (m & E & H). pose proof E as (m0 & H0 & _)%simulate_inv. exists m0, m. exact (conj E (conj H0 H)).
Qed.
(** Texts of patches: names in other cases, members not known, null. *)
Lemma patches_case : read_patches (go_lib (fun _ => true)) "[{""OP"":""replace"",""x"":[1],""path"":""/a"",""value"":2,""timestamp"":7}, null]"
  = Ok [TPatch "replace" "/a" (JNum (f64_of_Z 2)) 7; TPatch "" "" JNull 0] ∧ read_patches (go_lib (fun _ => true)) "[{""timestamp"":1.5}]" = Err.
Proof. split; vm_compute; reflexivity. Qed.
Lemma urban_store : exists v m0 m, experiment fair_world (@rev _) (fun _ => 5) (drawing (num 3 4)) "urban_traffic" = Ok m
  ∧ init_vehicle (@rev _) (fun _ => 5) "urban_traffic" (drawing (num 3 4)) = Ok v ∧ start fair_world v None = Ok m0
  ∧ lab_ok bench ∧ reads_back (lb_text bench) exact_num ∧ int64 5.
Proof.
  destruct urban_case as (v & m0 & m & file & H1 & _ & _ & _ & _ & _ & H2 & H3 & _ & H4 & _). exists v, m0, m.
  assert (H6 : int64 5) by (unfold int64; lia). exact (conj H1 (conj H2 (conj H3 (conj H4 (conj (exact_reads_back _) H6))))).
Qed.
Lemma stored_cases : (forall us, ~ stored_patches (lb_text bench) [("all_tson_patches.json", "[1]")] us)
  ∧ stored_patches (lb_text bench) [] [] ∧ (forall j, ~ stored_document (lb_text bench) [("initial_json.json", "[]")] j)
  ∧ stored_document (lb_text bench) [("initial_json.json", "null")] (JObj []).
Proof.
  split; [intros us H%load_patches_spec; by vm_compute in H|]. split; [by left|].
  split; [intros j (s & [= <-] & H%read_map_spec); by vm_compute in H|]. exists "null". split; [done|]. by apply read_map_spec.
Qed.
