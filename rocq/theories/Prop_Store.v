(** Properties C92-C94: indented JSON, the files a run leaves behind, and the program run on them. *)
From Verif Require Import Base BaseSpec F64 GoText Tson TsonInd TsonSpec Bytes Serial TextSpec Heap Patch Json JsonSpec JsonDemo Tjson TjsonSpec Vss VssSpec Sensor Scenario Sim SimSpec SimInit RangeSpec RangeDemo
  Temporal TemporalSpec TempDemo Report Store StoreSpec StoreText StoreFiles StoreRead StoreUrban ExactNum StoreDemo.

(** C92: an indented text is JSON and says what the compact text says. *)
Theorem C92_indented : forall T num ind w, white ind -> survives T num w ->
  exists t, json_text (indented num ind 0 w) t ∧ json_text (wtext num w) t ∧ json_of T t (unmarshal_any w) ∧ forall t', json_text (indented num ind 0 w) t' -> t' = t.
Proof. exact indented_read. Qed.
Print Assumptions C92_indented.
Example C92_case : white "  " ∧ survives lib exact_num sample ∧ no_number (WArr [WNull; WObj [("a", WNum (S754_infinity true))]])
  ∧ indented exact_num "  " 0 (WObj [("a", WArr [WNum speed; WObj []]); ("b", WNull)])
    = "{" +++ line "  " 1 +++ """a"": [" +++ line "  " 2 +++ exact_num speed +++ "," +++ line "  " 2 +++ "{}" +++ line "  " 1 +++ "]," +++ line "  " 1 +++ """b"": null" +++ line "  " 0 +++ "}".
Proof. exact (conj ind_white (conj sample_survives (conj sample_lost sample_text))). Qed.
(** C92: there is none exactly if a number is NaN or infinite. *)
Theorem C92_failure : forall num ind w, marshal_indent num ind w = None <-> no_number w.
Proof. exact marshal_none. Qed.
Print Assumptions C92_failure.
(** C92: ToCompatibleTsonString panics where ToCompatibleTsonBytes returns an error, and otherwise
    writes the same JSON. *)
Theorem C92_compatible : forall num t, compatible_string num t <> Err ∧ (compatible_string num t = Panic <-> compatible_bytes num t = Err) ∧
  forall T s b x, doc_kept T num t -> wf t -> compatible_string num t = Ok s -> compatible_bytes num t = Ok b -> json_text s x <-> json_text b x.
Proof. exact compatible_spec. Qed.
Print Assumptions C92_compatible.
Example C92_compatible_case : doc_kept lib exact_num new_doc ∧ wf new_doc.
Proof. exact odd_doc_kept. Qed.
(** What [reads_back] asks for can be had: numbers written with all their digits. *)
Example C92_exact : forall isp, reads_back (go_lib isp) exact_num.
Proof. exact exact_reads_back. Qed.

(** C93: the directory of a run is named by its time; a later run has a later name. *)
Theorem C93_names : forall c c', clock_ok c -> clock_ok c' ->
  is_run (run_dir c) (clock_number c) ∧ (before c c' -> clock_number c < clock_number c') ∧ (run_dir c = run_dir c' -> c = c').
Proof. exact (fun c c' H H' => conj (run_dir_run c H) (conj (run_dir_later c c' H H') (run_dir_inj c c' H H'))). Qed.
Print Assumptions C93_names.
Example C93_names_case : clock_ok noon ∧ before (Clock 2025 6 1 9 30 0) noon ∧ run_dir noon = "20250601_120000".
Proof. exact (conj noon_ok (conj noon_before eq_refl)). Qed.
(** C93: the six files of a run read back as its documents and patches. *)
Theorem C93_files : forall T num w v sc sec inc m0 m fs, simulate w v sc sec inc = Ok m -> start w v sc = Ok m0 -> orders_ok w -> run_survives T num v m ->
  let fs' := saved_files num m0 m fs in
  file_holds T fs' "initial_json.json" (WObj (m_json m0)) ∧ file_holds T fs' "initial_tson.json" (WObj (m_tson m0)) ∧
  file_holds T fs' "final_json.json" (WObj (m_json m)) ∧ file_holds T fs' "final_tson.json" (WObj (m_tson m)) ∧
  file_says T fs' "all_json_patches.json" (JArr (map patch_data (m_jpatches m))) ∧
  exists s, alookup "all_tson_patches.json" fs' = Some s ∧ patches_text T s (map loaded (m_tpatches m)).
Proof. exact saved_ok. Qed.
Print Assumptions C93_files.
Example C93_files_case : exists m0 m, ride = Ok m ∧ start fair_world cab None = Ok m0 ∧ run_survives (lb_text bench) exact_num cab m ∧ spans m 0 12500
  ∧ ride_content (run_dir noon) = saved_files exact_num m0 m [("notes.txt", "x")].
Proof. exact ride_stored. Qed.
(** C93: no other file is touched. *)
Theorem C93_others : forall num m0 m fs name, name ∉ file_names -> alookup name (saved_files num m0 m fs) = alookup name fs.
Proof. exact saved_others. Qed.
Print Assumptions C93_others.
(** C93: one patch whose value is NaN or infinite, and the file with the patches is not written. *)
Theorem C93_lost : forall num m0 m fs q, q ∈ m_tpatches m -> finite (sp_value q) = false ->
  alookup "all_tson_patches.json" (saved_files num m0 m fs) = alookup "all_tson_patches.json" fs.
Proof. exact saved_lost. Qed.
Print Assumptions C93_lost.
Example C93_lost_case : exists m0 m q, simulate fair_world burst None 2 500 = Ok m ∧ start fair_world burst None = Ok m0 ∧ q ∈ m_tpatches m ∧ finite (sp_value q) = false.
Proof. exact burst_lost. Qed.
(** C93: which texts are read as which patches. *)
Theorem C93_patches : forall T s, read_patches T s <> Panic ∧ forall us, read_patches T s = Ok us <-> patches_text T s us.
Proof. exact (fun T s => conj (read_patches_no_panic T s) (read_patches_spec T s)). Qed.
Print Assumptions C93_patches.
Example C93_patches_case : read_patches (go_lib (fun _ => true)) "[{""OP"":""replace"",""x"":[1],""path"":""/a"",""value"":2,""timestamp"":7}, null]"
  = Ok [TPatch "replace" "/a" (JNum (f64_of_Z 2)) 7; TPatch "" "" JNull 0] ∧ read_patches (go_lib (fun _ => true)) "[{""timestamp"":1.5}]" = Err.
Proof. exact patches_case. Qed.

(** C94: run on a directory whose newest run is [m], the program answers correctly about [m]. *)
Theorem C94_program : forall b num order entries content h c w v sec inc m0 m fs lo hi, simulate w v None sec inc = Ok m -> start w v None = Ok m0 -> orders_ok w ->
  separate v -> 0 < inc -> plain_paths v -> run_survives (lb_text b) num v m -> lab_ok b -> (forall p, p ∈ watched -> p ∈ akeys (sensors v)) -> spans m lo hi ->
  10000 <= hi - lo -> 60 * (hi - lo) < 2 ^ 52 ->
  reorders order -> clock_ok c -> newest entries c -> content (run_dir c) = saved_files num m0 m fs ->
  exists a, temporal_program b order entries content h = Ok (Some a) ∧ correct v m (lb_now b) lo hi a.
Proof. exact program_correct. Qed.
Print Assumptions C94_program.
Example C94_case : reorders turned ∧ newest run_dirs noon ∧ option_map an_window ride_program = Some (2500, 12500)
  ∧ option_map an_events ride_program = Some (Ok [([2500; 5000; 7500; 10000; 12500], [2500; 5000; 7500; 10000; 12500]); ([5000; 10000], [5000; 10000]); ([], [])]).
Proof. exact (conj turned_reorders (conj noon_newest ride_answered)). Qed.
(** C94: the runs of the urban scenario meet all that, for all random numbers. *)
Theorem C94_urban : forall b num order entries content h c w ord now d v m0 m fs, experiment w ord now d "urban_traffic" = Ok m -> orders_ok w -> Permutation (ord vss_sensors) vss_sensors ->
  random_ok w -> fair d -> sine (w_sin w) -> init_vehicle ord now "urban_traffic" d = Ok v -> start w v None = Ok m0 -> lab_ok b ->
  reads_back (lb_text b) num -> (forall p, int64 (now p)) -> reorders order -> clock_ok c -> newest entries c -> content (run_dir c) = saved_files num m0 m fs ->
  exists hi a, 299800 <= hi <= 299900 ∧ temporal_program b order entries content h = Ok (Some a) ∧ correct v m (lb_now b) 0 hi a.
Proof. exact urban_program. Qed.
Print Assumptions C94_urban.
Example C94_urban_case : exists v m0 m, experiment fair_world (@rev _) (fun _ => 5) (SimDemo.drawing (SimDemo.num 3 4)) "urban_traffic" = Ok m
  ∧ init_vehicle (@rev _) (fun _ => 5) "urban_traffic" (SimDemo.drawing (SimDemo.num 3 4)) = Ok v ∧ start fair_world v None = Ok m0
  ∧ lab_ok bench ∧ reads_back (lb_text bench) exact_num ∧ int64 5.
Proof. exact urban_store. Qed.
(** C94: what it does with any files: unreadable patches are reported, an unreadable or missing initial
    document is a panic, and otherwise the experiment is run on what the texts say. *)
Theorem C94_any : forall b order entries content h c, clock_ok c -> newest entries c -> let fs := content (run_dir c) in let T := lb_text b in
  ((forall us, ~ stored_patches T fs us) -> temporal_program b order entries content h = Ok None) ∧
  forall us, stored_patches T fs us ->
    ((forall j, ~ stored_document T fs j) -> temporal_program b order entries content h = Panic) ∧
    forall j, stored_document T fs j ->
      temporal_program b order entries content h = (do a <- temporal_experiment b (order 0%nat j) (order 1%nat j) us h; Ok (Some a)).
Proof. exact program_any. Qed.
Print Assumptions C94_any.
Example C94_any_case : clock_ok noon ∧ newest run_dirs noon ∧ (forall us, ~ stored_patches (lb_text bench) [("all_tson_patches.json", "[1]")] us)
  ∧ stored_patches (lb_text bench) [] [] ∧ (forall j, ~ stored_document (lb_text bench) [("initial_json.json", "[]")] j)
  ∧ stored_document (lb_text bench) [("initial_json.json", "null")] (JObj []).
Proof. exact (conj noon_ok (conj noon_newest stored_cases)). Qed.
(** C94: without a run it only reports an error. *)
Theorem C94_none : forall b order entries content h, (forall s n, (s, true) ∈ entries -> ~ is_run s n) -> temporal_program b order entries content h = Ok None.
Proof. exact no_run. Qed.
Print Assumptions C94_none.
(** C94: it panics if the newest run is shorter than ten seconds. *)
Theorem C94_short : forall b num order entries content h c w v sec inc m0 m fs lo hi, simulate w v None sec inc = Ok m -> start w v None = Ok m0 -> orders_ok w ->
  run_survives (lb_text b) num v m -> spans m lo hi -> hi - lo < 10000 -> reorders order -> clock_ok c -> newest entries c -> content (run_dir c) = saved_files num m0 m fs ->
  temporal_program b order entries content h = Panic.
Proof. exact program_short. Qed.
Print Assumptions C94_short.
Example C94_short_case : exists m0 m, simulate fair_world cab None 5 500 = Ok m ∧ start fair_world cab None = Ok m0 ∧ run_survives (lb_text bench) exact_num cab m ∧ spans m 0 4000.
Proof. exact short_ride. Qed.
(** C94: and if a patch of the newest run is NaN or infinite. *)
Theorem C94_lost : forall b num order entries content h c m0 m q, clock_ok c -> newest entries c -> content (run_dir c) = saved_files num m0 m [] ->
  q ∈ m_tpatches m -> finite (sp_value q) = false -> temporal_program b order entries content h = Panic.
Proof. exact program_lost. Qed.
Print Assumptions C94_lost.
