(** Property C102: the files the web demo answers with. *)
From stdpp Require Import pretty.
From Verif Require Import Base BaseSpec F64 Tson Tjson TjsonSpec Vss VssRun VssRunSpec Serve ServeSpec ServeLemmas ServeDemo.

(** C102: with parameters without a slash, even "..", the answer to a request is the file of that
    car and number in the data set, or empty. *)
Theorem C102_named : forall root cwd car patch, free_of ["/"%char] car -> free_of ["/"%char] patch ->
  answer root (cwd ++ ["dataset"; "car_" +++ car] ++
    if decide (patch = "") then ["tson"; car +++ "_1.tson"] else ["patches"; car +++ "_" +++ patch +++ ".json"])
    (update_answer root cwd car patch).
Proof. exact update_named. Qed.
Print Assumptions C102_named.
Example C102_case : update_answer repo0 ["srv"] "1" "" = "first" ∧ update_answer repo0 ["srv"] "1" "2" = "[]" ∧ update_answer repo0 ["srv"] "3" "" = "" ∧
  update_answer repo0 ["srv"] "1/../../.." "" = "" ∧ update_answer repo0 ["srv"] "1" "/../../../../../etc/passwd" = "".
Proof. exact repo_answers. Qed.
(** C102: with a slash in one of them the answer is empty, if the data set has only the directories
    of the generator and no directory called "tson" or "patches" has directories in it. *)
Theorem C102_inside : forall root cwd car patch, tidy_data root cwd -> no_nesting root ->
  ~ (free_of ["/"%char] car ∧ free_of ["/"%char] patch) -> update_answer root cwd car patch = "".
Proof. exact update_inside. Qed.
Print Assumptions C102_inside.
Example C102_case_inside : tidy_data repo0 ["srv"] ∧ no_nesting repo0.
Proof. exact (conj repo_tidy repo_flat). Qed.
(** C102: without the last condition a request can read a file outside of the data set. *)
Theorem C102_outside_refuted : exists root cwd car s, tidy_data root cwd ∧ update_answer root cwd car "" = s ∧ s ≠ "" ∧
  forall l, node_at (cwd ++ "dataset" :: l) root ≠ Some (NFile s).
Proof. exact escape. Qed.
Print Assumptions C102_outside_refuted.
(** C102: so for any parameters the answer is the one given by the names of the files of the data
    set, the model C73 is about; the names patchHandler reads are resolved alike. *)
Theorem C102_files : forall root cwd d fs, node_at (cwd ++ ["dataset"]) root = Some d -> stands d fs ->
  (forall car patch, tidy_data root cwd -> no_nesting root -> update_answer root cwd car patch = update_handler car patch fs) ∧
  forall i j, os_read root cwd ("dataset/" +++ tson_name i j) = read_file (tson_name i j) fs ∧
    os_read root cwd ("dataset/" +++ patch_name i j) = read_file (patch_name i j) fs.
Proof. exact (fun root cwd d fs Hd Hs => conj (fun car patch => update_run root cwd d fs Hd Hs car patch) (run_reads root cwd d fs Hd Hs)). Qed.
Print Assumptions C102_files.
Example C102_case_files : node_at (["srv"] ++ ["dataset"]) repo0 = Some data0 ∧ stands data0 files0.
Proof. exact (conj repo_data data_stands). Qed.
