(** The web demo answers with files of the data set only. *)
From stdpp Require Import pretty.
From Verif Require Import Base BaseSpec BaseLemmas BaseSpecLemmas F64 Tson TsonLemmas Serial Tjson TjsonSpec TjsonLemmas Vss VssRun VssRunSpec Serve ServeSpec.
From Verif Require DiffApply StoreFiles VssRunLemmas.
From Coq Require Import Lia.

(** ** Places *)
Lemma node_at_app p q n : node_at (p ++ q) n = match node_at p n with Some n' => node_at q n' | None => None end.
Proof. revert n. induction p as [|k p IH]; intros n; [done|]. cbn [app node_at]. destruct n as [|kids]; [done|]. destruct (alookup k kids); [apply IH|done]. Qed.
Lemma node_at_kid p k kids n : node_at p n = Some (NDir kids) -> node_at (p ++ [k]) n = alookup k kids.
Proof. intros E. rewrite node_at_app, E. cbn. by destruct (alookup k kids). Qed.
Lemma node_at_above p k q n m : node_at (p ++ k :: q) n = Some m -> exists kids, node_at p n = Some (NDir kids).
Proof. rewrite node_at_app. destruct (node_at p n) as [[s|kids]|]; [done| |done]. eauto. Qed.
Definition plain (k : string) : Prop := k ≠ "" ∧ k ≠ "." ∧ k ≠ "..".
Lemma walk_app root a : forall pos b, walk root pos (a ++ b) = match walk root pos a with Some p => walk root p b | None => None end.
Proof.
  induction a as [|k a IH]; intros pos b; [done|]. cbn [app walk]. destruct (node_at pos root) as [[s|kids]|]; [done| |done].
  repeat case_decide; try apply IH. destruct (alookup k kids); [apply IH|done].
Qed.
Lemma walk_dir root pos k rest p : walk root pos (k :: rest) = Some p -> exists kids, node_at pos root = Some (NDir kids).
Proof. cbn [walk]. destruct (node_at pos root) as [[s|kids]|]; [done|eauto|done]. Qed.
Lemma walk_one root pos k : plain k -> walk root pos [k] = Some (pos ++ [k]) ∧ (exists m, node_at (pos ++ [k]) root = Some m) ∨ walk root pos [k] = None ∧ node_at (pos ++ [k]) root = None.
Proof.
  intros (H1 & H2 & H3). cbn [walk]. destruct (node_at pos root) as [[s|kids]|] eqn:E.
  - right. split; [done|]. by rewrite node_at_app, E.
  - rewrite (node_at_kid _ _ _ _ E). rewrite !decide_False by done. destruct (alookup k kids); [left|right]; split; eauto.
  - right. split; [done|]. by rewrite node_at_app, E.
Qed.
Lemma walk_plain root l : Forall plain l -> forall pos, walk root pos l = Some (pos ++ l) ∨ walk root pos l = None ∧ node_at (pos ++ l) root = None.
Proof.
  induction 1 as [|k l Hk Hl IH]; intros pos; [left; by rewrite app_nil_r|]. change (k :: l) with ([k] ++ l). rewrite walk_app, app_assoc.
  destruct (walk_one root pos k Hk) as [[-> _]|[-> E]]; [apply IH|]. right. split; [done|]. by rewrite node_at_app, E.
Qed.
Lemma read_plain root cwd name l : split_on slash name = l -> Forall plain l -> answer root (cwd ++ l) (os_read root cwd name).
Proof.
  intros E H. unfold os_read, answer. rewrite E. destruct (walk_plain root l H cwd) as [->|[-> F]].
  - destruct (node_at (cwd ++ l) root) as [[s|kids]|]; [by left|right; split; [done|done]..].
  - right. split; [by rewrite F|done].
Qed.

(** ** Parts of the names *)
Lemma split_pre u s : contains slash u = false -> exists x l, split_on slash s = x :: l ∧ split_on slash (u +++ s) = (u +++ x) :: l.
Proof.
  intros H. destruct (StoreFiles.split_head slash s) as (x & l & E). exists x, l. split; [done|]. apply StoreFiles.split_free; [|done].
  intros a y z -> ->. rewrite contains_app in H. cbn in H. by rewrite orb_true_r in H.
Qed.
Lemma first_slash s : contains slash s = true -> exists a b, s = a +++ String slash b ∧ contains slash a = false.
Proof.
  induction s as [|c s IH]; [done|]. cbn [contains]. destruct (decide (c = slash)) as [->|N].
  - intros _. by exists "", s.
  - rewrite bool_decide_false by congruence. intros (a & b & -> & H)%IH. exists (String c a), b. split; [done|]. cbn [contains]. rewrite H, bool_decide_false by congruence. done.
Qed.
Lemma dataset_split rest : split_on slash ("dataset/" +++ rest) = "dataset" :: split_on slash rest.
Proof. change ("dataset/" +++ rest) with ("dataset" +++ String slash rest). by rewrite split_on_app. Qed.
Lemma long_plain s : (3 <= String.length s)%nat -> plain s.
Proof. intros L. repeat split; intros ->; cbn in L; lia. Qed.
Lemma length_app a b : String.length (a +++ b) = (String.length a + String.length b)%nat.
Proof. induction a as [|c a IH]; [done|]. cbn. by rewrite IH. Qed.

Section serve.
Context (root : node) (cwd : list string).
(** The name of a file in [sub], ["tson"] or ["patches"], of a car. *)
Definition name_of (sub car tail : string) : string := "dataset/car_" +++ car +++ "/" +++ sub +++ "/" +++ car +++ tail.
Lemma named_answer sub car tail : contains slash car = false -> contains slash tail = false -> (3 <= String.length tail)%nat -> sub = "tson" ∨ sub = "patches" ->
  answer root (cwd ++ ["dataset"; "car_" +++ car; sub; car +++ tail]) (os_read root cwd (name_of sub car tail)).
Proof.
  intros H1 H2 L Hs. apply read_plain.
  - unfold name_of. change ("dataset/car_" +++ car +++ "/" +++ sub +++ "/" +++ car +++ tail) with ("dataset/" +++ "car_" +++ car +++ "/" +++ sub +++ "/" +++ car +++ tail).
    rewrite dataset_split. f_equal. change ("/" +++ sub +++ "/" +++ car +++ tail) with (String slash (sub +++ String slash (car +++ tail))).
    rewrite <- sapp_assoc. rewrite split_on_app by (rewrite contains_app, H1; done). f_equal.
    rewrite split_on_app by by destruct Hs as [->| ->]. f_equal. apply split_on_none. by rewrite contains_app, H1, H2.
  - repeat constructor; try done; apply long_plain; rewrite ?length_app; cbn; lia || (destruct Hs as [->| ->]; cbn; lia).
Qed.
(** A name that goes on behind a part in [sub] leads nowhere. *)
Lemma nested_none sub q k x l : sub = "tson" ∨ sub = "patches" -> no_nesting root -> plain k -> walk root q (sub :: k :: x :: l) = None.
Proof.
  intros Hs N Hk. change (sub :: k :: x :: l) with ([sub] ++ ([k] ++ x :: l)). rewrite (walk_app root [sub]).
  assert (P : plain sub) by (destruct Hs as [->| ->]; done).
  destruct (walk_one root q sub P) as [[-> _]|[-> _]]; [|done]. rewrite (walk_app root [k]). destruct (walk_one root (q ++ [sub]) k Hk) as [[-> _]|[-> _]]; [|done].
  destruct (walk root ((q ++ [sub]) ++ [k]) (x :: l)) as [p|] eqn:E; [|done]. apply walk_dir in E as [kids E].
  rewrite <- app_assoc in E. by destruct (N q sub k kids Hs).
Qed.
Lemma slash_none sub car tail : contains slash car = true -> sub = "tson" ∨ sub = "patches" -> tidy_data root cwd -> no_nesting root ->
  walk root cwd (split_on slash (name_of sub car tail)) = None.
Proof.
  intros (c & r & -> & Hc)%first_slash Hs T N. unfold name_of.
  change ("dataset/car_" +++ (c +++ String slash r) +++ "/" +++ sub +++ "/" +++ (c +++ String slash r) +++ tail)
    with ("dataset/" +++ "car_" +++ (c +++ String slash r) +++ String slash (sub +++ String slash ((c +++ String slash r) +++ tail))).
  rewrite dataset_split. rewrite !sapp_assoc. change (String slash r +++ ?x) with (String slash (r +++ x)). rewrite <- (sapp_assoc "car_" c).
  rewrite split_on_app by (rewrite contains_app, Hc; done). change (String slash r +++ tail) with (String slash (r +++ tail)).
  rewrite split_on_app_gen, split_on_app by (by destruct Hs as [->| ->]). rewrite split_on_app by done.
  destruct (StoreFiles.split_head slash (r +++ tail)) as (x & l & ->).
  destruct (StoreFiles.split_head slash r) as (y & m & Er). rewrite Er.
  change ("dataset" :: ("car_" +++ c) :: (y :: m) ++ sub :: c :: x :: l) with (["dataset"; "car_" +++ c] ++ (y :: m) ++ sub :: c :: x :: l).
  rewrite walk_app. assert (P : Forall plain ["dataset"; "car_" +++ c]) by (repeat constructor; done).
  destruct (walk_plain root _ P cwd) as [->|[-> _]]; [|done]. rewrite walk_app.
  destruct (walk root (cwd ++ ["dataset"; "car_" +++ c]) (y :: m)) as [q|] eqn:E; [|done]. apply walk_dir in E as [kids E].
  apply nested_none; [done|done|]. apply T in E.
  assert (D : exists n, c = pretty (n : BinNums.N)).
  { remember ["car_" +++ c] as z eqn:Ez. destruct E as [|n|n s _]; [done| |done]. injection Ez as Ez. by exists n. }
  destruct D as [n D].
  rewrite D, <- dec_text_pretty. destruct (dec_text_spec n) as (D1 & D2 & _). repeat split; [done|intros F; by rewrite F in D1..].
Qed.
Lemma slash_read sub car tail : contains slash car = true -> sub = "tson" ∨ sub = "patches" -> tidy_data root cwd -> no_nesting root ->
  os_read root cwd (name_of sub car tail) = "".
Proof. intros. unfold os_read. by rewrite slash_none. Qed.
Lemma patch_slash_read car patch : contains slash car = false -> contains slash patch = true -> no_nesting root ->
  os_read root cwd (name_of "patches" car ("_" +++ patch +++ ".json")) = "".
Proof.
  intros Hc (p & r & -> & Hp)%first_slash N. unfold os_read, name_of.
  change ("dataset/car_" +++ car +++ "/" +++ "patches" +++ "/" +++ car +++ "_" +++ (p +++ String slash r) +++ ".json")
    with ("dataset/" +++ "car_" +++ car +++ String slash ("patches" +++ String slash (car +++ "_" +++ (p +++ String slash r) +++ ".json"))).
  rewrite dataset_split, <- (sapp_assoc "car_" car), split_on_app by (rewrite contains_app, Hc; done). rewrite split_on_app by done.
  rewrite (sapp_assoc p). change (String slash r +++ ".json") with (String slash (r +++ ".json")).
  rewrite <- (sapp_assoc "_" p), <- (sapp_assoc car). rewrite split_on_app by (rewrite !contains_app, Hc, Hp; done).
  destruct (StoreFiles.split_head slash (r +++ ".json")) as (x & l & ->).
  change ("dataset" :: ("car_" +++ car) :: "patches" :: (car +++ "_" +++ p) :: x :: l) with (["dataset"; "car_" +++ car] ++ "patches" :: (car +++ "_" +++ p) :: x :: l).
  rewrite walk_app. destruct (walk root cwd ["dataset"; "car_" +++ car]) as [q|]; [|done]. rewrite nested_none; [done|by right|done|].
  assert (U : forall z, contains "_" z = false -> car +++ "_" +++ p ≠ z).
  { intros z Hz E. rewrite <- E, !contains_app in Hz. cbn in Hz. by rewrite orb_true_r in Hz. }
  repeat split; by apply U.
Qed.
Lemma update_named car patch : free_of ["/"%char] car -> free_of ["/"%char] patch ->
  answer root (cwd ++ ["dataset"; "car_" +++ car] ++
    if decide (patch = "") then ["tson"; car +++ "_1.tson"] else ["patches"; car +++ "_" +++ patch +++ ".json"]) (update_answer root cwd car patch).
Proof.
  intros H1%free_contains H2%free_contains. change "/"%char with slash in *. unfold update_answer. case_decide.
  - apply (named_answer "tson" car "_1.tson"); [done|done|cbn; lia|by left].
  - apply (named_answer "patches" car ("_" +++ patch +++ ".json")); [done|by rewrite !contains_app, H2| |by right].
    rewrite !length_app. cbn. lia.
Qed.
Lemma update_inside car patch : tidy_data root cwd -> no_nesting root -> ~ (free_of ["/"%char] car ∧ free_of ["/"%char] patch) -> update_answer root cwd car patch = "".
Proof.
  intros T N H. rewrite !free_contains in H. change "/"%char with slash in H. unfold update_answer. destruct (contains slash car) eqn:Ec.
  - case_decide; [by apply (slash_read "tson" car "_1.tson"); [|left|..]|by apply (slash_read "patches" car ("_" +++ patch +++ ".json")); [|right|..]].
  - rewrite decide_False; [|intros ->; by apply H]. apply patch_slash_read; [done| |done]. destruct (contains slash patch); [done|]. by destruct H.
Qed.

(** ** The files of a data set *)
Context (d : node) (fs : files).
Hypothesis Hd : node_at (cwd ++ ["dataset"]) root = Some d.
Hypothesis Hst : stands d fs.
Lemma data_at l : node_at (cwd ++ "dataset" :: l) root = node_at l d.
Proof. change ("dataset" :: l) with (["dataset"] ++ l). by rewrite app_assoc, node_at_app, Hd. Qed.
Lemma answer_file l name s : names ["/"%char] name l -> answer root (cwd ++ "dataset" :: l) s -> s = read_file name fs.
Proof.
  intros Hn H. unfold read_file, answer in *. rewrite data_at in H. destruct (alookup name fs) as [c|] eqn:E.
  - apply Hst in E as (l' & Hn' & E). apply names_split in Hn, Hn'. subst. rewrite E in H. destruct H as [[= ->]|[H _]]; [done|]. by destruct (H c).
  - destruct H as [H|[_ ->]]; [|done]. assert (alookup name fs = Some s) by (apply Hst; eauto). congruence.
Qed.
Lemma read_named sub car tail : contains slash car = false -> contains slash tail = false -> (3 <= String.length tail)%nat -> sub = "tson" ∨ sub = "patches" ->
  os_read root cwd (name_of sub car tail) = read_file ("car_" +++ car +++ "/" +++ sub +++ "/" +++ car +++ tail) fs.
Proof.
  intros H1 H2 L Hs. apply (answer_file ["car_" +++ car; sub; car +++ tail]); [|by apply named_answer].
  apply names_split. change ("/" +++ sub +++ "/" +++ car +++ tail) with (String slash (sub +++ String slash (car +++ tail))).
  rewrite <- sapp_assoc. rewrite split_on_app by (rewrite contains_app, H1; done). f_equal.
  rewrite split_on_app by by destruct Hs as [->| ->]. f_equal. apply split_on_none. by rewrite contains_app, H1, H2.
Qed.
Lemma deep_missing name : tidy_data root cwd -> (4 <= length (split_on slash name))%nat -> alookup name fs = None.
Proof.
  intros T L. destruct (alookup name fs) as [s|] eqn:E; [|done]. apply Hst in E as (l & Hn & E). apply names_split in Hn. change "/"%char with slash in Hn. rewrite Hn in L.
  destruct l as [|a [|b [|c [|e l]]]]; cbn in L; try lia. change (a :: b :: c :: e :: l) with ([a; b; c] ++ e :: l) in E.
  apply node_at_above in E as [kids E]. rewrite <- data_at in E. apply T in E. inversion E.
Qed.
Lemma update_run car patch : tidy_data root cwd -> no_nesting root -> update_answer root cwd car patch = update_handler car patch fs.
Proof.
  intros T N. destruct (contains slash car || contains slash patch) eqn:E.
  - rewrite update_inside; [|done|done|rewrite !free_contains; change "/"%char with slash; intros [F1 F2]; by rewrite F1, F2 in E].
    assert (C : forall s, contains slash s = true -> (2 <= length (split_on slash s))%nat) by (intros; by apply split_contains).
    assert (G : forall sub tail, (2 <= length (split_on slash (car +++ tail)))%nat -> (4 <= length (split_on slash ("car_" +++ car +++ "/" +++ sub +++ "/" +++ car +++ tail)))%nat).
    { intros sub tail H. change ("/" +++ sub +++ "/" +++ car +++ tail) with (String slash (sub +++ String slash (car +++ tail))).
      rewrite <- sapp_assoc, !split_on_app_gen, !app_length.
      destruct (StoreFiles.split_head slash ("car_" +++ car)) as (? & ? & ->), (StoreFiles.split_head slash sub) as (? & ? & ->). cbn. lia. }
    unfold update_handler. symmetry. case_decide as Hp; unfold read_file.
    + rewrite (deep_missing _ T); [done|]. apply (G "tson" "_1.tson"). apply C. rewrite contains_app. subst. cbn in E. rewrite orb_false_r in E. by rewrite E.
    + rewrite (deep_missing _ T); [done|]. apply (G "patches" ("_" +++ patch +++ ".json")). apply C. rewrite !contains_app. destruct (contains slash car); [done|]. cbn in E. by rewrite E, orb_true_r.
  - apply orb_false_iff in E as [E1 E2]. unfold update_answer, update_handler. case_decide.
    + apply (read_named "tson" car "_1.tson"); [done|done|cbn; lia|by left].
    + apply (read_named "patches" car ("_" +++ patch +++ ".json")); [done|by rewrite !contains_app, E2| |by right]. rewrite !length_app. cbn. lia.
Qed.
Lemma run_reads i j : os_read root cwd ("dataset/" +++ tson_name i j) = read_file (tson_name i j) fs ∧ os_read root cwd ("dataset/" +++ patch_name i j) = read_file (patch_name i j) fs.
Proof.
  assert (Z : forall z, contains slash (z_text z) = false) by (intros; by apply VssRunLemmas.z_text_no). split.
  - apply (read_named "tson" (z_text i) ("_" +++ z_text j +++ ".tson")); [done|by rewrite !contains_app, Z| |by left]. rewrite !length_app. cbn. lia.
  - apply (read_named "patches" (z_text i) ("_" +++ z_text j +++ ".json")); [done|by rewrite !contains_app, Z| |by right]. rewrite !length_app. cbn. lia.
Qed.
End serve.
