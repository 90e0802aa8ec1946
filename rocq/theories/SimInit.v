(** Runs come to their end, and what the experiments start with. *)
From Verif Require Import Base BaseSpec BaseLemmas F64 Tson Bytes TjsonSpec TjsonLemmas Vss Sensor Scenario Sim SimSpec SimTrace SimLemmas SimTimes SimDocs SimFinal.

(** ** Completion *)
Definition steady (s : sensor) : Prop := s_interval s ≠ 0 ∧ (s_type s = "string" -> s_pattern s ≠ "random_selection").
Lemma new_value_total sn fuel d t s : steady s -> exists r, new_value sn fuel d t s = Ok r.
Proof.
  intros [_ H]. unfold new_value. repeat case_decide; cbn [s_value set_count]; destruct (s_value s); try (by eexists).
  - destruct (new_number _ _ _ _ _). by eexists.
  - unfold new_string. cbn [s_pattern set_count]. rewrite decide_False by auto. by eexists.
Qed.
Lemma solo_total w t p s : steady s -> exists s' us, solo w t p s = Ok (s', us) ∧ steady s'.
Proof.
  intros Hs. assert (exists s' us, solo w t p s = Ok (s', us)) as (s' & us & E).
  { unfold solo. destruct Hs as [Hi H]. rewrite decide_False by done. case_decide; [|by do 2 eexists].
    destruct (new_value_total (w_sin w) (w_fuel w) (w_draws w t p) t s) as [[s1 v] ->]; [done|]. cbn [rbind]. by do 2 eexists. }
  exists s', us. split; [done|]. apply solo_facts in E as (E1 & _ & _ & E2 & E3 & _). unfold steady in *. by rewrite E1, E2, E3.
Qed.
Lemma run_sensor_total w t p s m : steady s -> exists s' m', run_sensor w t p s m = Ok (s', m') ∧ steady s'.
Proof.
  intros Hs. destruct (solo_total w t p s Hs) as (s' & us & E & H'). unfold solo in E. unfold run_sensor.
  destruct (decide (s_interval s = 0)); [done|]. destruct (decide _); [|injection E as <- _; by do 2 eexists].
  destruct (new_value _ _ _ _ _) as [[s1 v]| |]; cbn [rbind] in E |- *; [|done|done]. injection E as <- _. by do 2 eexists.
Qed.
Definition all_steady (v : vehicle) : Prop := forall x, x ∈ concat v -> steady (snd x).
Lemma run_map_total w t g m : (forall x, x ∈ g -> steady (snd x)) ->
  exists g' m', run_map w t g m = Ok (g', m') ∧ forall x, x ∈ g' -> steady (snd x).
Proof.
  revert m. induction g as [|[p s] g IH]; intros m H; cbn [run_map].
  - do 2 eexists. split; [done|]. by intros x ?%elem_of_nil.
  - destruct (run_sensor_total w t p s m) as (s' & m1 & -> & Hs'); [apply (H (p, s)); by left|]. cbn [rbind fst snd].
    destruct (IH m1) as (g' & m2 & -> & Hg'); [intros x Hx; apply H; by right|]. cbn [rbind fst snd].
    do 2 eexists. split; [done|]. intros x [->|Hx]%elem_of_cons; [done|auto].
Qed.
Lemma run_maps_total w t i v m : (forall i g, Permutation (w_order w t i g) g) -> all_steady v ->
  exists v' m', run_maps w t i v m = Ok (v', m') ∧ all_steady v'.
Proof.
  intros Ho. revert i m. induction v as [|g v IH]; intros i m H; cbn [run_maps].
  - do 2 eexists. split; [done|]. by intros x ?%elem_of_nil.
  - destruct (run_map_total w t (w_order w t i g) m) as (g' & m1 & -> & Hg').
    { intros x Hx. rewrite (Ho i g) in Hx. apply H. cbn. apply elem_of_app. by left. }
    cbn [rbind fst snd]. destruct (IH (S i) m1) as (v' & m2 & -> & Hv').
    { intros x Hx. apply H. cbn. apply elem_of_app. by right. }
    cbn [rbind fst snd]. do 2 eexists. split; [done|]. intros x [Hx|Hx]%elem_of_app; auto.
Qed.

(** ** Changes of the scenario *)
Definition table_ok (table : list (string * vss_sensor)) : Prop :=
  forall p x sc pt, alookup p table = Some x -> alookup sc (vs_patterns x) = Some pt ->
    pt ≠ "random_selection" ∧ (pt = "constant_with_noise" -> exists f, vs_default x = PNum f).
Lemma vss_table_ok : table_ok vss_sensors.
Proof.
  intros p x sc pt Hx Hp.
  assert (G : forallb (fun e : string * vss_sensor => forallb (fun k : string * string =>
    negb (String.eqb (snd k) "random_selection") &&
    (negb (String.eqb (snd k) "constant_with_noise") || match vs_default (snd e) with PNum _ => true | _ => false end)) (vs_patterns (snd e)))
    vss_sensors = true) by (vm_compute; reflexivity).
  rewrite forallb_forall in G. apply alookup_Some_in, elem_of_list_In in Hx. specialize (G _ Hx). rewrite forallb_forall in G.
  apply alookup_Some_in, elem_of_list_In in Hp. specialize (G _ Hp). cbn [fst snd] in G. apply andb_prop in G as [G1 G2]. split.
  - intros ->. done.
  - intros ->. cbn in G2. destruct (vs_default x); try done. by eexists.
Qed.
Lemma update_pattern_total table sc p s : table_ok table -> steady s -> exists s', update_pattern table sc p s = Ok s' ∧ steady s'.
Proof.
  intros Ht [Hi H]. unfold update_pattern. destruct (alookup p table) as [x|] eqn:Ex; [|by exists s].
  destruct (alookup sc (vs_patterns x)) as [pt|] eqn:Ep; [|by exists s]. destruct (Ht _ _ _ _ Ex Ep) as [Hr Hn].
  case_decide as E; [|by eexists; split; [done|]; split].
  destruct (Hn E) as [f Hf]. destruct (s_value s); cbn [rbind as_float]; rewrite ?Hf; cbn [rbind as_float];
    by eexists; (split; [done|]; split).
Qed.
Lemma update_map_total table sc g : table_ok table -> (forall x, x ∈ g -> steady (snd x)) ->
  exists g', update_map table sc g = Ok g' ∧ forall x, x ∈ g' -> steady (snd x).
Proof.
  intros Ht. induction g as [|[p s] g IH]; intros H; cbn [update_map].
  - eexists. split; [done|]. by intros x ?%elem_of_nil.
  - destruct (update_pattern_total table sc p s Ht) as (s' & -> & Hs); [apply (H (p, s)); by left|].
    destruct IH as (g' & -> & Hg); [intros x Hx; apply H; by right|]. cbn [rbind]. eexists. split; [done|].
    intros x [->|Hx]%elem_of_cons; auto.
Qed.
Lemma update_patterns_total table sc v : table_ok table -> all_steady v -> exists v', update_patterns table sc v = Ok v' ∧ all_steady v'.
Proof.
  intros Ht. induction v as [|g v IH]; intros H; cbn [update_patterns].
  - eexists. split; [done|]. by intros x ?%elem_of_nil.
  - destruct (update_map_total table sc g Ht) as (g' & -> & Hg); [intros x Hx; apply H; cbn; apply elem_of_app; by left|].
    destruct IH as (v' & -> & Hv); [intros x Hx; apply H; cbn; apply elem_of_app; by right|]. cbn [rbind]. eexists. split; [done|].
    intros x [Hx|Hx]%elem_of_app; auto.
Qed.
(** Sensors keep their kind under the settings. *)
Definition keeps_kind (f : sensor -> sensor) : Prop :=
  forall s, s_interval (f s) = s_interval s ∧ s_type (f s) = s_type s ∧ s_pattern (f s) = s_pattern s ∧ s_path (f s) = s_path s ∧ s_stamp (f s) = s_stamp s.
Lemma ainsert_in {V} k (y : V) g x : x ∈ ainsert k y g -> x = (k, y) ∨ x ∈ g.
Proof.
  induction g as [|[k' z] g IH]; cbn [ainsert]; [intros ->%elem_of_list_singleton; by left|].
  destruct (decide (k = k')) as [->|]; intros [->|H]%elem_of_cons; rewrite ?elem_of_cons; try (by auto).
  apply IH in H as [->|]; auto.
Qed.
Lemma with_sensor_in i p f v x : x ∈ concat (with_sensor i p f v) -> x ∈ concat v ∨ exists s, (p, s) ∈ concat v ∧ x = (p, f s).
Proof.
  unfold with_sensor. revert i. induction v as [|g v IH]; intros i; [by left|]. destruct i as [|i]; cbn; rewrite !elem_of_app.
  - intros [Hx|Hx]; [|by auto]. destruct (alookup p g) as [s|] eqn:E; [|by auto]. apply ainsert_in in Hx as [->|]; [|by auto].
    right. exists s. split; [|done]. apply elem_of_app. left. by apply alookup_Some_in.
  - intros [Hx|Hx]; [by auto|]. apply (IH i) in Hx as [|(s & Hs & ->)]; [by auto|]. right. exists s. rewrite elem_of_app. auto.
Qed.
Lemma with_sensor_steady i p f v : keeps_kind f -> all_steady v -> all_steady (with_sensor i p f v).
Proof.
  intros Hf H x [Hx|(s & Hs & ->)]%with_sensor_in; [auto|]. apply H in Hs. unfold steady in *. cbn [snd] in *.
  destruct (Hf s) as (-> & -> & -> & _). done.
Qed.
Lemma in_pattern_kind p f : keeps_kind f -> keeps_kind (in_pattern p f).
Proof. intros Hf s. unfold in_pattern. case_decide; auto. Qed.
Lemma compose_kind f g : keeps_kind f -> keeps_kind g -> keeps_kind (fun s => f (g s)).
Proof. intros Hf Hg s. destruct (Hf (g s)) as (-> & -> & -> & -> & ->), (Hg s) as (-> & -> & -> & -> & ->). done. Qed.
Ltac kind := repeat first [apply in_pattern_kind | intros ?; repeat split; fail].
Definition kinds_kept (fs : list setting) : Prop := Forall (fun f => keeps_kind (st_change f)) fs.
Definition scenario_settings (sc : string) (d : draws) : list setting :=
  if decide (sc = "urban_traffic") then urban_settings d
  else if decide (sc = "highway_cruising") then highway_settings d
  else if decide (sc = "battery_charging") then charging_settings d
  else [].
Lemma settings_list sc d v : settings sc d v = apply_settings (scenario_settings sc d) v.
Proof. unfold settings, scenario_settings. by repeat case_decide. Qed.
Lemma settings_kinds sc d : kinds_kept (scenario_settings sc d).
Proof.
  unfold scenario_settings, kinds_kept. repeat case_decide; unfold urban_settings, highway_settings, charging_settings;
    repeat (apply List.Forall_cons); try apply List.Forall_nil; cbn [st_change]; kind.
  all: try (by apply (compose_kind (in_pattern _ _)); kind). all: try (by unfold noisy; apply (compose_kind (in_pattern _ _)); kind).
  apply (compose_kind (in_pattern _ _)); [kind|]. intros s. destruct (s_value s) as [|x|]; try done. by destruct (SFleb x fz).
Qed.
Lemma settings_all (P : vehicle -> Prop) sc d v :
  (forall i p f v, keeps_kind f -> P v -> P (with_sensor i p f v)) -> P v -> P (settings sc d v).
Proof.
  intros HP. rewrite settings_list. unfold apply_settings. pose proof (settings_kinds sc d) as H. revert v.
  induction H as [|f fs Hf _ IH]; intros v Hv; [done|]. cbn [fold_left]. auto.
Qed.
Lemma settings_steady sc d v : all_steady v -> all_steady (settings sc d v).
Proof. apply settings_all. intros. by apply with_sensor_steady. Qed.
Lemma switch_total w t m : all_steady (m_vehicle m) -> exists m', switch w t m = Ok m' ∧ all_steady (m_vehicle m').
Proof.
  intros H. unfold switch. destruct (m_scenario m) as [st|]; [|by exists m]. unfold update_state.
  destruct (_ <? cooldown); [cbn [rbind]; by eexists|]. destruct (if decide (ss_current st = "urban_traffic") then _ else _) as [cur prev].
  destruct (decide _); [cbn [rbind]; by eexists|]. unfold apply_mixed.
  destruct (update_patterns_total vss_sensors cur (m_vehicle m) vss_table_ok H) as (v1 & -> & H1). cbn [rbind]. eexists. split; [done|].
  cbn [m_vehicle]. by apply settings_steady.
Qed.
Lemma run_times_total w ts m : (forall t i g, Permutation (w_order w t i g) g) -> all_steady (m_vehicle m) -> exists m', run_times w ts m = Ok m'.
Proof.
  intros Ho. revert m. induction ts as [|t ts IH]; intros m H; cbn [run_times]; [by eexists|]. unfold tick.
  destruct (switch_total w t m H) as (m1 & -> & H1). cbn [rbind].
  destruct (run_maps_total w t 0 (m_vehicle (record t m1)) (record t m1) (Ho t) H1) as (v' & m2 & -> & H2). cbn [rbind fst snd].
  by apply IH.
Qed.
Lemma take_concat {A} n (v : list (list A)) x : x ∈ concat (take n v) -> x ∈ concat v.
Proof.
  revert n. induction v as [|g v IH]; intros [|n]; cbn; try done; [by intros ?%elem_of_nil|]. rewrite !elem_of_app. intros [|]; eauto.
Qed.
Definition planned (sec : Z) (xs : smap) : Z := foldr (fun x n => n + Z.quot (sec * 1000) (s_interval (snd x))) 0 xs.
Lemma expected_total v sec : all_steady v -> expected_count v sec = Ok (planned sec (concat (take 5 v))).
Proof.
  intros H. unfold expected_count. assert (G : forall x, x ∈ concat (take 5 v) -> s_interval (snd x) ≠ 0).
  { intros x Hx. apply take_concat, H in Hx. apply Hx. }
  induction (concat (take 5 v)) as [|x xs IH]; [done|]. cbn [foldr planned]. rewrite IH by (intros y Hy; apply G; by right). cbn [rbind].
  rewrite decide_False; [done|]. apply G. by left.
Qed.
Lemma simulate_total w v sc sec inc : orders_ok w -> separate v -> all_steady v -> exists m, simulate w v sc sec inc = Ok m.
Proof.
  intros Ho Hs Hv. unfold simulate. destruct (start_leaves w v sc Ho Hs) as (m & E & _). rewrite E. cbn [rbind].
  rewrite (expected_total v sec Hv). cbn [rbind]. apply start_zero in E as (V & _). apply run_times_total; [apply Ho|by rewrite V].
Qed.

(** ** The vehicle of an experiment *)
Definition made (sc : string) (now : string -> Z) (e : string * vss_sensor) : string * sensor :=
  let pattern := default "constant" (alookup sc (vs_patterns (snd e))) in
  let base := if decide (pattern = "constant_with_noise") then match vs_default (snd e) with PNum f => f | _ => fz end else fz in
  (fst e, Sensor (fst e) (vs_default (snd e)) (vs_type (snd e)) (now (fst e)) (vs_interval (snd e)) pattern
     (pattern_params (snd e) (init_slope sc (fst e)) base pattern) 0).
Lemma put_sensor_perm i p s v : (i < length v)%nat -> p ∉ akeys (concat v) -> Permutation (concat (put_sensor i p s v)) ((p, s) :: concat v).
Proof.
  unfold put_sensor. revert i. induction v as [|g v IH]; intros i Hi Hp; cbn in Hi; [lia|]. unfold akeys in Hp. cbn [concat] in Hp.
  rewrite map_app in Hp. rewrite not_elem_of_app in Hp. destruct Hp as [Hg Hp]. destruct i as [|i].
  - cbn. rewrite ainsert_notin by done. rewrite <- app_assoc. cbn. by rewrite Permutation_middle.
  - change (concat (alter (ainsert p s) (S i) (g :: v))) with (g ++ concat (alter (ainsert p s) i v)). rewrite IH; [|lia|done].
    cbn. by rewrite Permutation_middle.
Qed.
Definition table_good (sc : string) (table : list (string * vss_sensor)) : Prop :=
  NoDup (akeys table) ∧ forall e, e ∈ table -> default "constant" (alookup sc (vs_patterns (snd e))) = "constant_with_noise" -> exists f, vs_default (snd e) = PNum f.
Lemma init_all_perm sc now table v : table_good sc table -> length v = 6%nat -> (forall e, e ∈ table -> fst e ∉ akeys (concat v)) ->
  exists v', init_all sc now table v = Ok v' ∧ Permutation (concat v') (map (made sc now) table ++ concat v) ∧ length v' = 6%nat.
Proof.
  revert v. induction table as [|[p x] table IH]; intros v [Hnd Hc] Hl Hp; cbn [init_all]; [by exists v|].
  cbn [akeys map fst] in Hnd. apply NoDup_cons in Hnd as [Hpt Hnd].
  assert (E : init_sensor sc (now p) p x = Ok (snd (made sc now (p, x)))).
  { unfold init_sensor, made. cbn [fst snd]. case_decide as Ed; [|done]. destruct (Hc (p, x)) as [f Ef]; [by left|done|]. cbn [snd] in Ef.
    by rewrite Ef. }
  rewrite E. cbn [rbind].
  assert (P : Permutation (concat (put_sensor (map_index (vs_category x)) p (snd (made sc now (p, x))) v)) (made sc now (p, x) :: concat v)).
  { apply put_sensor_perm; [rewrite Hl; destruct (vs_category x); cbn; lia|]. apply (Hp (p, x)). by left. }
  destruct (IH (put_sensor (map_index (vs_category x)) p (snd (made sc now (p, x))) v)) as (v' & -> & P' & Hl').
  - split; [done|]. intros e He. apply Hc. by right.
  - unfold put_sensor. by rewrite alter_length.
  - intros e He Hin. unfold akeys in Hin. rewrite P in Hin. cbn [map] in Hin. apply elem_of_cons in Hin as [E'|Hin].
    + apply Hpt. cbn [fst made] in E'. rewrite <- E'. apply elem_of_list_fmap. by exists e.
    + revert Hin. apply (Hp e). by right.
  - exists v'. split; [done|]. split; [|done]. rewrite P', P. cbn [map app]. by rewrite Permutation_middle.
Qed.
