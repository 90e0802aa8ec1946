(** Where the sensors of the experiments are and what they start with. *)
From Verif Require Import Base BaseSpec BaseLemmas F64 Tson Bytes TjsonSpec TjsonLemmas Vss Sensor Scenario Sim SimSpec SimTrace SimLemmas SimTimes SimDocs SimFinal SimInit.

Definition get (i : nat) (p : string) (v : vehicle) : option sensor :=
  match v !! i with Some g => alookup p g | None => None end.
Lemma look_alter (f : smap -> smap) i (v : vehicle) : alter f i v !! i = f <$> v !! i.
Proof. apply list_lookup_alter. Qed.
Lemma look_alter_ne (f : smap -> smap) i j (v : vehicle) : i ≠ j -> alter f i v !! j = v !! j.
Proof. apply list_lookup_alter_ne. Qed.
Lemma get_with i p j q f v : get i p (with_sensor j q f v) = if decide (i = j ∧ p = q) then f <$> get i p v else get i p v.
Proof.
  unfold get, with_sensor. destruct (decide (i = j)) as [->|Hij].
  - rewrite look_alter. destruct (v !! j) as [g|]; cbn; [|by case_decide]. destruct (decide (p = q)) as [->|Hpq].
    + rewrite decide_True by done. destruct (alookup q g) as [s|] eqn:E; [by rewrite alookup_ainsert_eq|by rewrite E].
    + rewrite decide_False by tauto. destruct (alookup q g); [by rewrite alookup_ainsert_ne|done].
  - rewrite look_alter_ne by done. by rewrite decide_False by tauto.
Qed.
Definition change_at (i : nat) (p : string) (fs : list setting) (s : sensor) : sensor :=
  fold_left (fun s f => if decide (i = st_map f ∧ p = st_path f) then st_change f s else s) fs s.
Lemma get_settings i p fs v : get i p (apply_settings fs v) = change_at i p fs <$> get i p v.
Proof.
  unfold apply_settings, change_at. revert v. induction fs as [|f fs IH]; intros v; cbn [fold_left]; [by destruct (get i p v)|].
  rewrite IH, get_with. case_decide; by destruct (get i p v).
Qed.
Lemma update_map_lookup table sc g g' p : update_map table sc g = Ok g' ->
  match alookup p g with Some s => exists s', update_pattern table sc p s = Ok s' ∧ alookup p g' = Some s' | None => alookup p g' = None end.
Proof.
  revert g'. induction g as [|[q s] g IH]; intros g'; cbn [update_map]; [by intros [= <-]|].
  destruct (update_pattern table sc q s) as [s'| |] eqn:E; cbn [rbind]; [|done|done].
  destruct (update_map table sc g) as [r| |] eqn:E2; cbn [rbind]; [|done|done]. intros [= <-]. cbn [alookup].
  destruct (decide (p = q)) as [->|Hne]; [by exists s'|]. by apply IH.
Qed.
Lemma get_update table sc v v' i p : update_patterns table sc v = Ok v' ->
  match get i p v with Some s => exists s', update_pattern table sc p s = Ok s' ∧ get i p v' = Some s' | None => get i p v' = None end.
Proof.
  revert v' i. induction v as [|g v IH]; intros v' i; cbn [update_patterns]; [by intros [= <-]; destruct i|].
  destruct (update_map table sc g) as [g'| |] eqn:E; cbn [rbind]; [|done|done].
  destruct (update_patterns table sc v) as [r| |] eqn:E2; cbn [rbind]; [|done|done]. intros [= <-]. destruct i as [|i].
  - by apply update_map_lookup.
  - by apply (IH r i).
Qed.

(** ** The maps after the initialization *)
Lemma init_all_maps sc now table v v' : NoDup (akeys table) -> (forall e, e ∈ table -> fst e ∉ akeys (concat v)) ->
  table_good sc table -> length v = 6%nat -> init_all sc now table v = Ok v' ->
  forall i g, v !! i = Some g -> exists g', v' !! i = Some g' ∧
    Permutation g' (map (made sc now) (filter (fun e => map_index (vs_category (snd e)) = i) table) ++ g).
Proof.
  revert v. induction table as [|[p x] table IH]; intros v Hnd Hp [_ Hc] Hl; cbn [init_all].
  { intros [= <-] i g Hg. by exists g. }
  cbn [akeys map fst] in Hnd. apply NoDup_cons in Hnd as [Hpt Hnd].
  assert (E : init_sensor sc (now p) p x = Ok (snd (made sc now (p, x)))).
  { unfold init_sensor, made. cbn [fst snd]. case_decide as Ed; [|done]. destruct (Hc (p, x)) as [f Ef]; [by left|done|]. cbn [snd] in Ef.
    by rewrite Ef. }
  rewrite E. cbn [rbind]. set (v1 := put_sensor _ _ _ v). intros H i g Hg.
  assert (P : Permutation (concat v1) (made sc now (p, x) :: concat v)).
  { apply put_sensor_perm; [rewrite Hl; destruct (vs_category x); cbn; lia|]. apply (Hp (p, x)). by left. }
  rewrite filter_cons. cbn [snd].
  assert (Hgp : p ∉ akeys g).
  { intros Hin. apply (Hp (p, x)); [by left|]. apply elem_of_list_fmap in Hin as (y & -> & Hy). apply elem_of_list_fmap. exists y. split; [done|].
    apply elem_of_list_In, in_concat. exists g. split; apply elem_of_list_In; [by eapply elem_of_list_lookup_2|done]. }
  destruct (IH v1) with (i := i) (g := if decide (map_index (vs_category x) = i) then g ++ [made sc now (p, x)] else g) as (g' & Hg' & Pg).
  - done.
  - intros e He Hin. unfold akeys in Hin. rewrite P in Hin. cbn [map] in Hin. apply elem_of_cons in Hin as [E'|Hin].
    + apply Hpt. cbn [fst made] in E'. rewrite <- E'. apply elem_of_list_fmap. by exists e.
    + revert Hin. apply (Hp e). by right.
  - split; [done|]. intros e He. apply Hc. by right.
  - unfold v1, put_sensor. by rewrite alter_length.
  - done.
  - unfold v1, put_sensor. destruct (decide (map_index (vs_category x) = i)) as [->|Hne].
    + rewrite look_alter, Hg. cbn. by rewrite ainsert_notin.
    + by rewrite look_alter_ne.
  - exists g'. split; [done|]. rewrite Pg. case_decide; [|done]. cbn [map app]. rewrite app_assoc. apply Permutation_app_comm.
Qed.

Lemma filter_keys {V} (f : string * V -> Prop) `{forall x, Decision (f x)} l : NoDup (map fst l) -> NoDup (map (fun x => fst x) (filter f l)).
Proof.
  induction l as [|x l IH]; [done|]. cbn [map]. intros [Hx Hl]%NoDup_cons. rewrite filter_cons. case_decide; [|auto]. cbn [map].
  constructor; [|auto]. intros Hin. apply Hx. apply elem_of_list_fmap in Hin as (y & -> & [_ Hy]%elem_of_list_filter).
  apply elem_of_list_fmap. by exists y.
Qed.
Lemma table_nodup : NoDup (akeys vss_sensors).
Proof. apply (bool_decide_unpack _). vm_compute. exact I. Qed.
Lemma table_good_all sc : table_good sc vss_sensors.
Proof.
  split; [apply table_nodup|]. intros [p x] Hin Hd. cbn [snd] in *.
  destruct (alookup sc (vs_patterns x)) as [pt|] eqn:E; cbn in Hd; [|done]. subst.
  apply (vss_table_ok p x sc _) in E as [_ E]; [auto|]. apply alookup_in; [apply table_nodup|done].
Qed.
Lemma table_good_perm sc table : Permutation table vss_sensors -> table_good sc table.
Proof.
  intros P. destruct (table_good_all sc) as [H1 H2]. split; [unfold akeys; by rewrite P|]. intros e He. apply H2. by rewrite <- P.
Qed.

(** What an experiment starts with at a path of the table. *)
Definition updated (sc : string) (e : string * vss_sensor) (s : sensor) : sensor :=
  match update_pattern vss_sensors sc (fst e) s with Ok s' => s' | _ => s end.
Definition actual (sc : string) : string := if decide (sc = "mixed_scenario") then "urban_traffic" else sc.
Definition level (sc : string) (d : draws) (e : string * vss_sensor) (s : sensor) : sensor :=
  if decide (sc = "battery_charging" ∧ fst e = soc) then set_value (PNum (spread 20 20 (d_float d 0))) s else s.
Definition first_sensor (sc : string) (now : string -> Z) (d : draws) (e : string * vss_sensor) : sensor :=
  change_at (map_index (vs_category (snd e))) (fst e) (scenario_settings (actual sc) d)
    (level sc d e (updated (actual sc) e (snd (made sc now e)))).

Lemma shapes_length (v v' : vehicle) : shapes v = shapes v' -> length v = length v'.
Proof. intros E. apply (f_equal length) in E. unfold shapes in E. by rewrite !map_length in E. Qed.
Lemma shapes_get v v' i p : shapes v = shapes v' -> is_Some (get i p v) <-> is_Some (get i p v').
Proof.
  intros E. unfold get. assert (G : shape <$> (v !! i) = shape <$> (v' !! i)).
  { rewrite <- !list_lookup_fmap. by apply (f_equal (lookup i)) in E. }
  destruct (v !! i) as [g|], (v' !! i) as [g'|]; cbn in G; try done. injection G as G.
  apply (f_equal (map fst)) in G. rewrite !shape_keys in G.
  split; intros [s Hs]; apply alookup_Some_in in Hs.
  - destruct (alookup p g') eqn:E'; [by eexists|]. apply alookup_None_iff in E'. rewrite <- G in E'. destruct E'. apply elem_of_list_fmap. by exists (p, s).
  - destruct (alookup p g) eqn:E'; [by eexists|]. apply alookup_None_iff in E'. rewrite G in E'. destruct E'. apply elem_of_list_fmap. by exists (p, s).
Qed.
Lemma get_in v p s : (exists i, get i p v = Some s) -> (p, s) ∈ concat v.
Proof.
  intros [i H]. unfold get in H. destruct (v !! i) as [g|] eqn:E; [|done]. apply alookup_Some_in in H. apply elem_of_list_In, in_concat.
  exists g. split; apply elem_of_list_In; [by eapply elem_of_list_lookup_2|done].
Qed.
Lemma in_get v p s : NoDup (akeys (concat v)) -> (p, s) ∈ concat v -> exists i, get i p v = Some s.
Proof.
  intros Hnd Hin. apply elem_of_list_In, in_concat in Hin as (g & Hg & Hs). apply elem_of_list_In in Hg, Hs.
  apply elem_of_list_lookup_1 in Hg as [i Hi]. exists i. unfold get. rewrite Hi. apply alookup_in; [|done].
  clear - Hnd Hi. revert i Hi. induction v as [|g' v IH]; intros [|i]; cbn; intros Hi; try done.
  - injection Hi as ->. unfold akeys in *. cbn in Hnd. rewrite map_app in Hnd. by apply NoDup_app in Hnd as [? _].
  - apply (IH) with (i := i); [|done]. unfold akeys in *. cbn in Hnd. rewrite map_app in Hnd. by apply NoDup_app in Hnd as (_ & _ & ?).
Qed.

Lemma soc_index x : alookup soc vss_sensors = Some x -> map_index (vs_category x) = 1%nat.
Proof. vm_compute. by intros [= <-]. Qed.
Lemma init_vehicle_spec ord now sc d : Permutation (ord vss_sensors) vss_sensors ->
  exists v, init_vehicle ord now sc d = Ok v ∧ length v = 6%nat ∧ all_steady v ∧
    Permutation (shape (concat v)) (map (fun e => (fst e, vs_interval (snd e))) vss_sensors) ∧
    (forall i g, v !! i = Some g -> Permutation (shape g) (map (fun e => (fst e, vs_interval (snd e)))
       (filter (fun e => map_index (vs_category (snd e)) = i) vss_sensors))) ∧
    (forall e, e ∈ vss_sensors -> get (map_index (vs_category (snd e))) (fst e) v = Some (first_sensor sc now d e)).
Proof.
  intros P. unfold init_vehicle. pose proof (table_good_perm sc _ P) as Hg.
  assert (N0 : akeys (concat (replicate 6 ([] : smap))) = []) by done.
  assert (Hfresh : forall e, e ∈ ord vss_sensors -> fst e ∉ akeys (concat (replicate 6 ([] : smap)))).
  { intros e _. rewrite N0. by intros ?%elem_of_nil. }
  destruct (init_all_perm sc now (ord vss_sensors) (replicate 6 [])) as (v0 & E0 & P0 & L0); [done|done|done|].
  rewrite E0. cbn [rbind]. pose proof (init_all_maps sc now _ _ _ (proj1 Hg) Hfresh Hg eq_refl E0) as M.
  assert (S0 : all_steady v0).
  { intros x Hx. rewrite P0 in Hx. apply elem_of_app in Hx as [Hx|Hx]; [|by apply elem_of_nil in Hx].
    apply elem_of_list_fmap in Hx as ([p y] & -> & He). rewrite P in He.
    assert (G : forallb (fun e : string * vss_sensor => negb (vs_interval (snd e) =? 0)) vss_sensors = true) by (vm_compute; reflexivity).
    rewrite forallb_forall in G. apply elem_of_list_In in He. pose proof (G _ He) as G1. cbn [snd] in G1. split; cbn [made fst snd s_interval s_type s_pattern].
    - intros E. by rewrite E in G1.
    - intros _ E. destruct (alookup sc (vs_patterns y)) as [pt|] eqn:Ep; cbn in E; [|done].
      apply (vss_table_ok p y sc pt) in Ep as [? _]; [done|]. apply alookup_in; [apply table_nodup|by apply elem_of_list_In]. }
  unfold apply_scenario. fold (actual sc).
  destruct (update_patterns_total vss_sensors (actual sc) v0 vss_table_ok S0) as (v1 & E1 & S1). rewrite E1. cbn [rbind].
  set (v2 := if decide (sc = "battery_charging") then _ else v1). eexists. split; [done|].
  assert (Sh2 : shapes v2 = shapes v0).
  { rewrite <- (update_patterns_shapes _ _ _ _ E1). unfold v2. case_decide; [|done]. by apply with_sensor_shapes. }
  assert (S2 : all_steady v2). { unfold v2. case_decide; [|done]. by apply with_sensor_steady. }
  assert (Sh3 : shapes (settings (actual sc) d v2) = shapes v0). { by rewrite settings_shapes. }
  split. { rewrite (shapes_length _ _ Sh3). done. }
  split. { by apply settings_steady. }
  split. { rewrite shape_concat, Sh3, <- shape_concat. etransitivity; [exact (shape_permutation _ _ P0)|].
           change (concat (replicate 6 ([] : smap))) with ([] : smap). rewrite app_nil_r. unfold shape. by rewrite map_map, P. }
  split.
  { intros i g Hgi. assert (Hl : v0 !! i = None ∨ exists g0, v0 !! i = Some g0 ∧ shape g = shape g0).
    { apply (f_equal (lookup i)) in Sh3. unfold shapes in Sh3. rewrite !list_lookup_fmap, Hgi in Sh3.
      destruct (v0 !! i) as [g0|]; cbn in Sh3; [|done]. right. exists g0. split; [done|]. by injection Sh3. }
    assert (Hi : (i < 6)%nat). { rewrite <- L0, <- (shapes_length _ _ Sh3). by eapply lookup_lt_Some. }
    destruct Hl as [Hl|(g0 & Hl & ->)]; [apply lookup_ge_None in Hl; lia|].
    destruct (M i []) as (g' & Hg' & Pg); [by apply lookup_replicate_2|]. rewrite Hl in Hg'. injection Hg' as <-.
    rewrite app_nil_r, P in Pg. etransitivity; [exact (shape_permutation _ _ Pg)|]. unfold shape. by rewrite map_map. }
  intros e He. set (i := map_index (vs_category (snd e))).
  destruct (M i []) as (g' & Hg' & Pg); [apply lookup_replicate_2; unfold i; destruct (vs_category (snd e)); cbn; lia|].
  rewrite app_nil_r, P in Pg.
  assert (G0 : get i (fst e) v0 = Some (snd (made sc now e))).
  { unfold get. rewrite Hg'. apply alookup_in.
    - unfold akeys. rewrite Pg, map_map. cbn [made fst].
      apply filter_keys, table_nodup.
    - rewrite Pg. apply elem_of_list_fmap. exists e. split; [by destruct e|]. apply elem_of_list_filter. by split. }
  pose proof (get_update vss_sensors (actual sc) v0 v1 i (fst e) E1) as G1. rewrite G0 in G1. destruct G1 as (s1 & U1 & G1).
  assert (G2 : get i (fst e) v2 = Some (level sc d e s1)).
  { unfold v2, level. destruct (decide (sc = "battery_charging")) as [Eb|Eb]; [|by rewrite decide_False by tauto].
    rewrite get_with, G1. destruct (decide (fst e = soc)) as [Es|Es]; [|rewrite !decide_False by tauto; done].
    rewrite (decide_True (P := sc = _ ∧ _)) by done. rewrite decide_True; [done|]. split; [|done].
    assert (e = (soc, snd e)) as Ee by (destruct e; by cbn in Es; subst). rewrite Ee in He. apply alookup_in in He; [|apply table_nodup].
    by apply soc_index. }
  rewrite settings_list, get_settings, G2. cbn. f_equal. unfold first_sensor. fold i. f_equal. f_equal. unfold updated. by rewrite U1.
Qed.
