(** When the sensors of a run are updated, whatever the scenario does. *)
From Verif Require Import Base BaseSpec F64 Tson Bytes Vss Sensor Scenario Sim SimSpec SimTrace SimLemmas.

(** The sensors with their intervals. *)
Definition shape (g : smap) : list (string * Z) := map (fun x => (fst x, s_interval (snd x))) g.
Definition shapes (v : vehicle) : list (list (string * Z)) := map shape v.
Lemma shape_concat v : shape (concat v) = concat (shapes v).
Proof. unfold shape, shapes. by rewrite concat_map. Qed.
Lemma shape_keys g : map fst (shape g) = akeys g.
Proof. unfold shape, akeys. by rewrite map_map. Qed.

(** ** Scenario changes keep it *)
Lemma ainsert_shape path s s' g : alookup path g = Some s -> s_interval s' = s_interval s -> shape (ainsert path s' g) = shape g.
Proof.
  intros H E. induction g as [|[k x] g IH]; [done|]. cbn [alookup] in H. cbn [ainsert]. destruct (decide (path = k)) as [->|Hne].
  - injection H as ->. cbn. by rewrite E.
  - cbn [shape map fst snd]. f_equal. by apply IH.
Qed.
Definition keeps (f : sensor -> sensor) : Prop := forall s, s_interval (f s) = s_interval s.
Lemma with_sensor_shapes i path f v : keeps f -> shapes (with_sensor i path f v) = shapes v.
Proof.
  intros Hf. unfold with_sensor. revert i. induction v as [|g v IH]; intros i; [done|]. destruct i as [|i].
  - cbn. f_equal. destruct (alookup path g) as [s|] eqn:E; [|done]. apply (ainsert_shape path s); auto.
  - change (shape g :: shapes (with_sensor i path f v) = shape g :: shapes v). f_equal. apply IH.
Qed.
Lemma apply_settings_shapes fs v : Forall (fun f => keeps (st_change f)) fs -> shapes (apply_settings fs v) = shapes v.
Proof.
  intros H. unfold apply_settings. revert v. induction H as [|f fs Hf _ IH]; intros v; [done|]. cbn [fold_left]. by rewrite IH, with_sensor_shapes.
Qed.
Lemma in_pattern_keeps p f : keeps f -> keeps (in_pattern p f).
Proof. intros Hf s. unfold in_pattern. case_decide; auto. Qed.
Lemma settings_shapes sc d v : shapes (settings sc d v) = shapes v.
Proof.
  unfold settings. repeat case_decide; try done; unfold urban_settings, highway_settings, charging_settings;
    apply apply_settings_shapes; repeat (apply List.Forall_cons); try apply List.Forall_nil; cbn [st_change]; try (by apply in_pattern_keeps; intros s);
    intros s; unfold noisy, in_pattern; repeat case_decide; try done.
  all: cbn [s_value]; destruct (s_value s) as [|x|]; try done; by destruct (SFleb x fz).
Qed.
Lemma update_pattern_keeps table sc p s s' : update_pattern table sc p s = Ok s' ->
  s_interval s' = s_interval s ∧ s_type s' = s_type s ∧ s_value s' = s_value s ∧ s_stamp s' = s_stamp s ∧ s_path s' = s_path s.
Proof.
  unfold update_pattern. destruct (alookup p table) as [x|]; [|by intros [= <-]].
  destruct (alookup sc (vs_patterns x)) as [pt|]; [|by intros [= <-]].
  destruct (if decide (pt = "constant_with_noise") then _ else _) as [b| |]; cbn [rbind]; [|done|done]. by intros [= <-].
Qed.
Lemma update_map_shape table sc g g' : update_map table sc g = Ok g' -> shape g' = shape g.
Proof.
  revert g'. induction g as [|[p s] g IH]; intros g'; cbn [update_map]; [by intros [= <-]|].
  destruct (update_pattern table sc p s) as [s'| |] eqn:E; cbn [rbind]; [|done|done].
  destruct (update_map table sc g) as [r| |] eqn:E2; cbn [rbind]; [|done|done]. intros [= <-].
  cbn. apply update_pattern_keeps in E as [-> _]. f_equal. by apply IH.
Qed.
Lemma update_patterns_shapes table sc v v' : update_patterns table sc v = Ok v' -> shapes v' = shapes v.
Proof.
  revert v'. induction v as [|g v IH]; intros v'; cbn [update_patterns]; [by intros [= <-]|].
  destruct (update_map table sc g) as [g'| |] eqn:E; cbn [rbind]; [|done|done].
  destruct (update_patterns table sc v) as [r| |] eqn:E2; cbn [rbind]; [|done|done]. intros [= <-].
  cbn. rewrite (update_map_shape _ _ _ _ E). f_equal. by apply IH.
Qed.
Lemma update_state_shapes table d t v st st' v' c : update_state table d t v st = Ok (st', v', c) -> shapes v' = shapes v.
Proof.
  unfold update_state. intros H. destruct (_ <? cooldown); [by injection H as _ <- _|].
  destruct (if decide (ss_current st = "urban_traffic") then _ else _) as [cur prev].
  destruct (decide _); [by injection H as _ <- _|]. unfold apply_mixed in H.
  destruct (update_patterns table cur v) as [v1| |] eqn:E; cbn [rbind] in H; [|done|done]. injection H as _ <- _.
  rewrite settings_shapes. by apply update_patterns_shapes in E.
Qed.
Lemma switch_shapes w t m m' : switch w t m = Ok m' -> shapes (m_vehicle m') = shapes (m_vehicle m).
Proof.
  unfold switch. destruct (m_scenario m) as [st|]; [|by intros [= <-]].
  destruct (update_state _ _ _ _ _) as [[[st' v'] c]| |] eqn:E; cbn [rbind]; intros H; [|done|done].
  injection H as <-. by apply update_state_shapes in E.
Qed.

(** ** The times *)
Lemma solos_shape w t xs rs : solos w t xs rs -> shape (renew xs rs) = shape xs.
Proof.
  unfold renew, shape. induction 1 as [|[p s] [s' us] xs rs H _ IH]; [done|]. cbn [map zip zip_with fst snd].
  apply solo_facts in H as [H _]. cbn [fst snd] in H. rewrite H. f_equal. done.
Qed.
Lemma shape_permutation xs ys : Permutation xs ys -> Permutation (shape xs) (shape ys).
Proof. apply Permutation_map. Qed.

Lemma tick_times w t m m' : tick w t m = Ok m' -> (forall i g, Permutation (w_order w t i g) g) ->
  NoDup (akeys (concat (m_vehicle m))) ->
  exists us, after m us m' ∧ Permutation (shape (concat (m_vehicle m'))) (shape (concat (m_vehicle m))) ∧
    Forall (fun u => u_time u = t ∧ u_path u ∈ akeys (concat (m_vehicle m))) us ∧
    (forall p i, (p, i) ∈ shape (concat (m_vehicle m)) -> i ≠ 0 ∧ map u_time (List.filter (on p) us) = List.filter (due i) [t]) ∧
    m_times m' = m_times (record t m) ∧ m_jcounts m' = m_jcounts (record t m) ∧ m_tcounts m' = m_tcounts (record t m).
Proof.
  unfold tick. intros H Ho Hnd. destruct (switch w t m) as [m0| |] eqn:E0; cbn [rbind] in H; [|done|done].
  destruct (run_maps w t 0 _ _) as [[v' m1]| |] eqn:E; cbn [rbind fst snd] in H; [|done|done].
  injection H as <-. apply run_maps_solo in E as (xs & rs & P & S & C & A & F & F2 & F3 & F4 & F5 & F6 & F7); [|done].
  assert (Hs : shape (concat (m_vehicle m0)) = shape (concat (m_vehicle m))).
  { rewrite !shape_concat. f_equal. by apply switch_shapes in E0. }
  change (m_vehicle (record t m0)) with (m_vehicle m0) in P.
  assert (Hk : Permutation (akeys xs) (akeys (concat (m_vehicle m)))).
  { rewrite <- !shape_keys, <- Hs. apply Permutation_map. by apply shape_permutation. }
  exists (concat (map snd rs)).
  split. { rewrite <- (app_nil_l (concat _)). eapply after_trans; [by eapply after_switch|].
           rewrite <- (app_nil_l (concat _)). eapply after_trans; [apply (after_record t)|].
           rewrite <- (app_nil_r (concat _)). eapply after_trans; [done|]. apply after_vehicle. }
  split. { cbn [m_vehicle set_vehicle]. rewrite C, (solos_shape _ _ _ _ S), <- Hs. by apply shape_permutation. }
  split. { rewrite List.Forall_forall. intros u Hu%elem_of_list_In. apply (solos_paths _ _ _ _ S) in Hu as [Hu ->]. split; [done|].
           by rewrite Hk in Hu. }
  split.
  { intros p i Hin. rewrite <- Hs in Hin. rewrite <- (shape_permutation _ _ P) in Hin.
    apply elem_of_list_fmap in Hin as ([q s] & [= -> ->] & Hin).
    destruct (solos_project w t xs rs q s S) as (s' & E1 & _); [by rewrite Hk|done|].
    apply solo_facts in E1 as (_ & ? & _ & _ & _ & _ & E1 & _). done. }
  apply after_switch in E0 as G. cbn [m_times m_jcounts m_tcounts set_vehicle]. rewrite F5, F6, F7. unfold record. cbn.
  destruct G. rewrite af_jp, af_tp. cbn. rewrite !app_nil_r.
  unfold switch in E0. destruct (m_scenario m) as [st|]; [|by injection E0 as <-].
  destruct (update_state _ _ _ _ _) as [[[st' v1] c]| |]; cbn [rbind] in E0; [|done|done]. by injection E0 as <-.
Qed.

(** The counts taken at the times divisible by 10000. *)
Definition marked (t : Z) : bool := Z.rem t 10000 =? 0.
Definition patches_before (us : list upd) (t : Z) : nat :=
  let us' := List.filter (fun u => u_time u <? t) us in (length us' + length (changed_only us'))%nat.
Definition changes_before (us : list upd) (t : Z) : nat :=
  length (changed_only (List.filter (fun u => u_time u <? t) us)).

Lemma run_times_times w ts m m' : run_times w ts m = Ok m' -> (forall t i g, Permutation (w_order w t i g) g) ->
  NoDup (akeys (concat (m_vehicle m))) -> StronglySorted Z.lt ts ->
  exists us, after m us m' ∧ Permutation (shape (concat (m_vehicle m'))) (shape (concat (m_vehicle m))) ∧
    Forall (fun u => u_time u ∈ ts ∧ u_path u ∈ akeys (concat (m_vehicle m))) us ∧
    (forall p i, (p, i) ∈ shape (concat (m_vehicle m)) -> (ts ≠ [] -> i ≠ 0) ∧ map u_time (List.filter (on p) us) = List.filter (due i) ts) ∧
    StronglySorted Z.le (map u_time us) ∧
    m_times m' = m_times m ++ List.filter marked ts ∧
    m_jcounts m' = m_jcounts m ++ map (fun t => length (m_jpatches m) + patches_before us t)%nat (List.filter marked ts) ∧
    m_tcounts m' = m_tcounts m ++ map (fun t => length (m_tpatches m) + changes_before us t)%nat (List.filter marked ts).
Proof.
  intros H Ho. revert m H. induction ts as [|t ts IH]; intros m H Hnd Hs; cbn [run_times] in H.
  - injection H as <-. exists []. cbn. rewrite !app_nil_r. split; [apply after_refl|]. repeat split; try done; constructor.
  - destruct (tick w t m) as [m1| |] eqn:E; cbn [rbind] in H; [|done|done]. inversion Hs as [|? ? Hs' Hlt]; subst.
    apply tick_times in E as (us & A & P & F & T & M1 & M2 & M3); [|done|done].
    assert (Hk : Permutation (akeys (concat (m_vehicle m1))) (akeys (concat (m_vehicle m)))).
    { rewrite <- !shape_keys. by apply Permutation_map. }
    apply IH in H as (us2 & A2 & P2 & F2 & T2 & S2 & N1 & N2 & N3); [|by rewrite Hk|done].
    exists (us ++ us2). split; [by eapply after_trans|]. split; [by rewrite P2|].
    rewrite List.Forall_forall in F, F2. rewrite List.Forall_forall in Hlt.
    split. { rewrite List.Forall_forall. intros u [Hu|Hu]%in_app_or.
             - destruct (F u Hu) as [-> ?]. split; [by left|done].
             - destruct (F2 u Hu) as [? Hu']. split; [by right|]. by rewrite Hk in Hu'. }
    split. { intros p i Hin. destruct (T p i Hin) as [Hi E1]. rewrite <- P in Hin. destruct (T2 p i Hin) as [_ E2].
             split; [done|]. rewrite List.filter_app, map_app, E1, E2. cbn [List.filter]. by destruct (due i t). }
    assert (Hlater : forall u, u ∈ us2 -> t < u_time u).
    { intros u Hu%elem_of_list_In. destruct (F2 u Hu) as [Hu' _]. apply Hlt. by apply elem_of_list_In. }
    assert (Hnow : forall u, u ∈ us -> u_time u = t). { intros u Hu%elem_of_list_In. by destruct (F u Hu). }
    split. { rewrite map_app. clear - S2 Hlater Hnow. induction us as [|u us IHu]; [done|]. cbn [map app]. constructor.
             - apply IHu. intros u' ?. apply Hnow. by right.
             - rewrite List.Forall_forall. intros x [Hx|Hx]%in_app_or; apply in_map_iff in Hx as (u' & <- & Hu%elem_of_list_In).
               + rewrite (Hnow u), (Hnow u'); [lia|by right|by left].
               + rewrite (Hnow u); [|by left]. apply Hlater in Hu. lia. }
    assert (Hb : forall x : Z, x ∈ ts -> List.filter (fun u => u_time u <? x) (us ++ us2) = us ++ List.filter (fun u => u_time u <? x) us2).
    { intros x Hx%elem_of_list_In. rewrite List.filter_app. f_equal. apply filter_all. rewrite List.Forall_forall. intros u Hu%elem_of_list_In.
      rewrite (Hnow u Hu). apply Z.ltb_lt. by apply Hlt. }
    assert (Hb0 : List.filter (fun u => u_time u <? t) (us ++ us2) = []).
    { apply filter_none. rewrite List.Forall_forall. intros u [Hu|Hu]%in_app_or; apply elem_of_list_In in Hu.
      - rewrite (Hnow u Hu). apply Z.ltb_ge. lia.
      - apply Z.ltb_ge. apply Hlater in Hu. lia. }
    destruct A. rewrite N1, N2, N3, M1, M2, M3, af_jp, af_tp. unfold record. cbn [m_times m_jcounts m_tcounts List.filter].
    fold (marked t).
    assert (Ej : forall ls : list Z, (forall x, x ∈ ls -> x ∈ ts) ->
      map (fun x => length (m_jpatches m ++ concat (map json_of us)) + patches_before us2 x)%nat ls =
      map (fun x => length (m_jpatches m) + patches_before (us ++ us2) x)%nat ls).
    { intros ls Hls. apply map_ext_in. intros x Hx%elem_of_list_In. unfold patches_before. rewrite (Hb x (Hls x Hx)).
      rewrite app_length, json_length, changed_app, !app_length. lia. }
    assert (Et : forall ls : list Z, (forall x, x ∈ ls -> x ∈ ts) ->
      map (fun x => length (m_tpatches m ++ map set_of (changed_only us)) + changes_before us2 x)%nat ls =
      map (fun x => length (m_tpatches m) + changes_before (us ++ us2) x)%nat ls).
    { intros ls Hls. apply map_ext_in. intros x Hx%elem_of_list_In. unfold changes_before. rewrite (Hb x (Hls x Hx)).
      rewrite changed_app, !app_length, map_length. lia. }
    assert (Hf : forall x, x ∈ List.filter marked ts -> x ∈ ts).
    { intros x Hx%elem_of_list_In. apply List.filter_In in Hx as [Hx _]. by apply elem_of_list_In. }
    rewrite (Ej _ Hf), (Et _ Hf). destruct (marked t); cbn [map]; [|done].
    unfold patches_before at 2, changes_before at 2. rewrite Hb0. cbn [length changed_only List.filter]. rewrite !Nat.add_0_r, <- !app_assoc.
    done.
Qed.
