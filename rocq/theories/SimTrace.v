(** A run as the list of its updates: what they leave in the variables, and how they come from the
    sensors one by one. *)
From Verif Require Import Base F64 Tson Bytes Vss Sensor Scenario Sim.

(** One update of a sensor. *)
Record upd : Type := Upd { u_path : string; u_value : prim; u_time : Z; u_changed : bool }.
Definition set_of (u : upd) : spatch := SPatch (u_path u) (u_value u) (u_time u).
Definition json_of (u : upd) : list jpatch :=
  JPatch (u_path u +++ "/timestamp") (PTime (u_time u)) ::
  (if u_changed u then [JPatch (u_path u +++ "/value") (PVal (u_value u))] else []).
Definition changed_only (us : list upd) : list upd := List.filter u_changed us.
Definition json_after (us : list upd) (d : doc) : doc :=
  fold_left (fun d u => update_json (u_path u) (u_value u) (u_time u) d) us d.
Definition tson_after (us : list upd) (d : doc) : doc :=
  fold_left (fun d u => if u_changed u then update_tson (u_path u) (u_value u) (u_time u) d else d) us d.
Fixpoint timing_of (n : Z) (us : list upd) : list timing :=
  match us with
  | [] => []
  | u :: us' => Timing (n + 1) (u_time u) (u_path u) (u_changed u) :: timing_of (n + 1) us'
  end.
Definition count (us : list upd) : Z := Z.of_nat (length us).

Record after (m : run_state) (us : list upd) (m' : run_state) : Prop := After {
  af_json : m_json m' = json_after us (m_json m);
  af_tson : m_tson m' = tson_after us (m_tson m);
  af_jp : m_jpatches m' = m_jpatches m ++ concat (map json_of us);
  af_tp : m_tpatches m' = m_tpatches m ++ map set_of (changed_only us);
  af_sp : m_spatches m' = m_spatches m ++ map set_of us;
  af_updates : m_updates m' = m_updates m + count us;
  af_changes : m_changes m' = m_changes m + count (changed_only us);
  af_stamps : m_stamps m' = m_stamps m + (count us - count (changed_only us));
  af_timing : m_timing m' = m_timing m ++ timing_of (m_updates m) us }.

Lemma timing_app n us us' : timing_of n (us ++ us') = timing_of n us ++ timing_of (n + count us) us'.
Proof.
  revert n. induction us as [|u us IH]; intros n; cbn [app timing_of].
  - unfold count. simpl. by rewrite Z.add_0_r.
  - rewrite IH. f_equal. f_equal. unfold count. cbn [length]. f_equal. lia.
Qed.
Lemma changed_app us us' : changed_only (us ++ us') = changed_only us ++ changed_only us'.
Proof. unfold changed_only. apply List.filter_app. Qed.
Lemma count_app us us' : count (us ++ us') = count us + count us'.
Proof. unfold count. rewrite app_length. lia. Qed.

Lemma after_refl m : after m [] m.
Proof. split; simpl; rewrite ?app_nil_r; unfold count; simpl; try done; lia. Qed.
Lemma after_trans m us m' us' m'' : after m us m' -> after m' us' m'' -> after m (us ++ us') m''.
Proof.
  intros [] []. split.
  - unfold json_after in *. by rewrite fold_left_app, <- af_json0.
  - unfold tson_after in *. by rewrite fold_left_app, <- af_tson0.
  - by rewrite af_jp1, af_jp0, map_app, concat_app, app_assoc.
  - by rewrite af_tp1, af_tp0, changed_app, map_app, app_assoc.
  - by rewrite af_sp1, af_sp0, map_app, app_assoc.
  - rewrite af_updates1, af_updates0, count_app. lia.
  - rewrite af_changes1, af_changes0, changed_app, count_app. lia.
  - rewrite af_stamps1, af_stamps0, changed_app, !count_app. lia.
  - by rewrite af_timing1, af_timing0, af_updates0, timing_app, app_assoc.
Qed.
Lemma after_note u m : after m [u] (note_update (u_path u) (u_value u) (u_time u) (u_changed u) m).
Proof.
  destruct u as [p v t []]; split; cbn; rewrite ?app_nil_r; unfold count, changed_only; simpl; try done; lia.
Qed.
Lemma after_record t m : after m [] (record t m).
Proof. split; simpl; rewrite ?app_nil_r; unfold count; simpl; try done; lia. Qed.
Lemma after_vehicle v m : after m [] (set_vehicle v m).
Proof. split; simpl; rewrite ?app_nil_r; unfold count; simpl; try done; lia. Qed.
Lemma after_switch w t m m' : switch w t m = Ok m' -> after m [] m'.
Proof.
  unfold switch. destruct (m_scenario m) as [st|]; [|intros [= <-]; apply after_refl].
  destruct (update_state _ _ _ _ _) as [[[st' v'] c]| |]; cbn [rbind]; intros H; [|done|done].
  injection H as <-. split; simpl; rewrite ?app_nil_r; unfold count; simpl; try done; lia.
Qed.

(** ** A sensor by itself *)
Definition solo (w : world) (t : Z) (p : string) (s : sensor) : res (sensor * list upd) :=
  if decide (s_interval s = 0) then Panic
  else if decide (Z.rem t (s_interval s) = 0) then
    do r <- new_value (w_sin w) (w_fuel w) (w_draws w t p) t s;
    let '(s1, v) := r in
    let changed := negb (is_equal (s_value s) v) in
    Ok (set_stamp t (if changed then set_value v s1 else s1), [Upd p v t changed])
  else Ok (s, []).
(** The variables an update does not touch. *)
Definition frame (m m' : run_state) : Prop :=
  m_vehicle m' = m_vehicle m ∧ m_scenario m' = m_scenario m ∧ m_transitions m' = m_transitions m ∧
  m_rows m' = m_rows m ∧ m_times m' = m_times m ∧ m_jcounts m' = m_jcounts m ∧ m_tcounts m' = m_tcounts m.
Lemma frame_refl m : frame m m.
Proof. repeat split. Qed.
Lemma frame_trans m m' m'' : frame m m' -> frame m' m'' -> frame m m''.
Proof. unfold frame. intros (?&?&?&?&?&?&?) (?&?&?&?&?&?&?). repeat split; congruence. Qed.

Lemma run_sensor_solo w t p s m s' m' : run_sensor w t p s m = Ok (s', m') ->
  exists us, solo w t p s = Ok (s', us) ∧ after m us m' ∧ frame m m'.
Proof.
  unfold run_sensor, solo. destruct (decide (s_interval s = 0)); [done|].
  destruct (decide (Z.rem t (s_interval s) = 0)).
  - destruct (new_value _ _ _ _ _) as [[s1 v]| |]; cbn [rbind]; [|done|done].
    intros [= <- <-]. eexists. split; [done|]. split; [|repeat split].
    apply (after_note (Upd p v t (negb (is_equal (s_value s) v))) m).
  - intros [= <- <-]. exists []. split; [done|]. split; [apply after_refl|apply frame_refl].
Qed.

(** The sensors [xs] at the time [t], with what each gives. *)
Definition solos (w : world) (t : Z) (xs : smap) (rs : list (sensor * list upd)) : Prop :=
  Forall2 (fun x r => solo w t (fst x) (snd x) = Ok r) xs rs.
Definition renew (xs : smap) (rs : list (sensor * list upd)) : smap :=
  zip (map fst xs) (map fst rs).
Lemma run_map_solo w t g m g' m' : run_map w t g m = Ok (g', m') ->
  exists rs, solos w t g rs ∧ g' = renew g rs ∧ after m (concat (map snd rs)) m' ∧ frame m m'.
Proof.
  revert m g' m'. induction g as [|[p s] g IH]; intros m g' m'; cbn [run_map].
  - intros [= <- <-]. exists []. split; [constructor|]. split; [done|]. split; [apply after_refl|apply frame_refl].
  - destruct (run_sensor w t p s m) as [[s1 m1]| |] eqn:E; cbn [rbind fst snd]; [|done|done].
    destruct (run_map w t g m1) as [[g2 m2]| |] eqn:E2; cbn [rbind fst snd]; [|done|done].
    intros [= <- <-]. apply run_sensor_solo in E as (us & E & A & F).
    apply IH in E2 as (rs & S & -> & A2 & F2). exists ((s1, us) :: rs). split; [by constructor|].
    split; [done|]. cbn [map concat snd]. split; [by eapply after_trans|by eapply frame_trans].
Qed.
Lemma run_maps_solo w t i v m v' m' : run_maps w t i v m = Ok (v', m') -> (forall i g, Permutation (w_order w t i g) g) ->
  exists xs rs, Permutation xs (concat v) ∧ solos w t xs rs ∧ concat v' = renew xs rs ∧
    after m (concat (map snd rs)) m' ∧ frame m m'.
Proof.
  intros H Ho. revert i m v' m' H. induction v as [|g v IH]; intros i m v' m'; cbn [run_maps].
  - intros [= <- <-]. exists [], []. split; [done|]. split; [constructor|]. split; [done|]. split; [apply after_refl|apply frame_refl].
  - destruct (run_map w t _ m) as [[g1 m1]| |] eqn:E; cbn [rbind fst snd]; [|done|done].
    destruct (run_maps w t (S i) v m1) as [[v2 m2]| |] eqn:E2; cbn [rbind fst snd]; [|done|done].
    intros [= <- <-]. apply run_map_solo in E as (rs & S & -> & A & F).
    apply IH in E2 as (xs & rs2 & P & S2 & C & A2 & F2).
    exists (w_order w t i g ++ xs), (rs ++ rs2). cbn [concat]. split; [by rewrite (Ho i g), P|].
    split; [by apply Forall2_app|].
    split. { rewrite C. unfold renew. rewrite !map_app. rewrite zip_with_app; [done|].
             rewrite !map_length. by apply Forall2_length in S. }
    split; [|by eapply frame_trans]. rewrite map_app, concat_app. by eapply after_trans.
Qed.
Lemma run_maps_length w t i v m v' m' : run_maps w t i v m = Ok (v', m') -> length v' = length v.
Proof.
  revert i m v' m'. induction v as [|g v IH]; intros i m v' m'; cbn [run_maps]; [by intros [= <- <-]|].
  destruct (run_map w t _ m) as [[g1 m1]| |]; cbn [rbind fst snd]; [|done|done].
  destruct (run_maps w t (S i) v m1) as [[v2 m2]| |] eqn:E2; cbn [rbind fst snd]; [|done|done].
  intros [= <- <-]. cbn [length]. f_equal. by eapply IH.
Qed.

(** One time step without transitions. *)
Lemma tick_solo w t m m' : tick w t m = Ok m' -> m_scenario m = None -> (forall i g, Permutation (w_order w t i g) g) ->
  exists xs rs, Permutation xs (concat (m_vehicle m)) ∧ solos w t xs rs ∧ concat (m_vehicle m') = renew xs rs ∧
    after m (concat (map snd rs)) m' ∧ m_scenario m' = None ∧ m_transitions m' = m_transitions m ∧
    m_rows m' = m_rows (record t m) ∧ m_times m' = m_times (record t m) ∧
    m_jcounts m' = m_jcounts (record t m) ∧ m_tcounts m' = m_tcounts (record t m).
Proof.
  unfold tick. intros H Hs Ho. unfold switch in H. rewrite Hs in H. cbn [rbind] in H.
  destruct (run_maps w t 0 _ _) as [[v' m1]| |] eqn:E; cbn [rbind fst snd] in H; [|done|done].
  injection H as <-. apply run_maps_solo in E as (xs & rs & P & S & C & A & F & F2 & F3 & F4 & F5 & F6 & F7); [|done].
  exists xs, rs. split; [exact P|]. split; [done|]. split; [done|].
  split. { rewrite <- (app_nil_l (concat _)). eapply after_trans; [apply (after_record t)|].
           rewrite <- (app_nil_r (concat _)). eapply after_trans; [done|]. apply after_vehicle. }
  cbn [m_scenario m_transitions m_rows m_times m_jcounts m_tcounts set_vehicle]. rewrite F2, F3. done.
Qed.

(** ** A sensor over time *)
Fixpoint solo_times (w : world) (ts : list Z) (p : string) (s : sensor) : res (sensor * list upd) :=
  match ts with
  | [] => Ok (s, [])
  | t :: ts' =>
      do r <- solo w t p s;
      do r' <- solo_times w ts' p (fst r);
      Ok (fst r', snd r ++ snd r')
  end.
Definition on (p : string) (u : upd) : bool := bool_decide (u_path u = p).

Lemma solo_paths w t p s s' us : solo w t p s = Ok (s', us) -> Forall (fun u => u_path u = p ∧ u_time u = t) us.
Proof.
  unfold solo. destruct (decide (s_interval s = 0)); [done|]. destruct (decide _).
  - destruct (new_value _ _ _ _ _) as [[s1 v]| |]; cbn [rbind]; [|done|done]. intros [= <- <-]. by repeat constructor.
  - intros [= <- <-]. constructor.
Qed.
Lemma filter_all {A} (f : A -> bool) l : Forall (fun x => f x = true) l -> List.filter f l = l.
Proof. induction 1 as [|x l H _ IH]; simpl; [done|]. by rewrite H, IH. Qed.
Lemma filter_none {A} (f : A -> bool) l : Forall (fun x => f x = false) l -> List.filter f l = [].
Proof. induction 1 as [|x l H _ IH]; simpl; [done|]. by rewrite H, IH. Qed.

Lemma solos_paths w t xs rs : solos w t xs rs -> forall u, u ∈ concat (map snd rs) -> u_path u ∈ akeys xs ∧ u_time u = t.
Proof.
  induction 1 as [|[p s] [s' us] xs rs H _ IH]; intros u; cbn [map concat fst snd]; [by intros Hu%elem_of_nil|].
  intros [Hu|Hu]%elem_of_app.
  - apply solo_paths in H. rewrite List.Forall_forall in H. apply elem_of_list_In in Hu. destruct (H u Hu) as [-> ->].
    split; [by left|done].
  - destruct (IH u Hu) as [H1 H2]. split; [by right|done].
Qed.
Lemma solos_project w t xs rs p s : solos w t xs rs -> NoDup (akeys xs) -> (p, s) ∈ xs ->
  exists s', solo w t p s = Ok (s', List.filter (on p) (concat (map snd rs))) ∧ (p, s') ∈ renew xs rs.
Proof.
  induction 1 as [|[q s0] [s1 us] xs rs H HS IH]; intros Hnd Hin; [by apply elem_of_nil in Hin|].
  cbn [akeys map fst] in Hnd. apply NoDup_cons in Hnd as [Hq Hnd]. cbn [fst snd] in H.
  cbn [map concat snd]. rewrite List.filter_app. apply elem_of_cons in Hin as [E|Hin].
  - injection E as -> ->. exists s1. split; [|unfold renew; simpl; by left].
    rewrite (filter_all (on q) us), (filter_none (on q) (concat _)).
    + by rewrite app_nil_r.
    + rewrite List.Forall_forall. intros u Hu%elem_of_list_In. apply (solos_paths _ _ _ _ HS) in Hu as [Hu _].
      unfold on. apply bool_decide_eq_false. by intros <-.
    + apply solo_paths in H. eapply List.Forall_impl; [|exact H]. intros u [Hu _]. unfold on. by apply bool_decide_eq_true.
  - destruct (IH Hnd Hin) as (s' & HE & HI). exists s'. split; [|unfold renew; simpl; by right].
    rewrite HE. f_equal. f_equal. rewrite (filter_none (on p) us); [done|].
    apply solo_paths in H. eapply List.Forall_impl; [|exact H]. intros u [Hu _]. unfold on. apply bool_decide_eq_false.
    intros E. apply Hq. rewrite <- Hu, E. apply elem_of_list_fmap. by exists (p, s).
Qed.
Lemma renew_keys w t xs rs : solos w t xs rs -> akeys (renew xs rs) = akeys xs.
Proof.
  unfold renew, akeys. induction 1 as [|x r xs rs _ _ IH]; [done|]. cbn [map zip zip_with fst]. by rewrite IH.
Qed.

(** The updates of a run: those of each time step, and for every sensor those it makes alone. *)
Lemma run_times_solo w ts m m' : run_times w ts m = Ok m' -> m_scenario m = None ->
  (forall t i g, Permutation (w_order w t i g) g) -> NoDup (akeys (concat (m_vehicle m))) ->
  exists uss, after m (concat uss) m' ∧
    Forall2 (fun t us => Forall (fun u => u_time u = t ∧ u_path u ∈ akeys (concat (m_vehicle m))) us) ts uss ∧
    Permutation (akeys (concat (m_vehicle m'))) (akeys (concat (m_vehicle m))) ∧
    m_scenario m' = None ∧ m_transitions m' = m_transitions m ∧
    forall p s, (p, s) ∈ concat (m_vehicle m) ->
      exists s', solo_times w ts p s = Ok (s', List.filter (on p) (concat uss)) ∧ (p, s') ∈ concat (m_vehicle m').
Proof.
  intros H Hs Ho. revert m H Hs. induction ts as [|t ts IH]; intros m H Hs Hnd; cbn [run_times] in H.
  - injection H as <-. exists []. split; [apply after_refl|]. split; [constructor|]. split; [done|]. split; [done|].
    split; [done|]. intros p s Hp. exists s. by split.
  - destruct (tick w t m) as [m1| |] eqn:E; cbn [rbind] in H; [|done|done].
    apply tick_solo in E as (xs & rs & P & S & C & A & Hs1 & Ht1 & _); [|done|done].
    assert (Hk : Permutation (akeys (concat (m_vehicle m1))) (akeys (concat (m_vehicle m)))).
    { rewrite C, (renew_keys _ _ _ _ S). unfold akeys. by rewrite P. }
    assert (Hx : NoDup (akeys xs)). { unfold akeys. by rewrite P. }
    apply IH in H as (uss & A2 & T & K & Hs2 & Ht2 & Hp); [|done|by rewrite Hk].
    exists (concat (map snd rs) :: uss). cbn [concat]. split; [by eapply after_trans|]. split.
    { constructor.
      - rewrite List.Forall_forall. intros u Hu%elem_of_list_In. apply (solos_paths _ _ _ _ S) in Hu as [Hu ?]. split; [done|].
        unfold akeys in *. by rewrite P in Hu.
      - eapply Forall2_impl; [exact T|]. cbn. intros t' us'. apply List.Forall_impl. intros u [-> Hu]. split; [done|]. by rewrite <- Hk. }
    split; [by rewrite K, Hk|]. split; [done|]. split; [congruence|]. intros p s Hin.
    destruct (solos_project w t xs rs p s S Hx) as (s1 & E1 & I1); [by rewrite P|]. rewrite <- C in I1.
    destruct (Hp p s1 I1) as (s' & E' & I'). exists s'. split; [|done].
    cbn [solo_times]. rewrite E1. cbn [rbind fst snd]. rewrite E'. cbn [rbind fst snd]. by rewrite List.filter_app.
Qed.
