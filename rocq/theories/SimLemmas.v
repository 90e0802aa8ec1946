(** Counts and times of a run. *)
From Verif Require Import Base BaseSpec F64 Tson Bytes Vss Sensor Scenario Sim SimSpec SimTrace.

(** ** Loops *)
Lemma loop_times_spec D inc t : 0 < inc -> t ∈ loop_times D inc <-> time_step D inc t.
Proof.
  intros Hi. unfold loop_times, time_step. rewrite elem_of_list_fmap. split.
  - intros (i & -> & Hin%elem_of_seq). split.
    + assert (Z.of_nat i < (D + inc - 1) / inc) by lia.
      assert ((Z.of_nat i + 1) * inc <= D + inc - 1).
      { pose proof (Z.mul_div_le (D + inc - 1) inc Hi). nia. }
      nia.
    + exists (Z.of_nat i). lia.
  - intros [Ht [k ->]]. assert (0 <= k) by nia. exists (Z.to_nat k). split; [lia|]. apply elem_of_seq. split; [lia|].
    assert (k + 1 <= (D + inc - 1) / inc) by (apply Z.div_le_lower_bound; nia). lia.
Qed.
Lemma seq_sorted inc n k : 0 < inc -> StronglySorted Z.lt (map (fun i => Z.of_nat i * inc) (seq k n)).
Proof.
  intros Hi. revert k. induction n as [|n IH]; intros k; cbn [seq map]; constructor; [apply IH|].
  rewrite List.Forall_forall. intros x Hx%elem_of_list_In. apply elem_of_list_fmap in Hx as (i & -> & Hin%elem_of_seq). nia.
Qed.
Lemma loop_times_sorted D inc : 0 < inc -> StronglySorted Z.lt (loop_times D inc).
Proof. intros. by apply seq_sorted. Qed.

(** ** Counts *)
Lemma timing_length n us : length (timing_of n us) = length us.
Proof. revert n. induction us as [|u us IH]; intros n; simpl; [done|]. by rewrite IH. Qed.
Lemma json_length us : length (concat (map json_of us)) = (length us + length (changed_only us))%nat.
Proof.
  induction us as [|u us IH]; [done|]. cbn [map concat]. rewrite app_length, IH. unfold changed_only, json_of. simpl.
  destruct (u_changed u); simpl; lia.
Qed.
Lemma changed_le us : (length (changed_only us) <= length us)%nat.
Proof. unfold changed_only. induction us as [|u us IH]; simpl; [lia|]. destruct (u_changed u); simpl; lia. Qed.
Lemma selects_changed us : selects (map u_changed us) (map set_of us) (map set_of (changed_only us)).
Proof.
  induction us as [|u us IH]; [constructor|]. unfold changed_only in *. simpl. destruct (u_changed u); simpl; by constructor.
Qed.
Lemma json_patches_of us : json_patches (map u_changed us) (map set_of us) (concat (map json_of us)).
Proof.
  induction us as [|u us IH]; [constructor|]. cbn [map concat]. unfold json_of at 1. destruct (u_changed u); simpl.
  - by apply (js_yes _ (set_of u)).
  - by apply (js_no _ (set_of u)).
Qed.
Lemma timing_lookup us i : forall n, timing_of n us !! i =
  match us !! i with Some u => Some (Timing (n + Z.of_nat i + 1) (u_time u) (u_path u) (u_changed u)) | None => None end.
Proof.
  revert i. induction us as [|u us IH]; intros i n; [done|]. destruct i as [|i]; cbn [timing_of lookup list_lookup].
  - f_equal. f_equal. lia.
  - change (timing_of (n + 1) us !! i = match us !! i with Some u => Some (Timing (n + Z.of_nat (S i) + 1) (u_time u) (u_path u) (u_changed u)) | None => None end).
    rewrite IH. destruct (us !! i); [|done]. f_equal. f_equal. lia.
Qed.

(** Every run leaves the traces of a list of updates. *)
Lemma run_sensor_after w t p s m s' m' : run_sensor w t p s m = Ok (s', m') -> exists us, after m us m'.
Proof. intros (us & _ & H & _)%run_sensor_solo. by exists us. Qed.
Lemma run_map_after w t g m g' m' : run_map w t g m = Ok (g', m') -> exists us, after m us m'.
Proof. intros (rs & _ & _ & H & _)%run_map_solo. by eexists. Qed.
Lemma run_maps_after w t i v m v' m' : run_maps w t i v m = Ok (v', m') -> exists us, after m us m'.
Proof.
  revert i m v' m'. induction v as [|g v IH]; intros i m v' m'; cbn [run_maps].
  - intros [= <- <-]. exists []. apply after_refl.
  - destruct (run_map w t _ m) as [[g1 m1]| |] eqn:E; cbn [rbind fst snd]; [|done|done].
    destruct (run_maps w t (S i) v m1) as [[v2 m2]| |] eqn:E2; cbn [rbind fst snd]; [|done|done].
    intros [= <- <-]. apply run_map_after in E as [us A]. apply IH in E2 as [us2 A2].
    exists (us ++ us2). by eapply after_trans.
Qed.
Lemma tick_after w t m m' : tick w t m = Ok m' -> exists us, after m us m'.
Proof.
  unfold tick. intros H. destruct (switch w t m) as [m1| |] eqn:E; cbn [rbind] in H; [|done|done].
  destruct (run_maps _ _ _ _ _) as [[v' m2]| |] eqn:E2; cbn [rbind fst snd] in H; [|done|done]. injection H as <-.
  apply after_switch in E. apply run_maps_after in E2 as [us A]. exists us.
  rewrite <- (app_nil_l us). eapply after_trans; [exact E|]. rewrite <- (app_nil_l us). eapply after_trans; [apply after_record|].
  rewrite <- (app_nil_r us). eapply after_trans; [exact A|]. apply after_vehicle.
Qed.
Lemma run_times_after w ts m m' : run_times w ts m = Ok m' -> exists us, after m us m'.
Proof.
  revert m. induction ts as [|t ts IH]; intros m H; cbn [run_times] in H.
  - injection H as <-. exists []. apply after_refl.
  - destruct (tick w t m) as [m1| |] eqn:E; cbn [rbind] in H; [|done|done].
    apply tick_after in E as [us A]. apply IH in H as [us2 A2]. exists (us ++ us2). by eapply after_trans.
Qed.

Lemma start_zero w v sc m : start w v sc = Ok m ->
  m_vehicle m = v ∧ m_scenario m = sc ∧ m_transitions m = [] ∧ m_jpatches m = [] ∧ m_tpatches m = [] ∧ m_spatches m = [] ∧
  m_updates m = 0 ∧ m_changes m = 0 ∧ m_stamps m = 0 ∧ m_timing m = [] ∧ m_rows m = [] ∧ m_times m = [] ∧ m_jcounts m = [] ∧ m_tcounts m = [] ∧
  vehicle_doc "timestamp" (reorder (w_doc_order w "timestamp") 0 v) = Ok (m_json m) ∧
  vehicle_doc "_ts" (reorder (w_doc_order w "_ts") 0 v) = Ok (m_tson m).
Proof.
  unfold start. destruct (vehicle_doc "timestamp" _) as [j| |]; cbn [rbind]; [|done|done].
  destruct (vehicle_doc "_ts" _) as [s| |]; cbn [rbind]; [|done|done]. intros [= <-]. repeat split.
Qed.
Lemma simulate_inv w v sc sec inc m : simulate w v sc sec inc = Ok m ->
  exists m0, start w v sc = Ok m0 ∧ run_times w (loop_times (sec * 1000) inc) m0 = Ok m.
Proof.
  unfold simulate. destruct (start w v sc) as [m0| |]; cbn [rbind]; [|done|done].
  destruct (expected_count v sec); cbn [rbind]; [|done|done]. intros H. by exists m0.
Qed.
Lemma simulate_after w v sc sec inc m : simulate w v sc sec inc = Ok m ->
  exists m0 us, start w v sc = Ok m0 ∧ run_times w (loop_times (sec * 1000) inc) m0 = Ok m ∧ after m0 us m.
Proof.
  intros (m0 & H0 & H)%simulate_inv. destruct (run_times_after _ _ _ _ H) as [us A]. by exists m0, us.
Qed.

Lemma counts w v sc sec inc m : simulate w v sc sec inc = Ok m ->
  m_updates m = m_changes m + m_stamps m ∧
  Z.of_nat (length (m_jpatches m)) = m_updates m + m_changes m ∧
  Z.of_nat (length (m_tpatches m)) = m_changes m ∧
  Z.of_nat (length (m_spatches m)) = m_updates m ∧
  Z.of_nat (length (m_timing m)) = m_updates m.
Proof.
  intros (m0 & us & H0 & _ & [])%simulate_after. apply start_zero in H0 as (_ & _ & _ & J & T & S & U & C & Z & G & _).
  rewrite af_updates, af_changes, af_stamps, af_jp, af_tp, af_sp, af_timing, J, T, S, U, C, Z, G. simpl.
  rewrite json_length, timing_length, !map_length. unfold count. pose proof (changed_le us). lia.
Qed.
Lemma outputs w v sc sec inc m : simulate w v sc sec inc = Ok m ->
  exists cs, selects cs (m_spatches m) (m_tpatches m) ∧ json_patches cs (m_spatches m) (m_jpatches m) ∧
    forall i, m_timing m !! i =
      match m_spatches m !! i, cs !! i with
      | Some q, Some c => Some (Timing (Z.of_nat i + 1) (sp_ts q) (sp_path q) c)
      | _, _ => None
      end.
Proof.
  intros (m0 & us & H0 & _ & [])%simulate_after. apply start_zero in H0 as (_ & _ & _ & J & T & S & U & C & Z & G & _).
  exists (map u_changed us). rewrite af_jp, af_tp, af_sp, af_timing, J, T, S, U, G. cbn [app].
  split; [apply selects_changed|]. split; [apply json_patches_of|]. intros i.
  rewrite timing_lookup, !list_lookup_fmap. by destruct (us !! i).
Qed.

(** ** A sensor alone *)
Lemma new_value_frame sn fuel d t s s1 v : new_value sn fuel d t s = Ok (s1, v) ->
  s_path s1 = s_path s ∧ s_value s1 = s_value s ∧ s_type s1 = s_type s ∧ s_stamp s1 = s_stamp s ∧
  s_interval s1 = s_interval s ∧ s_pattern s1 = s_pattern s ∧ s_params s1 = s_params s.
Proof.
  destruct s as [p x ty st iv pt ps c]. unfold new_value. intros H. repeat case_decide; cbn [s_value set_count] in H.
  - destruct x as [|cur|]; [by injection H as <- _| |by injection H as <- _].
    destruct (new_number _ _ _ _ _) as [n y]. by injection H as <- _.
  - by destruct x; injection H as <- _.
  - destruct x as [cur| |]; [|by injection H as <- _..].
    destruct (new_string _ _ _ _) as [y| |]; cbn [rbind] in H; [|done|done]. by injection H as <- _.
  - by injection H as <- _.
Qed.
(** How the value of a sensor follows its updates. *)
Inductive evolves : prim -> list upd -> prim -> Prop :=
| ev_nil v : evolves v [] v
| ev_cons v u us v' : u_changed u = negb (is_equal v (u_value u)) ->
    evolves (if u_changed u then u_value u else v) us v' -> evolves v (u :: us) v'.
Lemma evolves_app v us v' us' v'' : evolves v us v' -> evolves v' us' v'' -> evolves v (us ++ us') v''.
Proof. induction 1; [done|]. intros. cbn [app]. constructor; auto. Qed.

Definition due (i : Z) (t : Z) : bool := Z.rem t i =? 0.
Lemma solo_facts w t p s s' us : solo w t p s = Ok (s', us) ->
  s_interval s' = s_interval s ∧ s_interval s ≠ 0 ∧ s_path s' = s_path s ∧ s_type s' = s_type s ∧
  s_pattern s' = s_pattern s ∧ s_params s' = s_params s ∧
  map u_time us = List.filter (due (s_interval s)) [t] ∧ evolves (s_value s) us (s_value s') ∧
  s_stamp s' = List.last (map u_time us) (s_stamp s).
Proof.
  unfold solo, due. destruct (decide (s_interval s = 0)) as [|Hi]; [done|]. cbn [List.filter].
  destruct (decide (Z.rem t (s_interval s) = 0)) as [E|E].
  - rewrite (proj2 (Z.eqb_eq _ _) E).
    destruct (new_value _ _ _ _ _) as [[s1 v]| |] eqn:Ev; cbn [rbind]; [|done|done]. intros [= <- <-].
    apply new_value_frame in Ev as (? & Hv & ? & ? & ? & ? & ?).
    set (c := negb (is_equal (s_value s) v)). destruct c eqn:Ec; cbn; repeat split; try done;
      (constructor; [by cbn [u_value u_changed]|]); cbn [u_changed u_value]; rewrite ?Hv; constructor.
  - rewrite (proj2 (Z.eqb_neq _ _) E). intros [= <- <-]. repeat split; try done. constructor.
Qed.
Lemma last_app_or (l l' : list Z) d : List.last (l ++ l') d = List.last l' (List.last l d).
Proof.
  induction l' as [|x l' IH] using rev_ind; [by rewrite app_nil_r|]. by rewrite app_assoc, !last_last.
Qed.
Lemma solo_times_facts w ts p s s' us : solo_times w ts p s = Ok (s', us) ->
  s_interval s' = s_interval s ∧ (ts ≠ [] -> s_interval s ≠ 0) ∧ s_path s' = s_path s ∧ s_type s' = s_type s ∧
  s_pattern s' = s_pattern s ∧ s_params s' = s_params s ∧
  map u_time us = List.filter (due (s_interval s)) ts ∧ evolves (s_value s) us (s_value s') ∧
  s_stamp s' = List.last (map u_time us) (s_stamp s).
Proof.
  revert s us. induction ts as [|t ts IH]; intros s us; cbn [solo_times].
  - intros [= <- <-]. repeat split; try done. constructor.
  - destruct (solo w t p s) as [[s1 us1]| |] eqn:E; cbn [rbind fst snd]; [|done|done].
    destruct (solo_times w ts p s1) as [[s2 us2]| |] eqn:E2; cbn [rbind fst snd]; [|done|done]. intros [= <- <-].
    apply solo_facts in E as (A1 & A2 & A3 & A4 & A5 & A6 & A7 & A8 & A9).
    apply IH in E2 as (B1 & B2 & B3 & B4 & B5 & B6 & B7 & B8 & B9).
    repeat split; try congruence.
    + rewrite map_app, A7, B7, A1. cbn [List.filter]. by destruct (due _ t).
    + by eapply evolves_app.
    + by rewrite map_app, last_app_or, <- A9, <- B9.
Qed.
