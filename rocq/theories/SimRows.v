(** The rows of the sensor data files. *)
From Verif Require Import Base BaseSpec BaseLemmas F64 Tson Bytes TjsonSpec TjsonLemmas Vss Sensor Scenario Sim SimSpec SimTrace SimLemmas SimTimes SimDocs SimFinal.

Lemma find_in v p s : NoDup (akeys (concat v)) -> (p, s) ∈ concat v -> find_sensor p v = Some s.
Proof.
  induction v as [|g v IH]; [by intros _ ?%elem_of_nil|]. unfold akeys in *. cbn. rewrite map_app. intros (N1 & N2 & N3)%NoDup_app [Hin|Hin]%elem_of_app.
  - by rewrite (alookup_in p s g).
  - rewrite (proj2 (alookup_None_iff p g)); [by apply IH|]. intros Hp. apply (N2 p Hp). apply elem_of_list_fmap. by exists (p, s).
Qed.
Definition row_of (t : Z) (v : vehicle) (p : string) : option row :=
  match find_sensor p v with Some s => Some (Row p t (s_value s)) | None => None end.
Lemma omap_other ks t v p : p ∉ ks -> filter (fun r => rw_path r = p) (omap (row_of t v) ks) = [].
Proof.
  induction ks as [|k ks IH]; [done|]. rewrite not_elem_of_cons. intros [Hne Hp]. cbn. unfold row_of at 1. destruct (find_sensor k v); [|auto].
  rewrite filter_cons, decide_False by (cbn; congruence). auto.
Qed.
Lemma omap_one ks t v p s : NoDup ks -> p ∈ ks -> find_sensor p v = Some s ->
  filter (fun r => rw_path r = p) (omap (row_of t v) ks) = [Row p t (s_value s)].
Proof.
  intros Hnd Hp Hs. induction ks as [|k ks IH]; [by apply elem_of_nil in Hp|]. apply NoDup_cons in Hnd as [Hk Hnd]. cbn. unfold row_of at 1.
  destruct (decide (p = k)) as [->|Hne].
  - rewrite Hs, filter_cons, decide_True by done. f_equal. by apply omap_other.
  - apply elem_of_cons in Hp as [|Hp]; [done|]. destruct (find_sensor k v); [|auto]. rewrite filter_cons, decide_False by (cbn; congruence). auto.
Qed.
Lemma keys_nodup : NoDup key_sensors.
Proof. apply (bool_decide_unpack _). vm_compute. exact I. Qed.

Fixpoint solo_rows (w : world) (ts : list Z) (p : string) (s : sensor) : list row :=
  match ts with
  | [] => []
  | t :: ts' => Row p t (s_value s) :: match solo w t p s with Ok r => solo_rows w ts' p (fst r) | _ => [] end
  end.
Lemma rows_solo w ts m m' p s : run_times w ts m = Ok m' -> m_scenario m = None ->
  (forall t i g, Permutation (w_order w t i g) g) -> NoDup (akeys (concat (m_vehicle m))) ->
  (p, s) ∈ concat (m_vehicle m) -> p ∈ key_sensors ->
  filter (fun r => rw_path r = p) (m_rows m') = filter (fun r => rw_path r = p) (m_rows m) ++ solo_rows w ts p s.
Proof.
  intros H Hs Ho. revert m s H Hs. induction ts as [|t ts IH]; intros m s H Hs Hnd Hin Hk; cbn [run_times] in H.
  - injection H as <-. by rewrite app_nil_r.
  - destruct (tick w t m) as [m1| |] eqn:E; cbn [rbind] in H; [|done|done].
    apply tick_solo in E as (xs & rs & P & S & C & A & Hs1 & _ & R & _); [|done|done].
    assert (Hx : NoDup (akeys xs)). { unfold akeys. by rewrite P. }
    destruct (solos_project w t xs rs p s S Hx) as (s1 & E1 & I1); [by rewrite P|]. rewrite <- C in I1.
    rewrite (IH m1 s1 H); [|done| |done|done].
    2:{ rewrite C, (renew_keys _ _ _ _ S). done. }
    cbn [solo_rows]. rewrite E1. cbn [fst]. rewrite R. unfold record. cbn [m_rows]. fold (row_of t (m_vehicle m)). rewrite filter_app.
    rewrite (omap_one key_sensors t (m_vehicle m) p s keys_nodup Hk (find_in _ _ _ Hnd Hin)). by rewrite <- app_assoc.
Qed.
Lemma solo_rows_times w ts p s s' us : solo_times w ts p s = Ok (s', us) -> map rw_time (solo_rows w ts p s) = ts.
Proof.
  revert s us. induction ts as [|t ts IH]; intros s us; cbn [solo_times]; [done|].
  destruct (solo w t p s) as [[s1 us1]| |] eqn:E; cbn [rbind fst snd]; [|done|done].
  destruct (solo_times w ts p s1) as [[s2 us2]| |] eqn:E2; cbn [rbind fst snd]; [|done|done]. intros [= <- <-].
  cbn [solo_rows map rw_time]. rewrite E. cbn [fst]. f_equal. by eapply IH.
Qed.
Lemma last_app {A} (l l' : list A) d : List.last (l ++ l') d = List.last l' (List.last l d).
Proof. induction l' as [|x l' IH] using rev_ind; [by rewrite app_nil_r|]. by rewrite app_assoc, !last_last. Qed.
Lemma solo_rows_values w ts p s s' us r : solo_times w ts p s = Ok (s', us) -> StronglySorted Z.lt ts -> r ∈ solo_rows w ts p s ->
  rw_path r = p ∧ rw_value r = List.last (map u_value (changed_only (List.filter (fun u => u_time u <? rw_time r) us))) (s_value s).
Proof.
  revert s us. induction ts as [|t ts IH]; intros s us; cbn [solo_times solo_rows]; [by intros _ _ ?%elem_of_nil|].
  destruct (solo w t p s) as [[s1 us1]| |] eqn:E; cbn [rbind fst snd]; [|done|done].
  destruct (solo_times w ts p s1) as [[s2 us2]| |] eqn:E2; cbn [rbind fst snd]; [|done|done]. intros [= <- <-] Hs.
  inversion Hs as [|? ? Hs' Hlt]; subst. rewrite List.Forall_forall in Hlt.
  pose proof (solo_paths _ _ _ _ _ _ E) as F1. rewrite List.Forall_forall in F1.
  assert (F2 : forall u, u ∈ us2 -> t < u_time u).
  { intros u Hu. apply solo_times_facts in E2 as (_ & _ & _ & _ & _ & _ & E2 & _). apply Hlt.
    assert (Hm : In (u_time u) (map u_time us2)) by (apply in_map; by apply elem_of_list_In). rewrite E2 in Hm. by apply List.filter_In in Hm as [? _]. }
  intros [->|Hr]%elem_of_cons.
  - cbn [rw_path rw_time rw_value]. split; [done|]. rewrite (filter_none _ (us1 ++ us2)); [done|]. rewrite List.Forall_forall.
    intros u [Hu|Hu]%in_app_or; apply Z.ltb_ge; [apply F1 in Hu as [_ ->]; lia|]. apply elem_of_list_In, F2 in Hu. lia.
  - assert (Ht : t < rw_time r).
    { apply Hlt. rewrite <- (solo_rows_times _ _ _ _ _ _ E2). apply in_map. by apply elem_of_list_In. }
    destruct (IH s1 us2 E2 Hs' Hr) as [-> ->]. split; [done|].
    rewrite List.filter_app, changed_app, map_app, last_app. f_equal.
    rewrite (filter_all _ us1).
    + apply solo_facts in E as (_ & _ & _ & _ & _ & _ & _ & E & _). by apply evolves_last in E as [E _].
    + rewrite List.Forall_forall. intros u Hu. apply F1 in Hu as [_ ->]. by apply Z.ltb_lt.
Qed.

Lemma rows w v sec inc m p s : simulate w v None sec inc = Ok m -> orders_ok w -> NoDup (akeys (sensors v)) -> 0 < inc ->
  (p, s) ∈ sensors v -> p ∈ key_sensors ->
  StronglySorted Z.lt (map rw_time (filter (fun r => rw_path r = p) (m_rows m))) ∧
  (forall t, (exists x, Row p t x ∈ m_rows m) <-> time_step (sec * 1000) inc t) ∧
  (forall t x, Row p t x ∈ m_rows m -> exists z, latest (filter (fun q => sp_ts q < t) (m_tpatches m)) p (s_value s) (s_stamp s) x z).
Proof.
  intros (m0 & H0 & H)%simulate_inv [Ho _] Hnd Hi Hin Hk. apply start_zero in H0 as (V & Sc & _ & J & T & S & _ & _ & _ & _ & R & _).
  pose proof (rows_solo _ _ _ _ p s H Sc Ho) as HR. rewrite V, R in HR. specialize (HR Hnd Hin Hk). rewrite filter_nil in HR. cbn [app] in HR.
  apply run_times_solo in H as (uss & A & _ & K & _ & _ & P); [|done|done|by rewrite V].
  rewrite V in *. destruct (P p s Hin) as (s' & E & Hin'). destruct A. rewrite af_tp, T. cbn [app].
  pose proof (solo_rows_times _ _ _ _ _ _ E) as ET. pose proof (loop_times_sorted (sec * 1000) inc Hi) as Hsort.
  assert (Hrow : forall t x, Row p t x ∈ m_rows m <-> Row p t x ∈ solo_rows w (loop_times (sec * 1000) inc) p s).
  { intros t x. rewrite <- HR, elem_of_list_filter. cbn. tauto. }
  split; [by rewrite HR, ET|]. split.
  - intros t. rewrite <- (loop_times_spec _ _ _ Hi). split.
    + intros [x Hx%Hrow]. rewrite <- ET. apply elem_of_list_fmap. eexists. by split; [|exact Hx].
    + intros Ht. rewrite <- ET in Ht. apply elem_of_list_fmap in Ht as ([p' t' x] & -> & Hr). exists x. apply Hrow. cbn.
      by destruct (solo_rows_values _ _ _ _ _ _ _ E Hsort Hr) as [<- _].
  - intros t x Hx%Hrow. destruct (solo_rows_values _ _ _ _ _ _ _ E Hsort Hx) as [_ Ev]. cbn [rw_value rw_time] in Ev.
    assert (EF : filter (fun q => sp_ts q < t) (map set_of (changed_only (concat uss))) =
                 map set_of (changed_only (List.filter (fun u => u_time u <? t) (concat uss)))).
    { generalize (concat uss). intros us. induction us as [|u us IH]; [done|]. unfold changed_only in *. cbn [List.filter map].
      destruct (u_changed u) eqn:Ec; cbn [map].
      - rewrite filter_cons. cbn [sp_ts set_of]. destruct (decide (u_time u < t)) as [Hd|Hd].
        + rewrite (proj2 (Z.ltb_lt _ _) Hd). cbn [List.filter]. rewrite Ec. cbn [map]. by rewrite IH.
        + rewrite (proj2 (Z.ltb_ge _ _)) by lia. done.
      - destruct (u_time u <? t); cbn [List.filter]; rewrite ?Ec; done. }
    rewrite EF. pose proof (last_upd_latest (changed_only (List.filter (fun u => u_time u <? t) (concat uss))) p (s_value s) (s_stamp s)) as L.
    unfold last_upd in L. rewrite <- !last_map in L.
    unfold changed_only in L at 2 3. rewrite !(filter_comm (on p)) in L. fold (changed_only (List.filter (fun u => u_time u <? t) (List.filter (on p) (concat uss)))) in L.
    rewrite <- Ev in L. by eexists.
Qed.
