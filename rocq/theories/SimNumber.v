(** The values of the sensors are numbers a float64 can hold. *)
From Verif Require Import Base BaseLemmas F64 F64Lemmas Tson Bytes Vss VssSpec VssFloat Sensor Scenario Sim SimSpec SimTrace SimLemmas RangeSpec FloatOrder SimRange.

Definition valid_value (v : prim) : Prop := match v with PNum x => f64_valid x = true | _ => True end.
Lemma new_number_valid sn D t s lo hi x n v : range_of s lo hi -> s_value s = PNum x -> f64_valid x = true -> fair D -> sine sn -> 0 <= t < 2 ^ 63 ->
  new_number sn D t s x = (n, v) -> f64_valid v = true.
Proof.
  intros R Ex Vx HF Hs Ht E. pose proof (new_number_range sn D t s lo hi x n v R Ex HF Hs Ht E) as (_ & _ & H1 & H2). revert E H1 H2. destruct HF as [HD _].
  destruct R as [lo hi k y [_ F] Hlo Hhi Hk L Hi Ey Ny|lo hi k y [_ F] Hlo Hhi Hk K L Ey Ny|lo hi k y [_ F] Hlo Hhi Hk Ey Ny L1 L2
    |b k y [_ F] Hb Hk K Ey|b k l y [_ F] Hb Hk K Hl L Ey|lo hi y [_ F] Hlo Hhi L Nm Ey L1 L2|y _ F Ey Ny];
    rewrite Ex in Ey; injection Ey as <-.
  - intros _ H _. rewrite F in H. apply H. by left.
  - intros _ H _. rewrite F in H. apply H. right. by left.
  - intros _ H _. rewrite F in H. apply H. right. right. by left.
  - unfold new_number. rewrite F. rewrite decide_True by done. intros E _ _. injection E as _ <-.
    apply has_param in Hb as [-> Nb], Hk as [-> Nk].
    destruct (unit_number _ (HD 0%nat)) as (Nr & R1 & R2). destruct (swing_number _ Nr R1 R2) as (Ns & S1 & S2).
    apply (spread_range b k _ _ Nb Nk Ns K S1 S2 (mul_rounds _ _ Ns Nk)).
  - unfold new_number. rewrite F. do 2 rewrite decide_False by done. rewrite decide_True by done. intros E _ _. injection E as _ <-.
    apply has_param in Hb as [-> Nb], Hk as [-> Nk], Hl as [-> Nl].
    assert (Fin : f64_finite (f64_mul two_pi (f64_div (f64_of_Z (t + f64_to_int64 (param s "phase"))) l)) = true).
    { apply cycle_number; [|done|done|split; vm_compute; reflexivity|vm_compute; reflexivity|vm_compute; reflexivity].
      pose proof (int64_abs (param s "phase")). lia. }
    destruct (Hs _ Fin) as (Ns & S1 & S2).
    apply (spread_range b k _ _ Nb Nk Ns K S1 S2 (mul_rounds_swap _ _ Nk Ns)).
  - unfold new_number. rewrite F. do 5 rewrite decide_False by done. rewrite decide_True by done.
    apply has_param in Hlo as [-> Nl], Hhi as [-> Nh].
    destruct (_ || _); intros E _ _; injection E as _ <-; [|done].
    destruct (unit_number _ (HD 1%nat)) as (Nr & R1 & R2). assert (P : fl_le zero (f64_sub hi lo)) by (by apply sub_nonneg).
    apply (part_range lo (f64_sub hi lo) _ _ Nl Nm Nr P R1 R2 (mul_rounds _ _ Nr Nm)).
  - intros _ _ H. rewrite H by done. done.
Qed.
Lemma solo_valid w t p s lo hi s' us : range_of s lo hi -> valid_value (s_value s) -> (forall t p, fair (w_draws w t p)) -> sine (w_sin w) -> 0 <= t < 2 ^ 63 ->
  solo w t p s = Ok (s', us) -> valid_value (s_value s') ∧ Forall (fun u => valid_value (u_value u)) us.
Proof.
  intros R Hv HD Hs Ht. unfold solo. destruct (decide (s_interval s = 0)); [done|]. destruct (decide _).
  2:{ intros [= <- <-]. split; [done|constructor]. }
  destruct (new_value _ _ _ _ _) as [[s1 v]| |] eqn:E; cbn [rbind]; [|done|done]. intros [= <- <-].
  pose proof (new_value_frame _ _ _ _ _ _ _ E) as (_ & Ev & Ety & _ & Ei & Ept & Eps).
  destruct (range_number _ _ _ R) as [Ty [x Ex]].
  assert (G : valid_value v).
  { unfold new_value in E. cbn [s_type set_count] in E. rewrite Ty in E. rewrite decide_True in E by done. cbn [s_value set_count] in E. rewrite Ex in E.
    destruct (new_number _ _ _ _ _) as [n1 y] eqn:En. injection E as _ <-.
    assert (R1 : range_of (set_count (s_count s + 1) s) lo hi) by by apply (range_frame s).
    rewrite Ex in Hv. exact (new_number_valid _ _ _ _ _ _ _ _ _ R1 Ex Hv (HD t p) Hs Ht En). }
  split; [|constructor; [done|constructor]]. destruct (negb _); cbn; [done|]. by rewrite Ev.
Qed.
Lemma solo_times_valid w ts p s lo hi s' us : range_of s lo hi -> valid_value (s_value s) -> (forall t p, fair (w_draws w t p)) -> sine (w_sin w) ->
  Forall (fun t => 0 <= t < 2 ^ 63) ts -> solo_times w ts p s = Ok (s', us) -> Forall (fun u => valid_value (u_value u)) us.
Proof.
  intros R V HD Hs Ht. revert s us R V. induction Ht as [|t ts Ht _ IH]; intros s us R V; cbn [solo_times]; [intros [= <- <-]; constructor|].
  destruct (solo w t p s) as [[s1 us1]| |] eqn:E; cbn [rbind fst snd]; [|done|done].
  destruct (solo_times w ts p s1) as [[s2 us2]| |] eqn:E2; cbn [rbind fst snd]; [|done|done]. intros [= <- <-].
  pose proof (solo_range _ _ _ _ lo hi _ _ R HD Hs Ht E) as [R1 _]. apply (solo_valid _ _ _ _ lo hi) in E as [V1 F1]; [|done..]. apply IH in E2; [|done..]. by apply Forall_app.
Qed.
Lemma values_valid w v sec inc m p s lo hi : simulate w v None sec inc = Ok m -> orders_ok w -> NoDup (akeys (sensors v)) -> 0 < inc ->
  sec * 1000 < 2 ^ 63 -> random_ok w -> sine (w_sin w) -> (p, s) ∈ sensors v -> range_of s lo hi -> valid_value (s_value s) ->
  forall q, q ∈ m_spatches m -> sp_path q = p -> valid_value (sp_value q).
Proof.
  intros (m0 & H0 & H)%simulate_inv [Ho _] Hnd Hi Hsec [HD _] Hs Hin R Hv. apply start_zero in H0 as (V & Sc & _ & J & T & S & _).
  apply run_times_solo in H as (uss & A & _ & K & _ & _ & P); [|done|done|by rewrite V].
  rewrite V in *. destruct (P p s Hin) as (s' & E & Hin'). destruct A. rewrite af_sp, S. cbn [app].
  apply (solo_times_valid _ _ _ _ lo hi) in E as F; [|done..|].
  - intros q Hq Hp. apply elem_of_list_fmap in Hq as (u & -> & Hu). cbn in *. rewrite List.Forall_forall in F. apply F.
    apply List.filter_In. split; [by apply elem_of_list_In|]. unfold on. by apply bool_decide_eq_true.
  - rewrite List.Forall_forall. intros t Ht%elem_of_list_In. apply loop_times_spec in Ht; [|done]. destruct Ht as [Ht _]. lia.
Qed.
