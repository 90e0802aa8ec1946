(** The values of the sensors stay in their ranges. *)
From Verif Require Import Base BaseLemmas F64 F64Lemmas Tson Bytes Vss VssSpec VssFloat Sensor Scenario Sim SimSpec SimTrace SimLemmas RangeSpec FloatOrder.
From Flocq Require Import IEEE754.BinarySingleNaN.

Lemma unit_number r : unit_float r -> number r ∧ fl_le zero r ∧ fl_le r (f64_of_Z 1).
Proof.
  intros [|m e Hm He]; [split; [by split|by split]|]. split; [|split; [done|]].
  - split; [|done]. unfold f64_valid, valid_binary, bounded, canonical_mantissa. apply andb_true_intro. split.
    + apply Zeq_is_eq_bool. rewrite (digits2_unique m 53) by lia. unfold fexp, emin, f64_prec, f64_emax. lia.
    + apply Z.leb_le. unfold f64_prec, f64_emax. lia.
  - unfold fl_le, SFleb. replace (SFcompare _ _) with (Some Lt); [done|].
    pose proof (finite_lt m e 4503599627370496 (-52)) as H. unfold SFltb in H.
    change (f64_of_Z 1) with (S754_finite false 4503599627370496 (-52)).
    destruct (SFcompare _ _) as [[]|]; try done; by specialize (H (or_introl ltac:(lia))).
Qed.
Lemma compare_swap x y : f64_valid x = true -> f64_valid y = true ->
  SFcompare y x = match SFcompare x y with Some c => Some (CompOpp c) | None => None end.
Proof.
  intros Vx Vy. destruct (as_flocq x Vx) as [a ->], (as_flocq y Vy) as [b ->]. exact (Bcompare_swap 53 1024 a b).
Qed.
Lemma compare_some x y : f64_is_nan x = false -> f64_is_nan y = false -> SFcompare x y ≠ None.
Proof. destruct x as [sx|[]| |[] mx ex], y as [sy|[]| |[] my ey]; try done; cbn; by destruct (ex ?= ey). Qed.
Lemma not_lt_le x y : f64_valid x = true -> f64_valid y = true -> f64_is_nan x = false -> f64_is_nan y = false ->
  SFltb x y = false -> fl_le y x.
Proof.
  intros Vx Vy Nx Ny. unfold fl_le, SFltb, SFleb. rewrite (compare_swap x y Vx Vy).
  pose proof (compare_some x y Nx Ny) as H. by destruct (SFcompare x y) as [[]|].
Qed.
Lemma number_nan x : number x -> f64_is_nan x = false.
Proof. intros [_ H]. by destruct x. Qed.
Lemma le_refl x : number x -> fl_le x x.
Proof. intros H. apply (leb_real x x H H). apply RIneq.Rle_refl. Qed.
Lemma bounded_number lo hi z : number lo -> number hi -> f64_valid z = true -> fl_le lo z -> fl_le z hi -> number z.
Proof.
  intros Hl Hh V L1 L2. split; [done|]. destruct z as [s|[]| |s m e]; try done; exfalso.
  - destruct Hl as [_ Fl]. destruct lo as [sl|[]| |[] ml el]; try done.
  - destruct Hh as [_ Fh]. destruct hi as [sh|[]| |[] mh eh]; try done.
Qed.
Lemma clamp_range lo hi z : number lo -> number hi -> fl_le lo hi -> f64_valid z = true -> f64_is_nan z = false ->
  number (clamp lo hi z) ∧ fl_le lo (clamp lo hi z) ∧ fl_le (clamp lo hi z) hi.
Proof.
  intros Hl Hh L V N. unfold clamp, f64_lt. destruct (SFltb z lo) eqn:E1; [split; [done|split; [by apply le_refl|done]]|].
  destruct (SFltb hi z) eqn:E2; [split; [done|split; [done|by apply le_refl]]|].
  apply not_lt_le in E1; [|done|apply Hl|done|by apply number_nan]. apply not_lt_le in E2; [|apply Hh|done|by apply number_nan|done].
  split; [by apply (bounded_number lo hi)|done].
Qed.

Lemma has_param s k x : has s k x -> param s k = x ∧ number x.
Proof. unfold has, param. intros [-> Hn]. done. Qed.
Lemma add_fine x y : number x -> number y -> f64_valid (f64_add x y) = true ∧ f64_is_nan (f64_add x y) = false.
Proof. intros Hx Hy. pose proof (add_rounds x y Hx Hy) as H. split; [by eapply rounds_valid|by eapply rounds_nan]. Qed.
Lemma mul_fine x y : number x -> number y -> f64_valid (f64_mul x y) = true ∧ f64_is_nan (f64_mul x y) = false.
Proof. intros Hx Hy. pose proof (mul_rounds x y Hx Hy) as H. split; [by eapply rounds_valid|by eapply rounds_nan]. Qed.
Lemma add_infinite x s : number x -> f64_add x (S754_infinity s) = S754_infinity s.
Proof. intros [_ F]. by destruct x. Qed.
Lemma Z_number z : Z.abs z <= 2 ^ 64 -> number (f64_of_Z z).
Proof.
  intros H. set (big := f64_of_Z (2 ^ 64)). assert (Nb : number big) by (split; vm_compute; reflexivity).
  destruct (between (SFopp big) big _ _ (number_opp _ Nb) Nb (rounds_Z z)) as [N _]; [|done].
  rewrite real_opp. unfold big. rewrite real_64. change (2 ^ 64) with 18446744073709551616 in H.
  split; [change (Rdefinitions.Ropp (Rdefinitions.IZR 18446744073709551616)) with (Rdefinitions.IZR (-18446744073709551616))|]; apply RIneq.IZR_le; lia.
Qed.
(** [a * b / 1000] is a number or infinite. *)
Lemma step_fine x a b : number x -> number a -> number b ->
  let z := f64_add x (f64_div (f64_mul a b) (f64_of_Z 1000)) in f64_valid z = true ∧ f64_is_nan z = false.
Proof.
  intros Hx Ha Hb z. destruct (mul_fine a b Ha Hb) as [V N].
  assert (Hk : number (f64_of_Z 1000)) by (split; vm_compute; reflexivity).
  assert (Hc : number (f64_mul a b) ∨ exists s, f64_mul a b = S754_infinity s).
  { destruct (f64_mul a b) as [s|s| |s m e]; try done; [left; by split|right; by exists s|left; by split]. }
  destruct Hc as [Hc|[s E]].
  - assert (R : f64_valid (f64_div (f64_mul a b) (f64_of_Z 1000)) = true ∧ f64_is_nan (f64_div (f64_mul a b) (f64_of_Z 1000)) = false).
    { assert (H0 : real (f64_of_Z 1000) ≠ Rdefinitions.IZR 0).
      { intros E. assert (Hle : fl_le (f64_of_Z 1000) zero).
        { apply leb_real; [done|by split|]. rewrite E. apply RIneq.Rle_refl. } vm_compute in Hle. done. }
      pose proof (div_rounds _ _ Hc Hk H0) as H. split; [by eapply rounds_valid|by eapply rounds_nan]. }
    destruct R as [RV RN]. unfold z. set (q := f64_div (f64_mul a b) (f64_of_Z 1000)) in *. destruct q as [s|s| |s m e] eqn:Eq; try done.
    + apply add_fine; [done|by split].
    + by rewrite add_infinite.
    + apply add_fine; [done|by split].
  - unfold z. rewrite E. change (f64_div (S754_infinity s) (f64_of_Z 1000)) with (S754_infinity (xorb s false)). by rewrite add_infinite.
Qed.
Lemma int64_abs x : Z.abs (f64_to_int64 x) <= 2 ^ 63.
Proof.
  unfold f64_to_int64. destruct x as [s|s| |s m e]; [by vm_compute..|].
  cbv zeta. generalize (if s then - (if 0 <=? e then Z.pos m * 2 ^ e else Z.pos m / 2 ^ (- e)) else if 0 <=? e then Z.pos m * 2 ^ e else Z.pos m / 2 ^ (- e)).
  intros z. destruct (in_int64 z) eqn:E; [|by vm_compute]. unfold in_int64, int64_min, int64_max in E. lia.
Qed.

(** A new value is in the range. *)
Lemma new_number_range sn D t s lo hi x n v : range_of s lo hi -> s_value s = PNum x -> fair D -> sine sn -> 0 <= t < 2 ^ 63 ->
  new_number sn D t s x = (n, v) -> fl_le lo v ∧ fl_le v hi ∧
  (s_pattern s ∈ ["linear"; "random_walk"; "stepped"] -> number v) ∧ (s_pattern s ∉ ["linear"; "random_walk"; "stepped"; "constant_with_noise"; "sinusoidal"; "triggered"] -> v = x).
Proof.
  intros R Ex [HD _] Hs Ht. unfold new_number.
  destruct R as [lo hi k y [_ F] Hlo Hhi Hk L Hi Ey Ny|lo hi k y [_ F] Hlo Hhi Hk K L Ey Ny|lo hi k y [_ F] Hlo Hhi Hk Ey Ny L1 L2
    |b k y [_ F] Hb Hk K Ey|b k l y [_ F] Hb Hk K Hl L Ey|lo hi y [_ F] Hlo Hhi L Nm Ey L1 L2|y _ F Ey Ny];
    rewrite Ex in Ey; injection Ey as <-.
  - rewrite F. rewrite decide_False by done. rewrite decide_True by done. intros E. injection E as _ <-.
    apply has_param in Hlo as [-> Nl], Hhi as [-> Nh], Hk as [-> Nk].
    destruct (step_fine x k (f64_of_Z (s_interval s)) Ny Nk) as [V N]; [apply Z_number; lia|].
    destruct (clamp_range lo hi _ Nl Nh L V N) as (? & ? & ?). split; [done|]. split; [done|]. split; [done|].
    intros Hq. exfalso. apply Hq. by left.
  - rewrite F. do 3 rewrite decide_False by done. rewrite decide_True by done. intros E. injection E as _ <-.
    apply has_param in Hlo as [-> Nl], Hhi as [-> Nh], Hk as [-> Nk].
    destruct (unit_number _ (HD 0%nat)) as (Nr & R1 & R2). destruct (swing_number _ Nr R1 R2) as (Ns & S1 & S2).
    destruct (mul_fine (swing (d_float D 0)) k Ns Nk) as [Vm Nm].
    assert (N : f64_valid (f64_add x (f64_mul (swing (d_float D 0)) k)) = true ∧ f64_is_nan (f64_add x (f64_mul (swing (d_float D 0)) k)) = false).
    { destruct (f64_mul (swing (d_float D 0)) k) as [z|z| |z m e]; try done; [by apply add_fine|by rewrite add_infinite|by apply add_fine]. }
    destruct N as [V N]. destruct (clamp_range lo hi _ Nl Nh L V N) as (? & ? & ?). split; [done|]. split; [done|]. split; [done|].
    intros Hq. exfalso. apply Hq. right. by left.
  - rewrite F. do 4 rewrite decide_False by done. rewrite decide_True by done.
    apply has_param in Hlo as [-> Nl], Hhi as [-> Nh], Hk as [-> Nk]. set (dir := if f64_lt _ one_half then _ else _).
    assert (Nd : number dir) by (unfold dir; destruct (f64_lt _ _); split; vm_compute; reflexivity).
    destruct (f64_ge _ _); intros E; injection E as _ <-.
    + destruct (mul_fine dir k Nd Nk) as [Vm Nm].
      assert (N : f64_valid (f64_add x (f64_mul dir k)) = true ∧ f64_is_nan (f64_add x (f64_mul dir k)) = false).
      { destruct (f64_mul dir k) as [z|z| |z m e]; try done; [by apply add_fine|by rewrite add_infinite|by apply add_fine]. }
      destruct N as [V N]. assert (L : fl_le lo hi) by exact (leb_trans lo x hi Nl Ny Nh L1 L2).
      destruct (clamp_range lo hi _ Nl Nh L V N) as (? & ? & ?). split; [done|]. split; [done|]. split; [done|].
      intros Hq. exfalso. apply Hq. right. right. by left.
    + split; [done|]. split; [done|]. split; done.
  - rewrite F. rewrite decide_True by done. intros E. injection E as _ <-.
    apply has_param in Hb as [-> Nb], Hk as [-> Nk].
    destruct (unit_number _ (HD 0%nat)) as (Nr & R1 & R2). destruct (swing_number _ Nr R1 R2) as (Ns & S1 & S2).
    destruct (spread_range b k _ _ Nb Nk Ns K S1 S2 (mul_rounds _ _ Ns Nk)) as (V & A1 & A2). split; [done|]. split; [done|]. split.
    + intros Hq. exfalso. revert Hq. apply (bool_decide_unpack _). vm_compute. exact I.
    + intros Hq. exfalso. apply Hq. do 3 right. by left.
  - rewrite F. do 2 rewrite decide_False by done. rewrite decide_True by done. intros E. injection E as _ <-.
    apply has_param in Hb as [-> Nb], Hk as [-> Nk], Hl as [-> Nl].
    assert (Fin : f64_finite (f64_mul two_pi (f64_div (f64_of_Z (t + f64_to_int64 (param s "phase"))) l)) = true).
    { apply cycle_number; [|done|done|split; vm_compute; reflexivity|vm_compute; reflexivity|vm_compute; reflexivity].
      pose proof (int64_abs (param s "phase")). lia. }
    destruct (Hs _ Fin) as (Ns & S1 & S2).
    destruct (spread_range b k _ _ Nb Nk Ns K S1 S2 (mul_rounds_swap _ _ Nk Ns)) as (V & A1 & A2). split; [done|]. split; [done|]. split.
    + intros Hq. exfalso. revert Hq. apply (bool_decide_unpack _). vm_compute. exact I.
    + intros Hq. exfalso. apply Hq. do 4 right. by left.
  - rewrite F. do 5 rewrite decide_False by done. rewrite decide_True by done.
    apply has_param in Hlo as [-> Nl], Hhi as [-> Nh].
    assert (Hout : s_pattern s ∈ ["linear"; "random_walk"; "stepped"] -> False).
    { rewrite F. apply (bool_decide_unpack _). vm_compute. exact I. }
    rewrite F in Hout. destruct (_ || _); intros E; injection E as _ <-.
    + destruct (unit_number _ (HD 1%nat)) as (Nr & R1 & R2).
      assert (P : fl_le zero (f64_sub hi lo)).
      { by apply sub_nonneg. }
      destruct (part_range lo (f64_sub hi lo) _ _ Nl Nm Nr P R1 R2 (mul_rounds _ _ Nr Nm)) as (V & A1 & A2). split; [done|]. split; [done|].
      split; [by intros ?%Hout|]. intros Hq. exfalso. apply Hq. do 5 right. by left.
    + split; [done|]. split; [done|]. split; [by intros ?%Hout|done].
  - repeat (rewrite decide_False by (intros E; apply F; rewrite E; apply (bool_decide_unpack _); vm_compute; exact I)). intros E. injection E as _ <-.
    pose proof (le_refl x Ny) as Lx. split; [exact Lx|]. split; [exact Lx|]. split; [done|done].
Qed.

(** ** Runs *)
Lemma range_frame s s' lo hi : range_of s lo hi -> s_type s' = s_type s -> s_interval s' = s_interval s -> s_pattern s' = s_pattern s ->
  s_params s' = s_params s -> s_value s' = s_value s -> range_of s' lo hi.
Proof.
  intros R E1 E2 E3 E4 E5. destruct s as [p v ty st i pt ps c], s' as [p' v' ty' st' i' pt' ps' c']. cbn in *. subst.
  destruct R as [lo hi k y F Hlo Hhi Hk L Hi Ey Ny|lo hi k y F Hlo Hhi Hk K L Ey Ny|lo hi k y F Hlo Hhi Hk Ey Ny L1 L2
    |b k y F Hb Hk K Ey|b k l y F Hb Hk K Hl L Ey|lo hi y F Hlo Hhi L Nm Ey L1 L2|y F1 F Ey Ny].
  - by eapply (rg_linear _ lo hi k y).
  - by eapply (rg_walk _ lo hi k y).
  - by eapply (rg_stepped _ lo hi k y).
  - by eapply (rg_noise _ b k y).
  - by eapply (rg_wave _ b k l y).
  - by eapply (rg_triggered _ lo hi y).
  - by eapply (rg_still _ y).
Qed.
Lemma range_value s lo hi x v : range_of s lo hi -> s_value s = PNum x -> fl_le lo v -> fl_le v hi ->
  (s_pattern s ∈ ["linear"; "random_walk"; "stepped"] -> number v) ->
  (s_pattern s ∉ ["linear"; "random_walk"; "stepped"; "constant_with_noise"; "sinusoidal"; "triggered"] -> v = x) ->
  range_of (set_value (PNum v) s) lo hi.
Proof.
  intros R Ex L' L'' N' E'. destruct s as [p u ty st i pt ps c]. unfold set_value. cbn [s_path s_type s_stamp s_interval s_pattern s_params s_count s_value] in *.
  subst u.
  destruct R as [lo hi k y F Hlo Hhi Hk L Hi Ey Ny|lo hi k y F Hlo Hhi Hk K L Ey Ny|lo hi k y F Hlo Hhi Hk Ey Ny L1 L2
    |b k y F Hb Hk K Ey|b k l y F Hb Hk K Hl L Ey|lo hi y F Hlo Hhi L Nm Ey L1 L2|y F1 F Ey Ny].
  - eapply (rg_linear _ lo hi k v); try done. apply N'. destruct F as [_ F]. cbn in F. rewrite F. by left.
  - eapply (rg_walk _ lo hi k v); try done. apply N'. destruct F as [_ F]. cbn in F. rewrite F. right. by left.
  - eapply (rg_stepped _ lo hi k v); try done. apply N'. destruct F as [_ F]. cbn in F. rewrite F. right. right. by left.
  - by eapply (rg_noise _ b k v).
  - by eapply (rg_wave _ b k l v).
  - by eapply (rg_triggered _ lo hi v).
  - cbn in F, Ey. injection Ey as <-. assert (v = x) as -> by by apply E'. by eapply (rg_still _ x).
Qed.
Lemma range_number s lo hi : range_of s lo hi -> s_type s = "number" ∧ exists x, s_value s = PNum x.
Proof. destruct 1; (split; [first [done | by match goal with H : follows _ _ |- _ => apply H end]|by eexists]). Qed.
Lemma solo_range w t p s lo hi s' us : range_of s lo hi -> (forall t p, fair (w_draws w t p)) -> sine (w_sin w) -> 0 <= t < 2 ^ 63 ->
  solo w t p s = Ok (s', us) -> range_of s' lo hi ∧ Forall (fun u => within lo hi (u_value u)) us.
Proof.
  intros R HD Hs Ht. unfold solo. destruct (decide (s_interval s = 0)); [done|]. destruct (decide _).
  2:{ intros [= <- <-]. split; [done|constructor]. }
  destruct (new_value _ _ _ _ _) as [[s1 v]| |] eqn:E; cbn [rbind]; [|done|done]. intros [= <- <-].
  pose proof (new_value_frame _ _ _ _ _ _ _ E) as (_ & Ev & Ety & _ & Ei & Ept & Eps).
  destruct (range_number _ _ _ R) as [Ty [x Ex]].
  assert (G : exists y, v = PNum y ∧ fl_le lo y ∧ fl_le y hi ∧ (s_pattern s ∈ ["linear"; "random_walk"; "stepped"] -> number y) ∧
    (s_pattern s ∉ ["linear"; "random_walk"; "stepped"; "constant_with_noise"; "sinusoidal"; "triggered"] -> y = x)).
  { unfold new_value in E. cbn [s_type set_count] in E. rewrite Ty in E. rewrite decide_True in E by done. cbn [s_value set_count] in E. rewrite Ex in E.
    destruct (new_number _ _ _ _ _) as [n1 y] eqn:En. injection E as _ <-. exists y. split; [done|].
    assert (R1 : range_of (set_count (s_count s + 1) s) lo hi) by by apply (range_frame s).
    exact (new_number_range _ _ _ _ _ _ _ _ _ R1 Ex (HD t p) Hs Ht En). }
  destruct G as (y & -> & L1 & L2 & N & S). split; [|constructor; [by exists y|constructor]].
  assert (R1 : range_of s1 lo hi) by by apply (range_frame s).
  destruct (negb _); [|by apply (range_frame s1)]. apply (range_frame (set_value (PNum y) s1)); try done.
  apply (range_value s1 lo hi x); [done|congruence|done|done|by rewrite Ept|by rewrite Ept].
Qed.
Lemma solo_times_range w ts p s lo hi s' us : range_of s lo hi -> (forall t p, fair (w_draws w t p)) -> sine (w_sin w) ->
  Forall (fun t => 0 <= t < 2 ^ 63) ts -> solo_times w ts p s = Ok (s', us) -> range_of s' lo hi ∧ Forall (fun u => within lo hi (u_value u)) us.
Proof.
  intros R HD Hs Ht. revert s us R. induction Ht as [|t ts Ht _ IH]; intros s us R; cbn [solo_times]; [by intros [= <- <-]|].
  destruct (solo w t p s) as [[s1 us1]| |] eqn:E; cbn [rbind fst snd]; [|done|done].
  destruct (solo_times w ts p s1) as [[s2 us2]| |] eqn:E2; cbn [rbind fst snd]; [|done|done]. intros [= <- <-].
  apply (solo_range _ _ _ _ lo hi) in E as [R1 F1]; [|done..]. apply IH in E2 as [R2 F2]; [|done]. split; [done|]. by apply Forall_app.
Qed.
Lemma values_range w v sec inc m p s lo hi : simulate w v None sec inc = Ok m -> orders_ok w -> NoDup (akeys (sensors v)) -> 0 < inc ->
  sec * 1000 < 2 ^ 63 -> random_ok w -> sine (w_sin w) -> (p, s) ∈ sensors v -> range_of s lo hi ->
  forall q, q ∈ m_spatches m -> sp_path q = p -> within lo hi (sp_value q).
Proof.
  intros (m0 & H0 & H)%simulate_inv [Ho _] Hnd Hi Hsec [HD _] Hs Hin R. apply start_zero in H0 as (V & Sc & _ & J & T & S & _).
  apply run_times_solo in H as (uss & A & _ & K & _ & _ & P); [|done|done|by rewrite V].
  rewrite V in *. destruct (P p s Hin) as (s' & E & Hin'). destruct A. rewrite af_sp, S. cbn [app].
  apply (solo_times_range _ _ _ _ lo hi) in E as [_ F]; [|done..|].
  - intros q Hq Hp. apply elem_of_list_fmap in Hq as (u & -> & Hu). cbn in *. rewrite List.Forall_forall in F. apply F.
    apply List.filter_In. split; [by apply elem_of_list_In|]. unfold on. by apply bool_decide_eq_true.
  - rewrite List.Forall_forall. intros t Ht%elem_of_list_In. apply loop_times_spec in Ht; [|done]. destruct Ht as [Ht _]. lia.
Qed.
