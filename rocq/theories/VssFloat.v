(** The numbers drawn by the vehicle data generator. *)
From Verif Require Import Base F64 F64Lemmas Vss VssSpec.
From Coq Require Import Lia.

Lemma iter_pos_nat {A} (f : A -> A) p : forall x, iter_pos f p x = Nat.iter (Pos.to_nat p) f x.
Proof.
  assert (Add : forall n n' x, Nat.iter (n + n') f x = Nat.iter n f (Nat.iter n' f x)).
  { induction n as [|n IH]; intros n' x; [done|]. simpl. by rewrite IH. }
  induction p as [p IH|p IH|]; intros x; cbn [iter_pos]; [| |done].
  - rewrite !IH, Pos2Nat.inj_xI. change (f x) with (Nat.iter 1 f x). rewrite <- !Add. f_equal. lia.
  - rewrite !IH, Pos2Nat.inj_xO, <- Add. f_equal. lia.
Qed.
(** Shifting to the right keeps the quotient and whether the rest is at least one half. *)
Lemma shr_1_half m r s : 0 <= m -> shr_m (shr_1 (Build_shr_record m r s)) = m / 2 ∧
  (shr_r (shr_1 (Build_shr_record m r s)) = true -> m mod 2 = 1).
Proof.
  intros Hm. destruct m as [|[p|p|]|p]; [done| | |done|lia].
  - replace (Z.pos p~1) with (1 + Z.pos p * 2) by lia. split.
    + rewrite Z.div_add by lia. change (1 + Z.pos p * 2) with (1 + Z.pos p * 2). replace (1 + Z.pos p * 2) with (Z.pos p~1) by lia. done.
    + intros _. by rewrite Z.mod_add by lia.
  - split.
    + replace (Z.pos p~0) with (0 + Z.pos p * 2) at 2 by lia. by rewrite Z.div_add by lia.
    + done.
Qed.
Lemma shr_iter m n : 0 <= m ->
  let r := Nat.iter n shr_1 (Build_shr_record m false false) in
  shr_m r = m / 2 ^ Z.of_nat n ∧ (shr_r r = true -> 2 ^ Z.of_nat n <= 2 * (m mod 2 ^ Z.of_nat n)).
Proof.
  intros Hm. induction n as [|n IH].
  - cbn. split; [by rewrite Z.div_1_r|done].
  - cbn zeta in IH |- *. rewrite Nat2Z.inj_succ, Z.pow_succ_r by lia. cbn [Nat.iter nat_rect].
    set (r := Nat.iter n shr_1 (Build_shr_record m false false)) in *.
    change (nat_rect (λ _ : nat, shr_record) _ _ n) with r. destruct IH as [IH1 _].
    assert (Hp : 0 < 2 ^ Z.of_nat n) by (apply Z.pow_pos_nonneg; lia).
    destruct r as [q rr ss]. cbn [shr_m] in IH1. subst q.
    destruct (shr_1_half (m / 2 ^ Z.of_nat n) rr ss) as [E1 E2]; [by apply Z.div_pos|]. split.
    + rewrite E1. rewrite Z.div_div by lia. f_equal. lia.
    + intros Hr. apply E2 in Hr. rewrite (Z.mul_comm 2 (2 ^ _)), Z.rem_mul_r by lia. rewrite Hr.
      pose proof (Z.mod_pos_bound m (2 ^ Z.of_nat n)). lia.
Qed.
Lemma round_up_bound mx r : round_nearest_even (shr_m mx) (loc_of_shr_record mx) = r ->
  r = shr_m mx ∨ (r = shr_m mx + 1 ∧ shr_r mx = true).
Proof.
  destruct mx as [m [] []]; cbn; try (intros <-; by left); try (intros <-; by right).
  destruct (Z.even m); intros <-; [by left|by right].
Qed.
(** Rounding a positive number with many digits: the result is at most half a unit too large. *)
Lemma round_many M e n D : 53 <= D -> n = D - 53 -> 0 < n -> 2 ^ (D - 1) <= Z.pos M < 2 ^ D -> -1021 <= D + e <= 900 ->
  exists r, 2 ^ 52 <= r <= 2 ^ 53 ∧ 2 * r * 2 ^ n <= 2 * Z.pos M + 2 ^ n ∧
    binary_round_aux f64_prec f64_emax false (Z.pos M) e loc_Exact =
    if r =? 2 ^ 53 then S754_finite false (2 ^ 52) (e + n + 1) else S754_finite false (Z.to_pos r) (e + n).
Proof.
  intros HD Hn Hn0 HM He. unfold binary_round_aux, shr_fexp. cbn [shr_record_of_loc Zdigits2].
  rewrite (digits2_unique M D) by lia.
  assert (Ef : fexp f64_prec f64_emax (D + e) - e = n) by (unfold fexp, emin, f64_prec, f64_emax; lia).
  rewrite Ef. destruct n as [|p|p]; try lia. cbn [shr]. rewrite iter_pos_nat.
  destruct (shr_iter (Z.pos M) (Pos.to_nat p)) as [E1 E2]; [lia|]. cbn zeta in E1, E2.
  set (mr := Nat.iter (Pos.to_nat p) shr_1 (Build_shr_record (Z.pos M) false false)) in *.
  rewrite positive_nat_Z in E1, E2. set (n := Z.pos p) in *.
  assert (Hp : 0 < 2 ^ n) by (apply Z.pow_pos_nonneg; lia).
  assert (Eq1 : 2 ^ (D - 1) = 2 ^ 52 * 2 ^ n) by (rewrite <- Z.pow_add_r by lia; f_equal; lia).
  assert (Eq2 : 2 ^ D = 2 ^ 53 * 2 ^ n) by (rewrite <- Z.pow_add_r by lia; f_equal; lia).
  assert (Hq : 2 ^ 52 <= Z.pos M / 2 ^ n < 2 ^ 53).
  { split; [apply Z.div_le_lower_bound; lia|apply Z.div_lt_upper_bound; lia]. }
  set (r := round_nearest_even (shr_m mr) (loc_of_shr_record mr)).
  assert (Hdm := Z.div_mod (Z.pos M) (2 ^ n) ltac:(lia)). assert (Hmb := Z.mod_pos_bound (Z.pos M) (2 ^ n) Hp).
  exists r. destruct (round_up_bound mr r eq_refl) as [Er|[Er Hr]]; rewrite E1 in Er.
  - split; [lia|]. split; [nia|]. rewrite Er.
    destruct (Z.eqb_spec (Z.pos M / 2 ^ n) (2 ^ 53)) as [|Hne]; [lia|].
    set (q := Z.pos M / 2 ^ n) in *. destruct q as [|qp|qp] eqn:Eqp; try lia. cbn [Zdigits2].
    rewrite (digits2_unique qp 53) by lia.
    replace (fexp f64_prec f64_emax (53 + (e + n)) - (e + n)) with 0 by (unfold fexp, emin, f64_prec, f64_emax; lia).
    cbn [shr shr_m]. replace (Z.leb (e + n) (f64_emax - f64_prec)) with true; [done|].
    symmetry. apply Z.leb_le. unfold f64_emax, f64_prec. lia.
  - specialize (E2 Hr). split; [lia|]. split; [nia|]. rewrite Er.
    set (q := Z.pos M / 2 ^ n) in *. destruct (Z.eqb_spec (q + 1) (2 ^ 53)) as [Hq1|Hne].
    + rewrite Hq1. change (Zdigits2 (2 ^ 53)) with 54.
      replace (fexp f64_prec f64_emax (54 + (e + n)) - (e + n)) with 1 by (unfold fexp, emin, f64_prec, f64_emax; lia).
      change (shr_record_of_loc (2 ^ 53) loc_Exact) with (Build_shr_record (2 ^ 53) false false).
      cbn [shr]. change (shr_m (iter_pos shr_1 1 (Build_shr_record (2 ^ 53) false false))) with (2 ^ 52).
      change (2 ^ 52) with (Z.pos (2 ^ 52)). cbv iota beta.
      replace (Z.leb (e + n + 1) (f64_emax - f64_prec)) with true; [done|].
      symmetry. apply Z.leb_le. unfold f64_emax, f64_prec. lia.
    + destruct (q + 1) as [|qp|qp] eqn:Eqp; try lia. cbn [Zdigits2].
      rewrite (digits2_unique qp 53) by lia.
      replace (fexp f64_prec f64_emax (53 + (e + n)) - (e + n)) with 0 by (unfold fexp, emin, f64_prec, f64_emax; lia).
      cbn [shr shr_m shr_record_of_loc]. replace (Z.leb (e + n) (f64_emax - f64_prec)) with true; [done|].
      symmetry. apply Z.leb_le. unfold f64_emax, f64_prec. lia.
Qed.
Lemma hundred_eq : hundred = S754_finite false 7036874417766400 (-46).
Proof. vm_compute. reflexivity. Qed.
Lemma draw_hundred x : unit_float x -> f64_mul x hundred = S754_zero false ∨
  exists m e, f64_mul x hundred = S754_finite false m e ∧ 2 ^ 52 <= Z.pos m < 2 ^ 53 ∧ -99 <= e <= -46 ∧
    (e = -46 -> Z.pos m < 7036874417766400).
Proof.
  intros [|m e Hm He]; rewrite hundred_eq; [by left|right].
  unfold f64_mul. cbn [SFmul xorb].
  assert (HM : Z.pos (m * 7036874417766400) = Z.pos m * 7036874417766400) by lia.
  destruct (decide (Z.pos (m * 7036874417766400) < 2 ^ 105)) as [Hs|Hs].
  - destruct (round_many (m * 7036874417766400) (e + -46) 52 105) as (r & Hr & Hb & E); [lia|lia|lia|lia|lia|].
    rewrite E. destruct (Z.eqb_spec r (2 ^ 53)) as [->|Hne].
    + exists (2 ^ 52)%positive, (e + -46 + 52 + 1). split; [done|]. split; [done|]. split; [lia|]. intros _. done.
    + exists (Z.to_pos r), (e + -46 + 52). split; [done|]. rewrite Z2Pos.id by lia. split; [lia|]. split; [lia|]. lia.
  - destruct (round_many (m * 7036874417766400) (e + -46) 53 106) as (r & Hr & Hb & E); [lia|lia|lia|lia|lia|].
    rewrite E. destruct (Z.eqb_spec r (2 ^ 53)) as [->|Hne].
    + exists (2 ^ 52)%positive, (e + -46 + 53 + 1). split; [done|]. split; [done|]. split; [|intros _; done].
      split; [lia|]. destruct (decide (e = -53)) as [->|]; [|lia]. exfalso. lia.
    + exists (Z.to_pos r), (e + -46 + 53). split; [done|]. rewrite Z2Pos.id by lia. split; [lia|]. split; [lia|].
      intros He'. assert (e = -53) by lia. subst e. lia.
Qed.
Lemma finite_lt m e c ec : e < ec ∨ (e = ec ∧ Z.pos m < Z.pos c) ->
  SFltb (S754_finite false m e) (S754_finite false c ec) = true.
Proof.
  intros H. unfold SFltb. cbn [SFcompare]. destruct (Z.compare_spec e ec) as [->|Hlt|Hgt]; [|done|lia].
  destruct H as [H|[_ H]]; [lia|]. apply Z.compare_lt_iff in H. cbn [Z.compare] in H. unfold Pos.compare in H. by rewrite H.
Qed.
Lemma draw_below r : unit_float r -> below_hundred (f64_mul r hundred).
Proof.
  intros H. unfold below_hundred. change (f64_of_Z 100) with hundred.
  apply draw_hundred in H as [->|(m & e & -> & Hm & He & Hb)]; rewrite hundred_eq; [split; reflexivity|].
  split; [reflexivity|]. apply finite_lt. lia.
Qed.
Lemma draw_int r : unit_float r -> 0 <= f64_to_int64 (f64_mul r hundred) < 100.
Proof.
  intros H. apply draw_hundred in H as [->|(m & e & -> & Hm & He & Hb)]; [done|].
  unfold f64_to_int64. rewrite (proj2 (Z.leb_gt 0 e)) by lia.
  assert (Hr : 0 <= Z.pos m / 2 ^ (- e) < 100).
  { split; [apply Z.div_pos; [lia|apply Z.pow_pos_nonneg; lia]|].
    apply Z.div_lt_upper_bound; [apply Z.pow_pos_nonneg; lia|].
    destruct (decide (e = -46)) as [->|Hne]; [specialize (Hb eq_refl); lia|].
    assert (2 ^ 47 <= 2 ^ (- e)) by (apply Z.pow_le_mono_r; lia). lia. }
  replace (in_int64 (Z.pos m / 2 ^ (- e))) with true; [done|].
  symmetry. unfold in_int64, int64_min, int64_max. apply andb_true_iff. rewrite !Z.leb_le. lia.
Qed.
