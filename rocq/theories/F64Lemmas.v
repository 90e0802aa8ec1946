(** Facts about float64: integers up to 2^53 are kept exactly; [==] is equality except for
    zeros and NaN. *)
From Verif Require Import Base F64.
From Coq Require Import Lia.

Lemma digits2_bounds m : 2 ^ (Z.pos (digits2_pos m) - 1) <= Z.pos m < 2 ^ Z.pos (digits2_pos m).
Proof.
  induction m as [m IH|m IH|]; cbn [digits2_pos]; rewrite ?Pos2Z.inj_succ; [..|lia].
  - replace (Z.succ (Z.pos (digits2_pos m)) - 1) with (Z.pos (digits2_pos m)) by lia.
    replace (2 ^ Z.succ (Z.pos (digits2_pos m))) with (2 * 2 ^ Z.pos (digits2_pos m))
      by (rewrite Z.pow_succ_r; lia).
    replace (2 ^ Z.pos (digits2_pos m)) with (2 * 2 ^ (Z.pos (digits2_pos m) - 1)) in *
      by (rewrite <- Z.pow_succ_r; [f_equal; lia|lia]). lia.
  - replace (Z.succ (Z.pos (digits2_pos m)) - 1) with (Z.pos (digits2_pos m)) by lia.
    replace (2 ^ Z.succ (Z.pos (digits2_pos m))) with (2 * 2 ^ Z.pos (digits2_pos m))
      by (rewrite Z.pow_succ_r; lia).
    replace (2 ^ Z.pos (digits2_pos m)) with (2 * 2 ^ (Z.pos (digits2_pos m) - 1)) in *
      by (rewrite <- Z.pow_succ_r; [f_equal; lia|lia]). lia.
Qed.
Lemma digits2_unique m d : 2 ^ (d - 1) <= Z.pos m < 2 ^ d -> 0 < d -> Z.pos (digits2_pos m) = d.
Proof.
  intros H Hd. pose proof (digits2_bounds m) as B.
  assert (~ (Z.pos (digits2_pos m) < d)).
  { intros C. assert (2 ^ Z.pos (digits2_pos m) <= 2 ^ (d - 1)) by (apply Z.pow_le_mono_r; lia). lia. }
  assert (~ (d < Z.pos (digits2_pos m))).
  { intros C. assert (2 ^ d <= 2 ^ (Z.pos (digits2_pos m) - 1)) by (apply Z.pow_le_mono_r; lia). lia. }
  lia.
Qed.

(** An integer below 2^53 keeps its value. *)
Lemma normalize_small s m :
  Z.pos m < 2 ^ 53 ->
  exists m' e, binary_round f64_prec f64_emax s m 0 = S754_finite s m' e
    ∧ e <= 0 ∧ Z.pos m' = Z.pos m * 2 ^ (- e).
Proof.
  intros Hm. pose proof (digits2_bounds m) as B.
  set (d := Z.pos (digits2_pos m)) in *.
  assert (Hd : 1 <= d <= 53).
  { split; [lia|]. destruct (Z_le_gt_dec d 53) as [|C]; [done|].
    assert (2 ^ 53 <= 2 ^ (d - 1)) by (apply Z.pow_le_mono_r; lia). lia. }
  unfold binary_round. fold d.
  assert (Ef : fexp f64_prec f64_emax (d + 0) = d - 53).
  { unfold fexp, emin, f64_prec, f64_emax. lia. }
  rewrite Ef. unfold shl_align.
  assert (H : exists mz ez,
    (match d - 53 - 0 with Z.neg dd => (shift_pos dd m, d - 53) | _ => (m, 0) end) = (mz, ez)
    ∧ ez = d - 53 ∧ Z.pos mz = Z.pos m * 2 ^ (53 - d)).
  { destruct (d - 53 - 0) eqn:E.
    - exists m, 0. split; [done|]. split; [lia|]. replace (53 - d) with 0 by lia. simpl. lia.
    - lia.
    - exists (shift_pos p m), (d - 53). split; [done|]. split; [done|].
      replace (53 - d) with (Z.pos p) by lia.
      rewrite shift_pos_correct. change (Z.pow_pos 2 p) with (2 ^ Z.pos p). lia. }
  destruct H as (mz & ez & -> & -> & Hmz).
  assert (Hdz : Z.pos (digits2_pos mz) = 53).
  { apply digits2_unique; [|lia]. rewrite Hmz. split.
    - replace (53 - 1) with ((d - 1) + (53 - d)) by lia. rewrite Z.pow_add_r by lia.
      apply Z.mul_le_mono_nonneg_r; [|lia]. apply Z.pow_nonneg. lia.
    - replace 53 with (d + (53 - d)) at 2 by lia. rewrite Z.pow_add_r by lia.
      apply Z.mul_lt_mono_pos_r; [|lia]. apply Z.pow_pos_nonneg; lia. }
  exists mz, (d - 53). split; [|split; [lia|]].
  2:{ rewrite Hmz. f_equal. f_equal. lia. }
  unfold binary_round_aux, shr_fexp. cbn [shr_record_of_loc Zdigits2]. rewrite Hdz.
  assert (Ef2 : fexp f64_prec f64_emax (53 + (d - 53)) - (d - 53) = 0).
  { unfold fexp, emin, f64_prec, f64_emax. lia. }
  rewrite Ef2. cbn [shr]. cbn [shr_m loc_of_shr_record round_nearest_even Zdigits2 shr_record_of_loc].
  rewrite Hdz, Ef2. cbn [shr shr_m].
  replace (Z.leb (d - 53) (f64_emax - f64_prec)) with true; [done|].
  symmetry. apply Z.leb_le. unfold f64_emax, f64_prec. lia.
Qed.

Definition exact_int (z : Z) : Prop := - 2 ^ 53 <= z <= 2 ^ 53.

Lemma f64_int_roundtrip z : exact_int z -> f64_to_int64 (f64_of_Z z) = z.
Proof.
  intros H. unfold exact_int in H.
  destruct (decide (z = 2 ^ 53)) as [->|H1]; [vm_compute; reflexivity|].
  destruct (decide (z = - 2 ^ 53)) as [->|H2]; [vm_compute; reflexivity|].
  destruct z as [|m|m]; [reflexivity| |]; unfold f64_of_Z, binary_normalize.
  - destruct (normalize_small false m) as (m' & e & -> & He & Hm); [lia|].
    unfold f64_to_int64. rewrite Hm.
    assert (Z.pos m * 2 ^ (- e) / 2 ^ (- e) = Z.pos m) as HH.
    { apply Z.div_mul. apply Z.pow_nonzero; lia. }
    destruct (0 <=? e) eqn:E.
    + apply Z.leb_le in E. replace e with 0 by lia. simpl (- 0). rewrite Z.pow_0_r, !Z.mul_1_r.
      replace (in_int64 (Z.pos m)) with true; [done|]. symmetry. unfold in_int64, int64_min, int64_max.
      apply andb_true_iff. rewrite !Z.leb_le. lia.
    + rewrite HH.
      replace (in_int64 (Z.pos m)) with true; [done|]. symmetry. unfold in_int64, int64_min, int64_max.
      apply andb_true_iff. rewrite !Z.leb_le. lia.
  - destruct (normalize_small true m) as (m' & e & -> & He & Hm); [lia|].
    unfold f64_to_int64. rewrite Hm.
    assert (Z.pos m * 2 ^ (- e) / 2 ^ (- e) = Z.pos m) as HH.
    { apply Z.div_mul. apply Z.pow_nonzero; lia. }
    destruct (0 <=? e) eqn:E.
    + apply Z.leb_le in E. replace e with 0 by lia. simpl (- 0). rewrite Z.pow_0_r, !Z.mul_1_r.
      replace (in_int64 (- Z.pos m)) with true; [done|]. symmetry. unfold in_int64, int64_min, int64_max.
      apply andb_true_iff. rewrite !Z.leb_le. lia.
    + rewrite HH.
      replace (in_int64 (- Z.pos m)) with true; [done|]. symmetry. unfold in_int64, int64_min, int64_max.
      apply andb_true_iff. rewrite !Z.leb_le. lia.
Qed.

Lemma f64_eq_true x y :
  f64_eq x y = true ->
  x = y ∨ exists s s', x = S754_zero s ∧ y = S754_zero s'.
Proof.
  unfold f64_eq, SFeqb. destruct x as [s|s| |s m e], y as [s'|s'| |s' m' e']; simpl;
    try done; try (by destruct s); try (by destruct s'); try (by destruct s, s'; simpl; try done; left).
  - intros _. right. eauto.
  - destruct s, s'; try done.
    + destruct (Z.compare_spec e e') as [->| |]; try done.
      fold (Pos.compare m m'). destruct (Pos.compare_spec m m') as [->| |]; simpl; try done. by left.
    + destruct (Z.compare_spec e e') as [->| |]; try done.
      fold (Pos.compare m m'). destruct (Pos.compare_spec m m') as [->| |]; simpl; try done. by left.
Qed.
Lemma f64_eq_refl x : f64_is_nan x = false -> f64_eq x x = true.
Proof.
  unfold f64_eq, SFeqb. destruct x as [s|s| |s m e]; simpl; try done; intros _.
  - by destruct s.
  - rewrite Z.compare_refl. fold (Pos.compare m m). rewrite Pos.compare_refl. by destruct s.
Qed.
Lemma f64_finite_not_nan x : f64_finite x = true -> f64_is_nan x = false.
Proof. by destruct x. Qed.

Lemma f64_of_Z_not_nan z : exact_int z -> f64_is_nan (f64_of_Z z) = false.
Proof.
  intros H. unfold exact_int in H.
  destruct (decide (z = 2 ^ 53)) as [->|H1]; [vm_compute; reflexivity|].
  destruct (decide (z = - 2 ^ 53)) as [->|H2]; [vm_compute; reflexivity|].
  destruct z as [|m|m]; [reflexivity| |]; unfold f64_of_Z, binary_normalize.
  - destruct (normalize_small false m) as (m' & e & -> & He & Hm); [lia|done].
  - destruct (normalize_small true m) as (m' & e & -> & He & Hm); [lia|done].
Qed.

(** On integers up to 2^53 the float comparison decides equality. *)
Lemma f64_of_Z_eq x y :
  exact_int x -> exact_int y -> f64_eq (f64_of_Z x) (f64_of_Z y) = true <-> x = y.
Proof.
  intros Hx Hy. split.
  - intros E. rewrite <- (f64_int_roundtrip x), <- (f64_int_roundtrip y) by done.
    destruct (f64_eq_true _ _ E) as [->|(s & s' & -> & ->)]; done.
  - intros ->. apply f64_eq_refl. by apply f64_of_Z_not_nan.
Qed.
