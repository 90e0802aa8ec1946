(** Integers read from a float64 are integers a float64 can hold. *)
From Verif Require Import Base F64 F64Lemmas.
From Coq Require Import Lia.

Definition clean_record (m : Z) : shr_record := {| shr_m := m; shr_r := false; shr_s := false |}.

Lemma iter_pos_add {A} (f : A -> A) p x : iter_pos f (Pos.succ p) x = f (iter_pos f p x).
Proof.
  assert (H : forall q y, iter_pos f q (f y) = f (iter_pos f q y)).
  { induction q as [q IH|q IH|]; intros y; cbn [iter_pos]; [by rewrite !IH..|done]. }
  revert x. induction p as [p IH|p IH|]; intros x; cbn [Pos.succ iter_pos]; [by rewrite !IH, !H|by rewrite !H|done].
Qed.
Lemma shr_1_m mrs : 0 <= shr_m mrs -> shr_m (shr_1 mrs) = shr_m mrs / 2.
Proof.
  destruct mrs as [[|[p|p|]|p] r s]; cbn [shr_m]; intros H; try done; try lia; cbn [shr_1 shr_m].
  - rewrite (Pos2Z.inj_xI p). apply Z.div_unique with 1; lia.
  - rewrite (Pos2Z.inj_xO p). apply Z.div_unique with 0; lia.
Qed.
Lemma shr_1_exact m : 0 <= m -> m mod 2 = 0 -> shr_1 (clean_record m) = clean_record (m / 2).
Proof.
  destruct m as [|[p|p|]|p]; intros H Hm; try done; try lia.
  - exfalso. rewrite (Pos2Z.inj_xI p) in Hm. pose proof (Z.mod_unique (2 * Z.pos p + 1) 2 (Z.pos p) 1). lia.
  - unfold clean_record. cbn [shr_1 orb]. f_equal. rewrite (Pos2Z.inj_xO p). apply Z.div_unique with 0; lia.
Qed.
Lemma iter_shr_m p mrs : 0 <= shr_m mrs -> shr_m (iter_pos shr_1 p mrs) = shr_m mrs / 2 ^ Z.pos p.
Proof.
  intros H. induction p as [|p IH] using Pos.peano_ind; [by apply shr_1_m|].
  rewrite iter_pos_add, shr_1_m, IH.
  - rewrite Pos2Z.inj_succ, Z.pow_succ_r by lia. rewrite Z.div_div by lia. f_equal. lia.
  - rewrite IH. apply Z.div_pos; [done|]. apply Z.pow_pos_nonneg; lia.
Qed.
Lemma iter_shr_exact p m : 0 <= m -> iter_pos shr_1 p (clean_record (m * 2 ^ Z.pos p)) = clean_record m.
Proof.
  intros H. revert m H. induction p as [|p IH] using Pos.peano_ind; intros m H.
  - cbn [iter_pos]. change (2 ^ 1) with 2. rewrite shr_1_exact; [|lia|apply Z.mod_mul; lia].
    by rewrite Z.div_mul by lia.
  - rewrite iter_pos_add. replace (m * 2 ^ Z.pos (Pos.succ p)) with (m * 2 * 2 ^ Z.pos p).
    2:{ rewrite Pos2Z.inj_succ, Z.pow_succ_r by lia. lia. }
    rewrite IH by lia. rewrite shr_1_exact; [|lia|apply Z.mod_mul; lia]. by rewrite Z.div_mul by lia.
Qed.
Lemma round_nearest mx l : 0 <= mx -> round_nearest_even mx l = mx ∨ round_nearest_even mx l = mx + 1.
Proof. intros H. unfold round_nearest_even. destruct l as [|[| |]]; auto. destruct (Z.even mx); auto. Qed.

(** An integer from 2^53 on is rounded to 53 bits, and kept if it has no more. *)
Lemma round_big s m : 2 ^ 53 <= Z.pos m < 2 ^ 65 ->
  exists m' e, binary_round f64_prec f64_emax s m 0 = S754_finite s m' e ∧ Z.pos m' < 2 ^ 53 ∧ 0 < e ∧
    (forall k e', Z.pos m = k * 2 ^ e' -> 0 <= k < 2 ^ 53 -> 0 <= e' -> Z.pos m' * 2 ^ e = Z.pos m).
Proof.
  intros Hm. pose proof (digits2_bounds m) as B.
  set (d := Z.pos (digits2_pos m)) in *.
  assert (Hd : 53 < d <= 65).
  { split.
    - destruct (Z_lt_le_dec 53 d) as [|C]; [done|].
      assert (2 ^ d <= 2 ^ 53) by (apply Z.pow_le_mono_r; lia). lia.
    - destruct (Z_le_gt_dec d 65) as [|C]; [done|].
      assert (2 ^ 65 <= 2 ^ (d - 1)) by (apply Z.pow_le_mono_r; lia). lia. }
  destruct (d - 53) as [|p|p] eqn:Ep; try lia.
  unfold binary_round. fold d.
  assert (Ef : fexp f64_prec f64_emax (d + 0) = Z.pos p).
  { unfold fexp, emin, f64_prec, f64_emax. lia. }
  rewrite Ef. unfold shl_align. change (Z.pos p - 0) with (Z.pos p). cbv iota beta.
  unfold binary_round_aux, shr_fexp at 1. cbn [shr_record_of_loc Zdigits2]. fold d. rewrite Ef. change (Z.pos p - 0) with (Z.pos p). cbn [shr].
  fold (clean_record (Z.pos m)).
  set (r1 := iter_pos shr_1 p (clean_record (Z.pos m))).
  assert (H1 : shr_m r1 = Z.pos m / 2 ^ Z.pos p) by (apply iter_shr_m; cbn; lia).
  assert (HP : 0 < 2 ^ Z.pos p) by (apply Z.pow_pos_nonneg; lia).
  assert (B1 : 2 ^ 52 <= shr_m r1 < 2 ^ 53).
  { rewrite H1. split.
    - apply Z.div_le_lower_bound; [done|]. rewrite <- Z.pow_add_r by lia. replace (Z.pos p + 52) with (d - 1) by lia. lia.
    - apply Z.div_lt_upper_bound; [done|]. rewrite <- Z.pow_add_r by lia. replace (Z.pos p + 53) with d by lia. lia. }
  set (n := round_nearest_even (shr_m r1) (loc_of_shr_record r1)).
  assert (Hn : n = shr_m r1 ∨ n = shr_m r1 + 1) by (apply round_nearest; lia).
  assert (HX : forall k e', Z.pos m = k * 2 ^ e' -> 0 <= k < 2 ^ 53 -> 0 <= e' -> n * 2 ^ Z.pos p = Z.pos m).
  { intros k e' E Hk He'.
    assert (Hle : Z.pos p <= e').
    { destruct (Z_le_gt_dec (Z.pos p) e') as [|C]; [done|].
      assert (2 ^ (e' + 53) <= 2 ^ (d - 1)) by (apply Z.pow_le_mono_r; lia). rewrite Z.pow_add_r in H by lia. nia. }
    assert (E2 : Z.pos m = k * 2 ^ (e' - Z.pos p) * 2 ^ Z.pos p).
    { rewrite <- Z.mul_assoc, <- Z.pow_add_r by lia. rewrite E. do 2 f_equal. lia. }
    assert (0 <= k * 2 ^ (e' - Z.pos p)) by (apply Z.mul_nonneg_nonneg; [lia|apply Z.pow_nonneg; lia]).
    assert (Er : r1 = clean_record (k * 2 ^ (e' - Z.pos p))).
    { unfold r1. rewrite E2. by apply iter_shr_exact. }
    unfold n. rewrite Er. cbn [clean_record shr_m loc_of_shr_record round_nearest_even]. by rewrite <- E2. }
  assert (Hn2 : 2 ^ 52 <= n <= 2 ^ 53) by lia. clearbody n. clear r1 H1 Hn B1 Hm B Ef.
  destruct n as [|n|n]; try lia.
  unfold shr_fexp. cbn [shr_record_of_loc Zdigits2].
  destruct (decide (Z.pos n = 2 ^ 53)) as [E53|N53].
  - assert (Ed : Z.pos (digits2_pos n) = 54) by (apply digits2_unique; lia).
    assert (Ef : fexp f64_prec f64_emax (Z.pos (digits2_pos n) + (0 + Z.pos p)) - (0 + Z.pos p) = 1).
    { rewrite Ed. unfold fexp, emin, f64_prec, f64_emax. lia. }
    rewrite Ef. cbn [shr]. fold (clean_record (Z.pos n)).
    assert (Er : iter_pos shr_1 1 (clean_record (Z.pos n)) = clean_record (2 ^ 52)).
    { rewrite E53. change (2 ^ 53) with (2 ^ 52 * 2 ^ 1). apply iter_shr_exact. lia. }
    rewrite Er.
    unfold clean_record. cbn [shr_m]. change (2 ^ 52) with (Z.pos (2 ^ 52)%positive). cbv iota.
    replace (0 + Z.pos p + 1 <=? f64_emax - f64_prec) with true.
    2:{ symmetry. apply Z.leb_le. unfold f64_emax, f64_prec. lia. }
    eexists _, _. split; [reflexivity|]. split; [lia|]. split; [lia|].
    intros k e' E Hk He'. rewrite <- (HX k e' E Hk He'). change (Z.pos (2 ^ 52)%positive) with (2 ^ 52).
    rewrite Z.pow_add_r by lia. rewrite E53. change (2 ^ 1) with 2. change (0 + Z.pos p) with (Z.pos p). lia.
  - assert (Ed : Z.pos (digits2_pos n) = 53) by (apply digits2_unique; lia).
    assert (Ef : fexp f64_prec f64_emax (Z.pos (digits2_pos n) + (0 + Z.pos p)) - (0 + Z.pos p) = 0).
    { rewrite Ed. unfold fexp, emin, f64_prec, f64_emax. lia. }
    rewrite Ef. cbn [shr shr_m].
    replace (0 + Z.pos p <=? f64_emax - f64_prec) with true.
    2:{ symmetry. apply Z.leb_le. unfold f64_emax, f64_prec. lia. }
    eexists _, _. split; [reflexivity|]. split; [lia|]. split; [lia|]. exact HX.
Qed.

(** An integer of at most 53 bits, shifted to the left, is kept. *)
Lemma f64_shifted_roundtrip z k e : Z.abs z = k * 2 ^ e -> 0 <= k < 2 ^ 53 -> 0 <= e -> in_int64 z = true -> f64_to_int64 (f64_of_Z z) = z.
Proof.
  intros E Hk He Hz. destruct (decide (exact_int z)) as [H|H]; [by apply f64_int_roundtrip|].
  assert (HB : - 2 ^ 63 <= z < 2 ^ 63).
  { unfold in_int64, int64_min, int64_max in Hz. apply andb_true_iff in Hz as [?%Z.leb_le ?%Z.leb_le]. lia. }
  unfold exact_int in H. destruct z as [|m|m]; [lia| |]; unfold f64_of_Z, binary_normalize; cbn [Z.abs] in E.
  - destruct (round_big false m) as (m' & e' & -> & _ & He' & HX); [lia|].
    unfold f64_to_int64. rewrite (proj2 (Z.leb_le 0 e')) by lia. rewrite (HX k e E Hk He). by rewrite Hz.
  - destruct (round_big true m) as (m' & e' & -> & _ & He' & HX); [lia|].
    unfold f64_to_int64. rewrite (proj2 (Z.leb_le 0 e')) by lia. rewrite (HX k e E Hk He).
    change (- Z.pos m) with (Z.neg m). by rewrite Hz.
Qed.
(** So is every int64 read from a float64. *)
Lemma f64_read_stable s m e z : Z.pos m < 2 ^ 53 -> f64_to_int64 (S754_finite s m e) = z -> f64_to_int64 (f64_of_Z z) = z.
Proof.
  intros Hm. unfold f64_to_int64 at 1.
  set (a := if 0 <=? e then Z.pos m * 2 ^ e else Z.pos m / 2 ^ (- e)).
  assert (Ha : exists k e', a = k * 2 ^ e' ∧ 0 <= k < 2 ^ 53 ∧ 0 <= e').
  { unfold a. destruct (Z.leb_spec 0 e).
    - exists (Z.pos m), e. lia.
    - exists (Z.pos m / 2 ^ (- e)), 0. split; [lia|]. split; [|lia]. split.
      + apply Z.div_pos; [lia|]. apply Z.pow_pos_nonneg; lia.
      + apply Z.le_lt_trans with (Z.pos m); [|done]. apply Z.div_le_upper_bound; [apply Z.pow_pos_nonneg; lia|].
        assert (0 < 2 ^ (- e)) by (apply Z.pow_pos_nonneg; lia). nia. }
  clearbody a. destruct Ha as (k & e' & Ea & Hk & He').
  assert (0 <= a) by (rewrite Ea; apply Z.mul_nonneg_nonneg; [lia|apply Z.pow_nonneg; lia]).
  destruct (in_int64 (if s then - a else a)) eqn:Ei; intros <-; [|vm_compute; reflexivity].
  apply (f64_shifted_roundtrip _ k e'); try done. destruct s; lia.
Qed.
(** A valid float64 has at most 53 bits, and so does a rounded int64. *)
Lemma f64_valid_bits s m e : f64_valid (S754_finite s m e) = true -> Z.pos m < 2 ^ 53.
Proof.
  unfold f64_valid, valid_binary, bounded, canonical_mantissa. intros [H%Zeq_bool_eq _]%andb_true_iff.
  pose proof (digits2_bounds m) as [_ B]. unfold fexp, emin, f64_prec, f64_emax in H.
  assert (2 ^ Z.pos (digits2_pos m) <= 2 ^ 53) by (apply Z.pow_le_mono_r; lia). lia.
Qed.
Lemma f64_round_stable t : - 2 ^ 63 <= t < 2 ^ 63 -> forall z, f64_to_int64 (f64_of_Z t) = z -> f64_to_int64 (f64_of_Z z) = z.
Proof.
  intros Ht z. destruct (decide (exact_int t)) as [H|H].
  - rewrite f64_int_roundtrip by done. intros <-. by apply f64_int_roundtrip.
  - unfold exact_int in H. destruct t as [|m|m]; [lia| |]; unfold f64_of_Z at 1, binary_normalize.
    + destruct (round_big false m) as (m' & e' & -> & Hm & _ & _); [lia|]. by apply f64_read_stable.
    + destruct (round_big true m) as (m' & e' & -> & Hm & _ & _); [lia|]. by apply f64_read_stable.
Qed.
(** The int64 read from a valid float64 is kept. *)
Lemma f64_valid_stable f : f64_valid f = true -> forall z, f64_to_int64 f = z -> f64_to_int64 (f64_of_Z z) = z.
Proof.
  intros Hf z. destruct f as [s|s| |s m e]; [intros <-; vm_compute; reflexivity..|].
  apply f64_read_stable. exact (f64_valid_bits _ _ _ Hf).
Qed.
