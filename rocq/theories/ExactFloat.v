(** Quotients of integers as float64: exact ones are found, and integers are rounded as usual. *)
From Coq Require Import ZArith Reals Lra Lia Bool SpecFloat.
From Flocq Require Import Core.Core IEEE754.BinarySingleNaN.
From Verif Require Import F64 RangeSpec FloatOrder GoText.
From Verif Require ReportFloat.

Local Open Scope R_scope.
Local Notation rn := (round radix2 (SpecFloat.fexp 53 1024) ZnearestE).
Local Notation top := (bpow radix2 1024).
Local Instance prec_pos : Prec_gt_0 53 := eq_refl.
Local Instance prec_small : Prec_lt_emax 53 1024 := eq_refl.

Lemma ratio_rounds s n d : rounded_to (IZR (cond_Zopp s (Zpos n)) / IZR (Zpos d)) (f64_of_ratio s n d).
Proof.
  pose proof (Bdiv_correct_aux 53 1024 _ _ mode_NE s n 0 false d 0) as H. cbv zeta in H.
  assert (E : f64_of_ratio s n d = let '(mz, ez, lz) := SFdiv_core_binary 53 1024 (Zpos n) 0 (Zpos d) 0 in BinarySingleNaN.binary_round_aux 53 1024 mode_NE (xorb s false) mz ez lz).
  { unfold f64_of_ratio, SFdiv, f64_prec, f64_emax. destruct (SFdiv_core_binary _ _ _ _ _ _) as [[mz ez] lz]. apply round_aux. }
  rewrite <- E in H. clear E. unfold F2R in H. cbn [Fnum Fexp cond_Zopp round_mode] in H. change (bpow radix2 0) with 1 in H. rewrite !Rmult_1_r in H.
  destruct H as [V H]. split; [exact V|]. set (r := IZR _ / _) in *.
  destruct (Rlt_bool_spec (Rabs (rn r)) top) as [H0|H0].
  - left. destruct H as (H1 & H2 & _). split; [assumption|]. split; [|exact H1]. destruct (f64_of_ratio s n d); try discriminate H2; reflexivity.
  - right. assert (Hd : 0 < IZR (Zpos d)) by (apply IZR_lt; lia). assert (Hn : 0 < IZR (Zpos n)) by (apply IZR_lt; lia).
    rewrite xorb_false_r in H. cbn in H. destruct s; [right|left]; (split; [|exact H]); unfold r in *; cbn [cond_Zopp] in *.
    + assert (L : rn (IZR (- Z.pos n) / IZR (Z.pos d)) <= 0).
      { apply rn_neg. unfold Rdiv. rewrite opp_IZR. assert (0 < / IZR (Z.pos d)) by (now apply Rinv_0_lt_compat). nra. }
      rewrite Rabs_left1 in H0 by exact L. lra.
    + assert (L : 0 <= rn (IZR (Z.pos n) / IZR (Z.pos d))).
      { apply rn_pos. unfold Rdiv. assert (0 < / IZR (Z.pos d)) by (now apply Rinv_0_lt_compat). nra. }
      rewrite Rabs_right in H0; lra.
Qed.
Lemma same_rounded r z z' : rounded_to r z -> rounded_to r z' -> rn r <> 0 -> z = z'.
Proof.
  intros [V1 [(A1 & F1 & R1)|[(A1 & E1)|(A1 & E1)]]] [V2 [(A2 & F2 & R2)|[(A2 & E2)|(A2 & E2)]]] N;
    pose proof (bpow_gt_0 radix2 1024) as Ht.
  - apply ReportFloat.real_inj; [now split|now split| |]; rewrite R1; [now rewrite R2|assumption].
  - rewrite Rabs_right in A1; lra.
  - rewrite Rabs_left1 in A1; lra.
  - rewrite Rabs_right in A2; lra.
  - congruence.
  - lra.
  - rewrite Rabs_left1 in A2; lra.
  - lra.
  - congruence.
Qed.
Lemma ratio_exact s m e n d : number (S754_finite s m e) -> real (S754_finite s m e) = IZR (cond_Zopp s (Zpos n)) / IZR (Zpos d) ->
  f64_of_ratio s n d = S754_finite s m e.
Proof.
  intros Hx E. pose proof (self_rounds _ Hx) as S. pose proof (ratio_rounds s n d) as H. rewrite <- E in H.
  apply (same_rounded _ _ _ H S). destruct S as [_ [(_ & _ & R)|[(_ & R)|(_ & R)]]]; [|discriminate R..]. rewrite <- R.
  cbn. apply F2R_neq_0. destruct s; cbn; lia.
Qed.
Lemma ratio_Z s n : f64_of_ratio s n 1 = f64_of_Z (cond_Zopp s (Zpos n)).
Proof.
  pose proof (ratio_rounds s n 1) as H. unfold Rdiv in H. rewrite Rinv_1, Rmult_1_r in H. apply (same_rounded _ _ _ H (rounds_Z _)).
  assert (H1 : rn 1 = 1).
  { assert (N : number (f64_of_Z 1)) by (split; vm_compute; reflexivity). destruct (self_rounds _ N) as [_ [(_ & _ & R)|[(_ & R)|(_ & R)]]]; [|discriminate R..].
    rewrite real_one in R. now symmetry. }
  assert (H2 : rn (-1) = -1). { replace (-1) with (- (1)) by lra. rewrite round_NE_opp. now rewrite H1. }
  destruct s; cbn [cond_Zopp].
  - assert (rn (IZR (- Z.pos n)) <= rn (-1)) by (apply rn_le, IZR_le; lia). lra.
  - assert (rn 1 <= rn (IZR (Z.pos n))) by (apply rn_le, IZR_le; lia). lra.
Qed.
Lemma real_up s m p : real (S754_finite s m (Zpos p)) = IZR (cond_Zopp s (Zpos m * 2 ^ Zpos p)) / IZR 1.
Proof.
  unfold Rdiv. rewrite Rinv_1, Rmult_1_r. unfold real, SF2R, F2R. cbn [Fnum Fexp]. rewrite <- (IZR_Zpower radix2) by lia. rewrite <- mult_IZR. f_equal.
  unfold cond_Zopp. cbn [radix_val radix2]. destruct s; lia.
Qed.
Lemma real_down s m p : real (S754_finite s m (Zneg p)) = IZR (cond_Zopp s (Zpos m * 5 ^ Zpos p)) / IZR (10 ^ Zpos p).
Proof.
  unfold real, SF2R, F2R. cbn [Fnum Fexp]. change (Zneg p) with (- Zpos p)%Z. rewrite bpow_opp, <- (IZR_Zpower radix2) by lia. cbn [radix_val radix2].
  replace (10 ^ Zpos p)%Z with (2 ^ Zpos p * 5 ^ Zpos p)%Z by (rewrite <- Z.pow_mul_l; reflexivity).
  replace (cond_Zopp s (Z.pos m * 5 ^ Z.pos p))%Z with (cond_Zopp s (Z.pos m) * 5 ^ Z.pos p)%Z by (destruct s; cbn [cond_Zopp]; lia).
  rewrite !mult_IZR. assert (H2 : IZR (2 ^ Z.pos p) <> 0) by (apply not_0_IZR; lia). assert (H5 : IZR (5 ^ Z.pos p) <> 0) by (apply not_0_IZR; lia).
  field. now split.
Qed.
Lemma real_int s m : real (S754_finite s m 0) = IZR (cond_Zopp s (Zpos m)) / IZR 1.
Proof. unfold Rdiv. rewrite Rinv_1, Rmult_1_r. unfold real, SF2R, F2R. cbn [Fnum Fexp bpow]. now rewrite Rmult_1_r. Qed.
Lemma int_number z : (- 2 ^ 63 <= z < 2 ^ 63)%Z -> number (f64_of_Z z).
Proof.
  intros Hz. assert (Nb : number (f64_of_Z (2 ^ 64))) by (split; vm_compute; reflexivity). assert (No : number (SFopp (f64_of_Z (2 ^ 64)))) by (now apply number_opp).
  apply (between _ _ _ _ No Nb (rounds_Z z)). rewrite real_opp, real_64. split; [rewrite <- opp_IZR|]; apply IZR_le; lia.
Qed.
