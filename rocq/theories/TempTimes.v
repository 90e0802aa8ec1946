(** The times asked for.  The proofs go through the real numbers of Flocq, so what follows depends on
    the axioms of Coq's reals. *)
From Coq Require Import ZArith Reals Lra Lia Bool SpecFloat.
From Flocq Require Import Core.Core IEEE754.BinarySingleNaN.
From Verif Require Import F64 RangeSpec FloatOrder.

Local Open Scope R_scope.
Local Notation rn := (round radix2 (SpecFloat.fexp 53 1024) ZnearestE).
Local Instance prec_pos : Prec_gt_0 53 := eq_refl.

Lemma exact_rn z : (Z.abs z < 2 ^ 53)%Z -> rn (IZR z) = IZR z.
Proof.
  intros H. apply round_generic; [apply valid_rnd_N|]. apply (generic_format_FLT radix2 (3 - 1024 - 53) 53).
  exists (Float radix2 z 0); [unfold F2R; simpl; lra|exact H|simpl; lia].
Qed.
Lemma exact_number z : (Z.abs z < 2 ^ 53)%Z -> number (f64_of_Z z) /\ real (f64_of_Z z) = IZR z.
Proof.
  intros H. pose proof (exact_rn z H) as E. destruct (rounds_Z z) as [V [(_ & F & R)|[(B & _)|(B & _)]]].
  - split; [split; assumption|]. now rewrite R, E.
  - exfalso. rewrite E in B. assert (IZR z < bpow radix2 1024); [|lra]. apply Rlt_trans with (IZR (2 ^ 53)); [apply IZR_lt; lia|].
    change (IZR (2 ^ 53)) with (bpow radix2 53). apply bpow_lt. lia.
  - exfalso. rewrite E in B. assert (- bpow radix2 1024 < IZR z); [|lra].
    apply Rlt_trans with (- IZR (2 ^ 53)); [|rewrite <- opp_IZR; apply IZR_lt; lia].
    change (IZR (2 ^ 53)) with (bpow radix2 53). apply Ropp_lt_contravar, bpow_lt. lia.
Qed.
Lemma trunc_floor x : number x -> 0 <= real x < IZR (2 ^ 63) -> f64_to_int64 x = Zfloor (real x).
Proof.
  intros [V Fx] [H0 H1]. destruct x as [s|s| |s m e]; try discriminate Fx.
  - unfold real. simpl. symmetry. apply (Zfloor_IZR 0).
  - destruct s.
    { exfalso. unfold real in H0. cbn [SF2R cond_Zopp] in H0. assert (F2R (Float radix2 (Z.neg m) e) < 0); [|cbn in H0; unfold Z.opp in H0; lra]. apply F2R_lt_0. simpl. lia. }
    assert (E : (if (0 <=? e)%Z then (Z.pos m * 2 ^ e)%Z else (Z.pos m / 2 ^ (- e))%Z) = Zfloor (real (S754_finite false m e))).
    { unfold real. cbn [SF2R cond_Zopp]. unfold F2R. cbn [Fnum Fexp]. destruct (Z.leb_spec 0 e) as [He|He].
      - rewrite <- (IZR_Zpower radix2 e He), <- mult_IZR, Zfloor_IZR. reflexivity.
      - rewrite <- (Z.opp_involutive e) at 2. rewrite bpow_opp, <- (IZR_Zpower radix2 (- e)) by lia.
        change (IZR (Z.pos m) * / IZR (radix2 ^ (- e))) with (IZR (Z.pos m) / IZR (radix2 ^ (- e))). rewrite Zfloor_div; [reflexivity|].
        change (radix_val radix2) with 2%Z. apply Z.pow_nonzero; lia. }
    unfold f64_to_int64. rewrite E. set (z := Zfloor (real (S754_finite false m e))) in *.
    assert (Z0 : (0 <= z)%Z) by (apply Zfloor_lub; exact H0).
    assert (Z1 : (z < 2 ^ 63)%Z). { apply lt_IZR. eapply Rle_lt_trans; [apply Zfloor_lb|exact H1]. }
    unfold Base.in_int64. rewrite (proj2 (Z.leb_le _ _)), (proj2 (Z.leb_le _ _)); [reflexivity|unfold Base.int64_max; lia|unfold Base.int64_min; lia].
Qed.

Section times.
Context (n r : Z) (Hn : (0 < n < 2 ^ 53)%Z) (Hr : (0 <= r < 2 ^ 53)%Z).
Definition place_of (i : Z) : f64 := SFmul 53 1024 (SFdiv 53 1024 (f64_of_Z i) (f64_of_Z n)) (f64_of_Z r).
Let N0 : number (S754_zero false) := conj eq_refl eq_refl.
Let N1 : number (f64_of_Z 1) := conj eq_refl eq_refl.
Lemma ratio_bounds i : (0 <= i <= n)%Z -> let x := SFdiv 53 1024 (f64_of_Z i) (f64_of_Z n) in
  number x /\ 0 <= real x <= 1 /\ rounded_to (IZR i / IZR n) x.
Proof.
  intros Hi x. destruct (exact_number i) as [Ni Ei]; [lia|]. destruct (exact_number n) as [Nn En]; [lia|].
  assert (Pn : 0 < IZR n) by (apply IZR_lt; lia).
  pose proof (div_rounds _ _ Ni Nn ltac:(lra)) as H. rewrite Ei, En in H. fold x in H.
  destruct (between (S754_zero false) (f64_of_Z 1) _ _ N0 N1 H) as [Nx Bx].
  - change (real (S754_zero false)) with 0. rewrite real_one. assert (0 <= IZR i <= IZR n) by (split; apply IZR_le; lia).
    split; [apply Rmult_le_pos; [lra|apply Rlt_le, Rinv_0_lt_compat; lra]|]. apply Rmult_le_reg_r with (IZR n); [lra|]. unfold Rdiv. rewrite Rmult_assoc, Rinv_l; lra.
  - rewrite real_one in Bx. change (real (S754_zero false)) with 0 in Bx. auto.
Qed.
Lemma place_bounds i : (0 <= i <= n)%Z -> number (place_of i) /\ 0 <= real (place_of i) <= IZR r /\
  rounded_to (real (SFdiv 53 1024 (f64_of_Z i) (f64_of_Z n)) * IZR r) (place_of i).
Proof.
  intros Hi. destruct (ratio_bounds i Hi) as (Nx & Bx & _). destruct (exact_number r) as [Nr Er]; [lia|].
  assert (Pr : 0 <= IZR r) by (apply IZR_le; lia).
  pose proof (mul_rounds _ _ Nx Nr) as H. rewrite Er in H. fold (place_of i) in H.
  destruct (between (S754_zero false) (f64_of_Z r) _ _ N0 Nr H) as [Ny By].
  - change (real (S754_zero false)) with 0. rewrite Er. nra.
  - rewrite Er in By. change (real (S754_zero false)) with 0 in By. auto.
Qed.
Lemma place_trunc i : (0 <= i <= n)%Z -> f64_to_int64 (place_of i) = Zfloor (real (place_of i)).
Proof.
  intros Hi. destruct (place_bounds i Hi) as (N & B & _). apply trunc_floor; [exact N|]. split; [lra|].
  apply Rle_lt_trans with (IZR r); [lra|]. apply IZR_lt. lia.
Qed.
Lemma place_first : f64_to_int64 (place_of 0) = 0%Z.
Proof.
  assert (H0 : (0 <= 0 <= n)%Z) by lia. rewrite place_trunc by exact H0. destruct (place_bounds 0 H0) as (N & _ & R).
  destruct (ratio_bounds 0 H0) as (Nx & _ & Rx).
  destruct (between (S754_zero false) (S754_zero false) _ _ N0 N0 Rx) as [_ Bx].
  { change (real (S754_zero false)) with 0. unfold Rdiv. rewrite Rmult_0_l. lra. }
  change (real (S754_zero false)) with 0 in Bx.
  destruct (between (S754_zero false) (S754_zero false) _ _ N0 N0 R) as [_ B].
  { change (real (S754_zero false)) with 0. replace (real _) with 0 by lra. lra. }
  change (real (S754_zero false)) with 0 in B. replace (real (place_of 0)) with (IZR 0) by lra. apply Zfloor_IZR.
Qed.
Lemma place_last : f64_to_int64 (place_of n) = r.
Proof.
  assert (H0 : (0 <= n <= n)%Z) by lia. rewrite place_trunc by exact H0. destruct (place_bounds n H0) as (N & _ & R).
  destruct (ratio_bounds n H0) as (Nx & _ & Rx). destruct (exact_number r) as [Nr Er]; [lia|].
  destruct (between (f64_of_Z 1) (f64_of_Z 1) _ _ N1 N1 Rx) as [_ Bx].
  { rewrite real_one. unfold Rdiv. rewrite Rinv_r; [lra|]. apply IZR_neq. lia. }
  rewrite real_one in Bx.
  destruct (between (f64_of_Z r) (f64_of_Z r) _ _ Nr Nr R) as [_ B].
  { rewrite Er. replace (real _) with 1 by lra. lra. }
  rewrite Er in B. replace (real (place_of n)) with (IZR r) by lra. apply Zfloor_IZR.
Qed.
Lemma place_le i j : (0 <= i <= j)%Z -> (j <= n)%Z -> (f64_to_int64 (place_of i) <= f64_to_int64 (place_of j))%Z.
Proof.
  intros Hi Hj. assert (Pr : 0 <= IZR r) by (apply IZR_le; lia).
  destruct (ratio_bounds i ltac:(lia)) as (Ni & _ & Ri), (ratio_bounds j ltac:(lia)) as (Nj & _ & Rj).
  assert (Pn : 0 < IZR n) by (apply IZR_lt; lia).
  assert (L : real (SFdiv 53 1024 (f64_of_Z i) (f64_of_Z n)) <= real (SFdiv 53 1024 (f64_of_Z j) (f64_of_Z n))).
  { apply leb_real; [assumption..|]. apply (rounds_le _ _ _ _ Ri Rj). apply Rmult_le_compat_r; [apply Rlt_le, Rinv_0_lt_compat; lra|apply IZR_le; lia]. }
  destruct (place_bounds i ltac:(lia)) as (Mi & _ & Si), (place_bounds j ltac:(lia)) as (Mj & _ & Sj).
  rewrite !place_trunc by lia. apply Zfloor_le. apply leb_real; [assumption..|]. apply (rounds_le _ _ _ _ Si Sj). nra.
Qed.
Lemma half_ulp x y : 0 <= x <= y -> 1 <= y -> Rabs (rn x - x) <= y * bpow radix2 (-53).
Proof.
  intros Hx Hy. eapply Rle_trans; [apply error_le_half_ulp; apply (FLT_exp_valid (3 - 1024 - 53) 53)|].
  assert (L : ulp radix2 (SpecFloat.fexp 53 1024) x <= ulp radix2 (SpecFloat.fexp 53 1024) y).
  { apply (@ulp_le radix2 (FLT_exp (3 - 1024 - 53) 53) _ (FLT_exp_monotone (3 - 1024 - 53) 53)). rewrite !Rabs_pos_eq; lra. }
  assert (U : ulp radix2 (SpecFloat.fexp 53 1024) y <= Rabs y * bpow radix2 (1 - 53)).
  { apply (ulp_FLT_le radix2 (3 - 1024 - 53) 53). rewrite Rabs_pos_eq by lra. eapply Rle_trans; [|exact Hy].
    change 1 with (bpow radix2 0). apply bpow_le. lia. }
  rewrite Rabs_pos_eq in U by lra. change (1 - 53)%Z with (-53 + 1)%Z in U. rewrite bpow_plus in U. change (bpow radix2 1) with 2 in U. lra.
Qed.
Lemma rounded_eq r0 z : rounded_to r0 z -> number z -> real z = rn r0.
Proof. intros [_ [(_ & _ & H)|[[_ ->]|[_ ->]]]] [_ F]; [exact H|discriminate F..]. Qed.
(** Each time is the exact one, rounded down or one less. *)
Lemma place_near i : (0 <= i <= n)%Z -> (n * r < 2 ^ 52)%Z ->
  (i * r - n <= n * f64_to_int64 (place_of i) <= i * r)%Z.
Proof.
  intros Hi Hs. rewrite place_trunc by exact Hi. destruct (ratio_bounds i Hi) as (Nx & Bx & Rx). destruct (place_bounds i Hi) as (Ny & By & Ry).
  destruct (Z.eq_dec r 0) as [E0|E0].
  { assert (E : real (place_of i) = IZR 0) by (rewrite E0 in By; lra). rewrite E, Zfloor_IZR, E0. lia. }
  assert (Pr : 1 <= IZR r) by (apply IZR_le; lia). assert (Pn : 1 <= IZR n) by (apply IZR_le; lia).
  assert (Pi : 0 <= IZR i <= IZR n) by (split; apply IZR_le; lia).
  pose proof (rounded_eq _ _ Rx Nx) as Ex. pose proof (rounded_eq _ _ Ry Ny) as Ey.
  set (x := real (SFdiv 53 1024 (f64_of_Z i) (f64_of_Z n))) in *. set (y := real (place_of i)) in *.
  assert (Q : 0 <= IZR i / IZR n <= 1).
  { split; [apply Rmult_le_pos; [lra|apply Rlt_le, Rinv_0_lt_compat; lra]|]. apply Rmult_le_reg_r with (IZR n); [lra|]. unfold Rdiv. rewrite Rmult_assoc, Rinv_l; lra. }
  pose proof (half_ulp _ 1 Q ltac:(lra)) as H1. rewrite <- Ex in H1.
  pose proof (half_ulp (x * IZR r) (IZR r) ltac:(nra) Pr) as H2. rewrite <- Ey in H2.
  set (eps := bpow radix2 (-53)) in *.
  assert (Pe : 0 < eps) by apply bpow_gt_0.
  assert (S : IZR n * IZR r * (2 * eps) < 1).
  { rewrite <- mult_IZR. assert (L : IZR (n * r) < bpow radix2 52) by (change (bpow radix2 52) with (IZR (2 ^ 52)); apply IZR_lt; lia).
    assert (E : bpow radix2 52 * (2 * eps) = 1). { unfold eps. change 2 with (bpow radix2 1). rewrite <- !bpow_plus. reflexivity. }
    rewrite <- E. apply Rmult_lt_compat_r; lra. }
  assert (D : IZR n * (IZR i / IZR n) = IZR i) by (field; lra).
  apply Rabs_le_inv in H1, H2.
  assert (U : IZR n * y <= IZR i * IZR r + IZR n * IZR r * (2 * eps)).
  { assert (y <= x * IZR r + IZR r * eps) by lra. assert (x <= IZR i / IZR n + eps) by lra.
    assert (x * IZR r <= (IZR i / IZR n + eps) * IZR r) by (apply Rmult_le_compat_r; lra).
    assert (y <= (IZR i / IZR n) * IZR r + IZR r * (2 * eps)) by lra.
    assert (G3 : IZR n * y <= IZR n * ((IZR i / IZR n) * IZR r + IZR r * (2 * eps))) by (apply Rmult_le_compat_l; lra).
    rewrite Rmult_plus_distr_l, <- !Rmult_assoc, D in G3. lra. }
  assert (L : IZR i * IZR r - IZR n * IZR r * (2 * eps) <= IZR n * y).
  { assert (x * IZR r - IZR r * eps <= y) by lra. assert (IZR i / IZR n - eps <= x) by lra.
    assert ((IZR i / IZR n - eps) * IZR r <= x * IZR r) by (apply Rmult_le_compat_r; lra).
    assert ((IZR i / IZR n) * IZR r - IZR r * (2 * eps) <= y) by lra.
    assert (G3 : IZR n * ((IZR i / IZR n) * IZR r - IZR r * (2 * eps)) <= IZR n * y) by (apply Rmult_le_compat_l; lra).
    rewrite Rmult_minus_distr_l, <- !Rmult_assoc, D in G3. lra. }
  pose proof (Zfloor_lb y) as F1. pose proof (Zfloor_ub y) as F2. set (z := Zfloor y) in *. split.
  - assert (G : IZR i * IZR r - IZR n - 1 < IZR n * IZR z).
    { assert (IZR n * y < IZR n * (IZR z + 1)) by (apply Rmult_lt_compat_l; lra). lra. }
    rewrite <- !mult_IZR, <- !minus_IZR in G. apply lt_IZR in G. lia.
  - assert (G : IZR n * IZR z < IZR i * IZR r + 1).
    { assert (IZR n * IZR z <= IZR n * y) by (apply Rmult_le_compat_l; lra). lra. }
    rewrite <- !mult_IZR, <- plus_IZR in G. apply lt_IZR in G. lia.
Qed.
End times.
