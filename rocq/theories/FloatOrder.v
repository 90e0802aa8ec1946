(** Rounding of float64 is monotone.  The proofs go through the real numbers of Flocq, so what
    follows depends on the axioms of Coq's reals. *)
From Coq Require Import ZArith Reals Lra Lia Bool SpecFloat.
From Flocq Require Import Core.Core IEEE754.BinarySingleNaN.
From Verif Require Import F64 RangeSpec.

Local Open Scope R_scope.
Local Instance prec_pos : Prec_gt_0 53 := eq_refl.
Local Instance prec_small : Prec_lt_emax 53 1024 := eq_refl.
Local Notation fl64 := (binary_float 53 1024).
Local Notation add := (SFadd 53 1024).
Local Notation sub := (SFsub 53 1024).
Local Notation mul := (SFmul 53 1024).
Local Notation div := (SFdiv 53 1024).
Local Notation valid := (valid_binary 53 1024).
Local Notation rn := (round radix2 (SpecFloat.fexp 53 1024) ZnearestE).
Local Notation top := (bpow radix2 1024).
Definition real (x : f64) : R := SF2R radix2 x.

(** The operations are those of Flocq (cf. Flocq.IEEE754.PrimFloat). *)
Lemma nearest_even s m l : SpecFloat.round_nearest_even m l = choice_mode mode_NE s m l.
Proof. destruct l as [|[]]; [reflexivity| |reflexivity..]. simpl. unfold Round.cond_incr. now case Z.even. Qed.
Lemma round_aux sx mx ex lx : SpecFloat.binary_round_aux 53 1024 sx mx ex lx = BinarySingleNaN.binary_round_aux 53 1024 mode_NE sx mx ex lx.
Proof.
  unfold SpecFloat.binary_round_aux, BinarySingleNaN.binary_round_aux. destruct (shr_fexp _ _ _ _ _) as [mrs e].
  now rewrite (nearest_even sx).
Qed.
Lemma round_same s m e : SpecFloat.binary_round 53 1024 s m e = BinarySingleNaN.binary_round 53 1024 mode_NE s m e.
Proof.
  unfold SpecFloat.binary_round, BinarySingleNaN.binary_round, shl_align_fexp. destruct (shl_align _ _ _) as [mz ez]. apply round_aux.
Qed.
Lemma normalize_same m e s : SpecFloat.binary_normalize 53 1024 m e s = B2SF (BinarySingleNaN.binary_normalize 53 1024 prec_pos prec_small mode_NE m e s).
Proof. destruct m as [|p|p]; [reflexivity|simpl; rewrite B2SF_SF2B; apply round_same..]. Qed.
Lemma add_same (x y : fl64) : add (B2SF x) (B2SF y) = B2SF (Bplus mode_NE x y).
Proof.
  destruct x as [sx|sx| |sx mx ex Bx], y as [sy|sy| |sy my ey By]; try reflexivity; try (simpl; now case Bool.eqb).
  apply normalize_same.
Qed.
Lemma sub_same (x y : fl64) : sub (B2SF x) (B2SF y) = B2SF (Bminus mode_NE x y).
Proof.
  destruct x as [sx|sx| |sx mx ex Bx], y as [sy|sy| |sy my ey By]; try reflexivity; try (simpl; now case Bool.eqb).
  simpl. unfold Zminus. rewrite <- cond_Zopp_negb. apply normalize_same.
Qed.
Lemma mul_same (x y : fl64) : mul (B2SF x) (B2SF y) = B2SF (Bmult mode_NE x y).
Proof.
  destruct x as [sx|sx| |sx mx ex Bx], y as [sy|sy| |sy my ey By]; try reflexivity. simpl. rewrite B2SF_SF2B. apply round_aux.
Qed.
Lemma div_same (x y : fl64) : div (B2SF x) (B2SF y) = B2SF (Bdiv mode_NE x y).
Proof.
  destruct x as [sx|sx| |sx mx ex Bx], y as [sy|sy| |sy my ey By]; try reflexivity; try (simpl; now case Bool.eqb).
  simpl. rewrite B2SF_SF2B. destruct (SFdiv_core_binary _ _ _ _ _ _) as [[mz ez] lz]. apply round_aux.
Qed.

(** [rounded_to r z]: [z] is what the real number [r] is rounded to; too large ones become infinite. *)
Definition rounded_to (r : R) (z : f64) : Prop :=
  valid z = true /\
  ((Rabs (rn r) < top /\ f64_finite z = true /\ real z = rn r) \/
   (top <= rn r /\ z = S754_infinity false) \/ (rn r <= - top /\ z = S754_infinity true)).

Lemma finite_same (x : fl64) : f64_finite (B2SF x) = is_finite x.
Proof. now destruct x. Qed.
Lemma real_same (x : fl64) : real (B2SF x) = B2R x.
Proof. unfold real. now destruct x. Qed.
Lemma sign_pos (x : fl64) : Bsign x = false -> 0 <= B2R x.
Proof.
  destruct x as [s|s| |s m e B]; simpl; intros E; try apply Rle_refl. subst. apply F2R_ge_0. simpl. lia.
Qed.
Lemma sign_neg (x : fl64) : Bsign x = true -> B2R x <= 0.
Proof.
  destruct x as [s|s| |s m e B]; simpl; intros E; try apply Rle_refl. subst. apply F2R_le_0. simpl. lia.
Qed.
Lemma rn_pos r : 0 <= r -> 0 <= rn r.
Proof. intros H. apply round_ge_generic; [apply fexp_correct; reflexivity|apply valid_rnd_N|apply generic_format_0|exact H]. Qed.
Lemma rn_neg r : r <= 0 -> rn r <= 0.
Proof. intros H. apply round_le_generic; [apply fexp_correct; reflexivity|apply valid_rnd_N|apply generic_format_0|exact H]. Qed.
Lemma rn_le r r' : r <= r' -> rn r <= rn r'.
Proof. intros H. apply round_le; [apply fexp_correct; reflexivity|apply valid_rnd_N|exact H]. Qed.
Lemma rounds_overflow r (s : bool) (z : fl64) : ~ Rabs (rn r) < top -> (if s then r <= 0 else 0 <= r) ->
  B2SF z = binary_overflow 53 1024 mode_NE s -> rounded_to r (B2SF z).
Proof.
  intros Hr Hs E. split; [apply valid_binary_B2SF|]. right. rewrite E. unfold binary_overflow. simpl overflow_to_inf. cbv iota.
  destruct s; [right|left]; (split; [|reflexivity]).
  - apply rn_neg in Hs. rewrite Rabs_left1 in Hr by exact Hs. lra.
  - apply rn_pos in Hs. rewrite Rabs_pos_eq in Hr by exact Hs. lra.
Qed.
Lemma rounds_add (x y : fl64) : is_finite x = true -> is_finite y = true -> rounded_to (B2R x + B2R y) (B2SF (Bplus mode_NE x y)).
Proof.
  intros Fx Fy. pose proof (Bplus_correct 53 1024 _ _ mode_NE x y Fx Fy) as H. simpl round_mode in H.
  destruct (Rlt_bool_spec (Rabs (rn (B2R x + B2R y))) top) as [Hl|Hl].
  - destruct H as (H1 & H2 & _). split; [apply valid_binary_B2SF|]. left. rewrite finite_same, real_same. auto.
  - destruct H as [H1 H2]. apply (rounds_overflow _ (Bsign x)); [lra| |exact H1].
    destruct (Bsign x) eqn:E; symmetry in H2.
    + apply sign_neg in E, H2. lra.
    + apply sign_pos in E, H2. lra.
Qed.
Lemma rounds_sub (x y : fl64) : is_finite x = true -> is_finite y = true -> rounded_to (B2R x - B2R y) (B2SF (Bminus mode_NE x y)).
Proof.
  intros Fx Fy. pose proof (Bminus_correct 53 1024 _ _ mode_NE x y Fx Fy) as H. simpl round_mode in H.
  destruct (Rlt_bool_spec (Rabs (rn (B2R x - B2R y))) top) as [Hl|Hl].
  - destruct H as (H1 & H2 & _). split; [apply valid_binary_B2SF|]. left. rewrite finite_same, real_same. auto.
  - destruct H as [H1 H2]. apply (rounds_overflow _ (Bsign x)); [lra| |exact H1].
    destruct (Bsign x) eqn:E; destruct (Bsign y) eqn:E'; try discriminate.
    + apply sign_neg in E. apply sign_pos in E'. lra.
    + apply sign_pos in E. apply sign_neg in E'. lra.
Qed.
Lemma rounds_mul (x y : fl64) : is_finite x = true -> is_finite y = true -> rounded_to (B2R x * B2R y) (B2SF (Bmult mode_NE x y)).
Proof.
  intros Fx Fy. pose proof (Bmult_correct 53 1024 _ _ mode_NE x y) as H. simpl round_mode in H.
  destruct (Rlt_bool_spec (Rabs (rn (B2R x * B2R y))) top) as [Hl|Hl].
  - destruct H as (H1 & H2 & _). split; [apply valid_binary_B2SF|]. left. rewrite finite_same, real_same. rewrite H2, Fx, Fy. auto.
  - apply (rounds_overflow _ (xorb (Bsign x) (Bsign y))); [lra| |exact H].
    destruct (Bsign x) eqn:E; destruct (Bsign y) eqn:E'; simpl.
    + apply sign_neg in E, E'. nra.
    + apply sign_neg in E. apply sign_pos in E'. nra.
    + apply sign_pos in E. apply sign_neg in E'. nra.
    + apply sign_pos in E, E'. nra.
Qed.

(** ** In terms of the model's floats *)
Lemma as_flocq x : f64_valid x = true -> exists b : fl64, x = B2SF b.
Proof. intros H. exists (SF2B x H). now rewrite B2SF_SF2B. Qed.
Lemma add_rounds x y : number x -> number y -> rounded_to (real x + real y) (add x y).
Proof.
  intros [Vx Fx] [Vy Fy]. destruct (as_flocq x Vx) as [a ->], (as_flocq y Vy) as [b ->]. rewrite finite_same in *.
  rewrite add_same, !real_same. now apply rounds_add.
Qed.
Lemma sub_rounds x y : number x -> number y -> rounded_to (real x - real y) (sub x y).
Proof.
  intros [Vx Fx] [Vy Fy]. destruct (as_flocq x Vx) as [a ->], (as_flocq y Vy) as [b ->]. rewrite finite_same in *.
  rewrite sub_same, !real_same. now apply rounds_sub.
Qed.
Lemma mul_rounds x y : number x -> number y -> rounded_to (real x * real y) (mul x y).
Proof.
  intros [Vx Fx] [Vy Fy]. destruct (as_flocq x Vx) as [a ->], (as_flocq y Vy) as [b ->]. rewrite finite_same in *.
  rewrite mul_same, !real_same. now apply rounds_mul.
Qed.
Lemma self_rounds x : number x -> rounded_to (real x) x.
Proof.
  intros [Vx Fx]. split; [exact Vx|]. left. destruct (as_flocq x Vx) as [a ->]. rewrite finite_same in *. rewrite real_same.
  rewrite round_generic; [|apply valid_rnd_N|apply generic_format_B2R]. split; [apply abs_B2R_lt_emax|auto].
Qed.
Lemma real_opp x : real (SFopp x) = - real x.
Proof. unfold real. destruct x as [s|s| |s m e]; simpl; try lra. rewrite cond_Zopp_negb. apply F2R_Zopp. Qed.
Lemma number_opp x : number x -> number (SFopp x).
Proof. intros [V F]. destruct x as [s|s| |s m e]; split; try reflexivity; try exact V; try exact F; discriminate. Qed.
Lemma rounds_valid r z : rounded_to r z -> f64_valid z = true.
Proof. intros [V _]. exact V. Qed.
Lemma rounds_nan r z : rounded_to r z -> f64_is_nan z = false.
Proof. intros [_ [(_ & F & _)|[[_ ->]|[_ ->]]]]; [now destruct z|reflexivity..]. Qed.

Lemma leb_real x y : number x -> number y -> SFleb x y = true <-> real x <= real y.
Proof.
  intros [Vx Fx] [Vy Fy]. destruct (as_flocq x Vx) as [a ->], (as_flocq y Vy) as [b ->]. rewrite finite_same in *. rewrite !real_same.
  change (SFleb (B2SF a) (B2SF b)) with (Bleb a b). rewrite Bleb_correct by assumption.
  case Rle_bool_spec; intros H; split; intros H'; try reflexivity; try discriminate; lra.
Qed.
Lemma leb_minf z : f64_is_nan z = false -> SFleb (S754_infinity true) z = true.
Proof. destruct z as [s|[]| |s m e]; try reflexivity; discriminate. Qed.
Lemma leb_pinf z : f64_is_nan z = false -> SFleb z (S754_infinity false) = true.
Proof. destruct z as [[]|[]| |[] m e]; try reflexivity; discriminate. Qed.

(** Rounding is monotone. *)
Lemma rounds_le r r' z z' : rounded_to r z -> rounded_to r' z' -> r <= r' -> SFleb z z' = true.
Proof.
  intros R1 R2 H. apply rn_le in H. assert (N1 := rounds_nan _ _ R1). assert (N2 := rounds_nan _ _ R2).
  destruct R1 as [V1 R1], R2 as [V2 R2]. assert (Ht : 0 < top) by apply bpow_gt_0.
  destruct R2 as [(L2 & F2 & E2)|[[L2 ->]|[L2 ->]]]; [| |].
  - destruct R1 as [(L1 & F1 & E1)|[[L1 ->]|[L1 ->]]].
    + apply leb_real; [now split..|]. rewrite E1, E2. exact H.
    + apply Rabs_lt_inv in L2. lra.
    + now apply leb_minf.
  - now apply leb_pinf.
  - destruct R1 as [(L1 & F1 & E1)|[[L1 ->]|[L1 ->]]].
    + apply Rabs_lt_inv in L1. lra.
    + lra.
    + reflexivity.
Qed.
Ltac real_const k := let z := eval vm_compute in (f64_of_Z k) in
  change (f64_of_Z k) with z; unfold real, SF2R, F2R, cond_Zopp, Fnum, Fexp; cbn [bpow]; unfold Z.opp;
  match goal with |- context [Z.pow_pos ?a ?b] => let y := eval vm_compute in (Z.pow_pos a b) in change (Z.pow_pos a b) with y end; lra.
Lemma real_one : real (f64_of_Z 1) = 1.
Proof. real_const 1%Z. Qed.
Lemma real_minus_one : real (f64_of_Z (-1)) = -1.
Proof. real_const (-1)%Z. Qed.
Lemma real_two : real (f64_of_Z 2) = 2.
Proof. real_const 2%Z. Qed.
Lemma real_eight : real (f64_of_Z 8) = 8.
Proof. real_const 8%Z. Qed.
Lemma real_64 : real (f64_of_Z (2 ^ 64)) = 18446744073709551616.
Proof. real_const (2 ^ 64)%Z. Qed.
Lemma real_67 : real (f64_of_Z (2 ^ 67)) = 147573952589676412928.
Proof. real_const (2 ^ 67)%Z. Qed.
Lemma between a b r z : number a -> number b -> rounded_to r z -> real a <= r <= real b -> number z /\ real a <= real z <= real b.
Proof.
  intros Ha Hb Hz [H1 H2]. pose proof (rounds_le _ _ _ _ (self_rounds a Ha) Hz H1) as L1.
  pose proof (rounds_le _ _ _ _ Hz (self_rounds b Hb) H2) as L2. assert (F : f64_finite z = true).
  { destruct z as [s|[]| |s m e]; try reflexivity; exfalso.
    - destruct a as [sa|sa| |sa ma ea]; try discriminate; destruct Ha; try discriminate; now destruct sa.
    - destruct b as [sb|sb| |sb mb eb]; try discriminate; destruct Hb; try discriminate; now destruct sb.
    - destruct a; discriminate. }
  assert (Nz : number z) by (split; [exact (rounds_valid _ _ Hz)|exact F]). split; [exact Nz|]. split; now apply leb_real.
Qed.
Lemma leb_trans x y z : number x -> number y -> number z -> SFleb x y = true -> SFleb y z = true -> SFleb x z = true.
Proof. intros Hx Hy Hz H1 H2. apply leb_real in H1, H2; [|assumption..]. apply leb_real; [assumption..|]. lra. Qed.

(** The sum of [b] and at most [k] in either direction. *)
Lemma spread_range b k u z : number b -> number k -> number u -> SFleb (S754_zero false) k = true ->
  SFleb (f64_of_Z (-1)) u = true -> SFleb u (f64_of_Z 1) = true -> rounded_to (real u * real k) z ->
  f64_valid (add b z) = true /\ SFleb (sub b k) (add b z) = true /\ SFleb (add b z) (add b k) = true.
Proof.
  intros Hb Hk Hu K U1 U2 Hz. apply leb_real in K, U1, U2; try assumption; try (split; reflexivity).
  assert (E1 : real (f64_of_Z 1) = 1) by exact real_one.
  assert (E2 : real (f64_of_Z (-1)) = -1) by exact real_minus_one.
  assert (E0 : real (S754_zero false) = 0) by reflexivity. rewrite E0 in K. rewrite E1 in U2. rewrite E2 in U1.
  destruct (between (SFopp k) k (real u * real k) z) as [Nz Bz]; [now apply number_opp|assumption|assumption|rewrite real_opp; nra|].
  rewrite real_opp in Bz.
  pose proof (add_rounds b z Hb Nz) as R1. split; [exact (rounds_valid _ _ R1)|]. split.
  - apply (rounds_le _ _ _ _ (sub_rounds b k Hb Hk) R1). lra.
  - apply (rounds_le _ _ _ _ R1 (add_rounds b k Hb Hk)). lra.
Qed.
(** A part of [k] above [b]. *)
Lemma part_range b k u z : number b -> number k -> number u -> SFleb (S754_zero false) k = true ->
  SFleb (S754_zero false) u = true -> SFleb u (f64_of_Z 1) = true -> rounded_to (real u * real k) z ->
  f64_valid (add b z) = true /\ SFleb b (add b z) = true /\ SFleb (add b z) (add b k) = true.
Proof.
  intros Hb Hk Hu K U1 U2 Hz. apply leb_real in K, U1, U2; try assumption; try (split; reflexivity).
  assert (E1 : real (f64_of_Z 1) = 1) by exact real_one.
  assert (E0 : real (S754_zero false) = 0) by reflexivity. rewrite E0 in K, U1. rewrite E1 in U2.
  destruct (between (S754_zero false) k (real u * real k) z) as [Nz Bz]; [split; reflexivity|assumption|assumption|rewrite E0; nra|].
  rewrite E0 in Bz. pose proof (add_rounds b z Hb Nz) as R1. split; [exact (rounds_valid _ _ R1)|]. split.
  - apply (rounds_le _ _ _ _ (self_rounds b Hb) R1). lra.
  - apply (rounds_le _ _ _ _ R1 (add_rounds b k Hb Hk)). lra.
Qed.
Lemma mul_rounds_swap x y : number x -> number y -> rounded_to (real y * real x) (mul x y).
Proof. intros Hx Hy. rewrite Rmult_comm. now apply mul_rounds. Qed.
(** [2u - 1] for [u] from 0 to 1. *)
Lemma swing_number u : number u -> SFleb (S754_zero false) u = true -> SFleb u (f64_of_Z 1) = true ->
  let z := sub (mul u (f64_of_Z 2)) (f64_of_Z 1) in number z /\ SFleb (f64_of_Z (-1)) z = true /\ SFleb z (f64_of_Z 1) = true.
Proof.
  intros Hu U1 U2 z. assert (N1 : number (f64_of_Z 1)) by (split; reflexivity). assert (N2 : number (f64_of_Z 2)) by (split; reflexivity).
  assert (N0 : number (S754_zero false)) by (split; reflexivity). assert (Nm : number (f64_of_Z (-1))) by (split; reflexivity).
  apply leb_real in U1, U2; try assumption.
  assert (E1 : real (f64_of_Z 1) = 1) by exact real_one.
  assert (E2 : real (f64_of_Z 2) = 2) by exact real_two.
  assert (Em : real (f64_of_Z (-1)) = -1) by exact real_minus_one.
  assert (E0 : real (S754_zero false) = 0) by reflexivity. rewrite E0 in U1. rewrite E1 in U2.
  destruct (between (S754_zero false) (f64_of_Z 2) _ _ N0 N2 (mul_rounds u (f64_of_Z 2) Hu N2)) as [Ny By]; [rewrite E0, E2; nra|].
  rewrite E0, E2 in By.
  destruct (between (f64_of_Z (-1)) (f64_of_Z 1) _ _ Nm N1 (sub_rounds _ (f64_of_Z 1) Ny N1)) as [Nz Bz]; [rewrite Em, E1; lra|].
  fold z in Nz, Bz. split; [exact Nz|]. split; apply leb_real; try assumption; apply Bz.
Qed.

(** ** Quotients *)
Lemma rounds_div (x y : fl64) : is_finite x = true -> B2R y <> 0 -> rounded_to (B2R x / B2R y) (B2SF (Bdiv mode_NE x y)).
Proof.
  intros Fx Hy. pose proof (Bdiv_correct 53 1024 _ _ mode_NE x y Hy) as H. simpl round_mode in H.
  destruct (Rlt_bool_spec (Rabs (rn (B2R x / B2R y))) top) as [Hl|Hl].
  - destruct H as (H1 & H2 & _). split; [apply valid_binary_B2SF|]. left. rewrite finite_same, real_same. rewrite H2, Fx. auto.
  - apply (rounds_overflow _ (xorb (Bsign x) (Bsign y))); [lra| |exact H]. unfold Rdiv.
    assert (P : forall r, 0 <= r -> 0 <= / r). { intros r [Hr| <-]; [left; now apply Rinv_0_lt_compat|rewrite Rinv_0; lra]. }
    assert (N : forall r, r <= 0 -> / r <= 0). { intros r [Hr| ->]; [left; now apply Rinv_lt_0_compat|rewrite Rinv_0; lra]. }
    destruct (Bsign x) eqn:E; destruct (Bsign y) eqn:E'; simpl.
    + apply sign_neg in E, E'. apply N in E'. nra.
    + apply sign_neg in E. apply sign_pos in E'. apply P in E'. nra.
    + apply sign_pos in E. apply sign_neg in E'. apply N in E'. nra.
    + apply sign_pos in E, E'. apply P in E'. nra.
Qed.
Lemma div_rounds x y : number x -> number y -> real y <> 0 -> rounded_to (real x / real y) (div x y).
Proof.
  intros [Vx Fx] [Vy Fy]. destruct (as_flocq x Vx) as [a ->], (as_flocq y Vy) as [b ->]. rewrite finite_same in *.
  rewrite div_same, !real_same. intros H. now apply rounds_div.
Qed.
Lemma rounds_Z z : rounded_to (IZR z) (f64_of_Z z).
Proof.
  unfold f64_of_Z. change f64_prec with 53%Z. change f64_emax with 1024%Z. rewrite normalize_same.
  pose proof (binary_normalize_correct 53 1024 prec_pos prec_small mode_NE z 0 false) as H. cbv zeta in H. simpl round_mode in H.
  assert (E : F2R (Float radix2 z 0) = IZR z) by (unfold F2R; simpl; lra). rewrite E in H.
  destruct (Rlt_bool_spec (Rabs (rn (IZR z))) top) as [Hl|Hl].
  - destruct H as (H1 & H2 & _). split; [apply valid_binary_B2SF|]. left. rewrite finite_same, real_same. auto.
  - apply (rounds_overflow _ (Rlt_bool (IZR z) 0)); [lra| |exact H]. destruct (Rlt_bool_spec (IZR z) 0); lra.
Qed.
(** Times divided by a period of at least 1 and multiplied by at most 8 are finite. *)
Lemma cycle_number z p c : (Z.abs z <= 2 ^ 64)%Z -> number p -> SFleb (f64_of_Z 1) p = true -> number c ->
  SFleb (S754_zero false) c = true -> SFleb c (f64_of_Z 8) = true -> f64_finite (mul c (div (f64_of_Z z) p)) = true.
Proof.
  intros Hz Np Hp Nc C1 C2. assert (N1 : number (f64_of_Z 1)) by (split; reflexivity). assert (N8 : number (f64_of_Z 8)) by (split; reflexivity).
  assert (N0 : number (S754_zero false)) by (split; reflexivity).
  set (big := f64_of_Z (2 ^ 64)). assert (Nb : number big) by (split; reflexivity).
  set (huge := f64_of_Z (2 ^ 67)). assert (Nh : number huge) by (split; reflexivity).
  apply leb_real in Hp, C1, C2; try assumption.
  assert (E1 : real (f64_of_Z 1) = 1) by exact real_one.
  assert (E8 : real (f64_of_Z 8) = 8) by exact real_eight.
  assert (E0 : real (S754_zero false) = 0) by reflexivity. rewrite E1 in Hp. rewrite E0 in C1. rewrite E8 in C2.
  assert (Eb : real big = 18446744073709551616) by exact real_64.
  assert (Eh : real huge = 147573952589676412928) by exact real_67.
  assert (B0 : - 18446744073709551616 <= IZR z <= 18446744073709551616).
  { change (2 ^ 64)%Z with 18446744073709551616%Z in Hz. split; [change (- 18446744073709551616) with (IZR (-18446744073709551616))|]; apply IZR_le; lia. }
  destruct (between (SFopp big) big _ _ (number_opp _ Nb) Nb (rounds_Z z)) as [Nz Bz]; [rewrite real_opp, Eb; lra|]. rewrite real_opp, Eb in Bz.
  destruct (between (SFopp big) big _ _ (number_opp _ Nb) Nb (div_rounds _ p Nz Np ltac:(lra))) as [Nq Bq].
  { rewrite real_opp, Eb. assert (0 < / real p <= 1). { split; [apply Rinv_0_lt_compat; lra|]. rewrite <- Rinv_1. apply Rinv_le_contravar; lra. }
    unfold Rdiv. nra. }
  rewrite real_opp, Eb in Bq.
  destruct (between (SFopp huge) huge _ _ (number_opp _ Nh) Nh (mul_rounds c _ Nc Nq)) as [Nr _]; [rewrite real_opp, Eh; nra|apply Nr].
Qed.
Lemma sub_nonneg lo hi : number lo -> number hi -> SFleb lo hi = true -> SFleb (S754_zero false) (sub hi lo) = true.
Proof.
  intros Nl Nh L. assert (Nz : number (S754_zero false)) by (split; reflexivity). apply leb_real in L; [|assumption..].
  apply (rounds_le _ _ _ _ (self_rounds _ Nz) (sub_rounds hi lo Nh Nl)). change (real (S754_zero false)) with 0. lra.
Qed.
