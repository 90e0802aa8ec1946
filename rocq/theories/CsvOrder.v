(** The order of float64 numbers as fractions.  The proofs go through the real numbers of Flocq, so what
    follows depends on the axioms of Coq's reals. *)
From Coq Require Import ZArith Reals Lra Lia Bool SpecFloat.
From Flocq Require Import Core.Core IEEE754.BinarySingleNaN.
From Verif Require Import F64 RangeSpec FloatOrder TempTimes ReportFloat CsvSpec.

Local Open Scope R_scope.
Definition signed (g : bool) (n : Z) : Z := if g then (- n)%Z else n.
Lemma magnitude_real x p q : magnitude x p q -> (0 <= p)%Z /\ (0 < q)%Z /\ real x = IZR (signed (negative x) p) / IZR q.
Proof.
  destruct x as [s|s| |s m e]; simpl; try contradiction.
  - intros [-> ->]. split; [lia|]. split; [lia|]. destruct s; unfold real, SF2R, signed; simpl; unfold Rdiv; now rewrite Rmult_0_l.
  - intros [(He & -> & ->)|(He & -> & ->)].
    + assert (P : (0 < 2 ^ e)%Z) by (apply Z.pow_pos_nonneg; lia). split; [lia|]. split; [lia|].
      unfold real, SF2R, F2R. simpl Fnum. simpl Fexp. rewrite <- (IZR_Zpower radix2) by exact He. change (radix_val radix2) with 2%Z.
      rewrite <- mult_IZR. unfold Rdiv. rewrite Rinv_1, Rmult_1_r. f_equal. destruct s; unfold signed, SpecFloat.cond_Zopp; lia.
    + assert (P : (0 < 2 ^ (- e))%Z) by (apply Z.pow_pos_nonneg; lia). split; [lia|]. split; [lia|].
      unfold real, SF2R, F2R. simpl Fnum. simpl Fexp. replace e with (- (- e))%Z at 1 by lia. rewrite bpow_opp, <- (IZR_Zpower radix2) by lia.
      change (radix_val radix2) with 2%Z. reflexivity.
Qed.
Lemma leb_cross x y p q p' q' : number x -> number y -> SFleb x y = true -> magnitude x p q -> magnitude y p' q' ->
  (signed (negative x) p * q' <= signed (negative y) p' * q)%Z.
Proof.
  intros Nx Ny L M M'. apply leb_real in L; [|assumption..]. destruct (magnitude_real _ _ _ M) as (_ & Q & E), (magnitude_real _ _ _ M') as (_ & Q' & E').
  rewrite E, E' in L. apply IZR_lt in Q, Q'. apply le_IZR. rewrite !mult_IZR.
  apply Rmult_le_compat_r with (r := IZR q * IZR q') in L; [|apply Rmult_le_pos; lra].
  unfold Rdiv in L. replace (IZR (signed (negative x) p) * / IZR q * (IZR q * IZR q')) with (IZR (signed (negative x) p) * IZR q') in L by (field; lra).
  replace (IZR (signed (negative y) p') * / IZR q' * (IZR q * IZR q')) with (IZR (signed (negative y) p') * IZR q) in L by (field; lra). exact L.
Qed.

(** ** Percentages *)
Local Notation rn := (round radix2 (SpecFloat.fexp 53 1024) ZnearestE).
Local Notation div := (SFdiv 53 1024).
Local Notation mul := (SFmul 53 1024).
Local Notation sub := (SFsub 53 1024).
Local Notation fz := f64_of_Z.
Lemma near_abs x y : Rabs x <= y -> 1 <= y -> Rabs (rn x - x) <= y * bpow radix2 (-53).
Proof.
  intros H Y. destruct (Rle_or_lt 0 x) as [P|P].
  - rewrite Rabs_pos_eq in H by exact P. apply half_ulp; lra.
  - rewrite Rabs_left in H by exact P. replace x with (- - x) by ring. rewrite round_NE_opp.
    replace (- rn (- x) - - - x) with (- (rn (- x) - - x)) by ring. rewrite Rabs_Ropp. apply half_ulp; lra.
Qed.
Lemma tiny : bpow radix2 (-53) = / 9007199254740992.
Proof. reflexivity. Qed.
(** [(l - t) / t * 100] in floating point is close to the exact percentage. *)
Lemma pct_near a t : (Z.abs a < 2 ^ 31)%Z -> (0 < t < 2 ^ 31)%Z -> let z := mul (div (fz a) (fz t)) (fz 100) in
  number z /\ Rabs (real z - 100 * (IZR a / IZR t)) <= / 1000.
Proof.
  intros Ha Ht z. assert (T : 1 <= IZR t) by (apply IZR_le; lia). set (r := IZR a / IZR t).
  assert (B : Rabs r <= 2147483648).
  { unfold r, Rdiv. rewrite Rabs_mult, <- abs_IZR. assert (0 <= IZR (Z.abs a) <= 2147483648) by (split; apply IZR_le; lia).
    rewrite Rabs_pos_eq by (apply Rlt_le, Rinv_0_lt_compat; lra). assert (0 < / IZR t <= 1).
    { split; [apply Rinv_0_lt_compat; lra|]. rewrite <- Rinv_1. apply Rinv_le_contravar; lra. }
    nra. }
  pose proof (div_rounds (fz a) (fz t) ltac:(apply Nz; lia) ltac:(apply Nz; lia)) as D. rewrite !Rz in D by lia. specialize (D ltac:(lra)). fold r in D.
  apply Rabs_le_inv in B as B'.
  assert (Nd : number (div (fz a) (fz t)) /\ -2147483648 <= real (div (fz a) (fz t)) <= 2147483648).
  { destruct (between (fz (-2147483648)) (fz 2147483648) _ _ ltac:(apply Nz; lia) ltac:(apply Nz; lia) D) as [N R].
    - rewrite !Rz by lia. lra.
    - rewrite !Rz in R by lia. split; [exact N|lra]. }
  destruct Nd as [Nd Bd]. set (d := div (fz a) (fz t)) in *. pose proof (rounded_eq _ _ D Nd) as Ed.
  pose proof (near_abs r 2147483648 B ltac:(lra)) as E1. rewrite <- Ed, tiny in E1.
  pose proof (mul_rounds d (fz 100) Nd ltac:(apply Nz; lia)) as M. rewrite (Rz 100) in M by lia. change (mul d (fz 100)) with z in M.
  assert (Nz' : number z).
  { destruct (between (fz (-214748364800)) (fz 214748364800) _ _ ltac:(apply Nz; lia) ltac:(apply Nz; lia) M) as [N _]; [|exact N]. rewrite !Rz by lia. lra. }
  split; [exact Nz'|]. pose proof (rounded_eq _ _ M Nz') as Ez.
  assert (B2 : Rabs (real d * 100) <= 214748364800) by (apply Rabs_le; lra).
  pose proof (near_abs (real d * 100) 214748364800 B2 ltac:(lra)) as E2. rewrite <- Ez, tiny in E2.
  apply Rabs_le_inv in E1, E2. apply Rabs_le. lra.
Qed.
Lemma timing_near t j : (0 <= t < 2 ^ 31)%Z -> (0 < j < 2 ^ 31)%Z -> let z := mul (sub (fz 1) (div (fz t) (fz j))) (fz 100) in
  number z /\ Rabs (real z - 100 * (IZR (j - t) / IZR j)) <= / 1000.
Proof.
  intros Ha Ht z. assert (T : 1 <= IZR j) by (apply IZR_le; lia). set (r := IZR t / IZR j).
  replace (IZR (j - t) / IZR j) with (1 - r) by (unfold r; rewrite minus_IZR; field; lra).
  assert (B : 0 <= r <= 2147483648).
  { unfold r. apply quot_range; [lra|]. assert (0 <= IZR t <= 2147483648) by (split; apply IZR_le; lia). nra. }
  pose proof (div_rounds (fz t) (fz j) ltac:(apply Nz; lia) ltac:(apply Nz; lia)) as D. rewrite !Rz in D by lia. specialize (D ltac:(lra)). fold r in D.
  assert (Nd : number (div (fz t) (fz j)) /\ 0 <= real (div (fz t) (fz j)) <= 2147483648).
  { destruct (between (fz 0) (fz 2147483648) _ _ ltac:(apply Nz; lia) ltac:(apply Nz; lia) D) as [N R].
    - rewrite !Rz by lia. lra.
    - rewrite !Rz in R by lia. split; [exact N|lra]. }
  destruct Nd as [Nd Bd]. set (d := div (fz t) (fz j)) in *. pose proof (rounded_eq _ _ D Nd) as Ed.
  pose proof (near_abs r 2147483648 ltac:(apply Rabs_le; lra) ltac:(lra)) as E1. rewrite <- Ed, tiny in E1.
  pose proof (sub_rounds (fz 1) d ltac:(apply Nz; lia) Nd) as S. rewrite (Rz 1) in S by lia.
  assert (Ny : number (sub (fz 1) d) /\ -2147483648 <= real (sub (fz 1) d) <= 1).
  { destruct (between (fz (-2147483648)) (fz 1) _ _ ltac:(apply Nz; lia) ltac:(apply Nz; lia) S) as [N R].
    - rewrite !Rz by lia. lra.
    - rewrite !Rz in R by lia. split; [exact N|lra]. }
  destruct Ny as [Ny By]. set (y := sub (fz 1) d) in *. pose proof (rounded_eq _ _ S Ny) as Ey.
  pose proof (near_abs (1 - real d) 2147483648 ltac:(apply Rabs_le; lra) ltac:(lra)) as E3. rewrite <- Ey, tiny in E3.
  pose proof (mul_rounds y (fz 100) Ny ltac:(apply Nz; lia)) as M. rewrite (Rz 100) in M by lia. change (mul y (fz 100)) with z in M.
  assert (Nz' : number z).
  { destruct (between (fz (-214748364800)) (fz 214748364800) _ _ ltac:(apply Nz; lia) ltac:(apply Nz; lia) M) as [N _]; [|exact N]. rewrite !Rz by lia. lra. }
  split; [exact Nz'|]. pose proof (rounded_eq _ _ M Nz') as Ez.
  assert (B2 : Rabs (real y * 100) <= 214748364800) by (apply Rabs_le; lra).
  pose proof (near_abs (real y * 100) 214748364800 B2 ltac:(lra)) as E2. rewrite <- Ez, tiny in E2.
  apply Rabs_le_inv in E1, E2, E3. apply Rabs_le. lra.
Qed.

(** ** What the text shows *)
Lemma band_near s n : (0 < s < 2 ^ 31)%Z -> (0 <= n < 2 ^ 31)%Z -> let z := div (div (fz n) (fz s)) (fz 1024) in
  number z /\ Rabs (real z - 100 * (IZR n / IZR (102400 * s))) <= / 1000.
Proof.
  intros Hs Hn z. assert (T : 1 <= IZR s) by (apply IZR_le; lia). set (r := IZR n / IZR s).
  replace (100 * (IZR n / IZR (102400 * s))) with (r / 1024) by (unfold r; rewrite mult_IZR; field; lra).
  assert (B : 0 <= r <= 2147483648).
  { unfold r. apply quot_range; [lra|]. assert (0 <= IZR n <= 2147483648) by (split; apply IZR_le; lia). nra. }
  pose proof (div_rounds (fz n) (fz s) ltac:(apply Nz; lia) ltac:(apply Nz; lia)) as D. rewrite !Rz in D by lia. specialize (D ltac:(lra)). fold r in D.
  assert (Nd : number (div (fz n) (fz s)) /\ 0 <= real (div (fz n) (fz s)) <= 2147483648).
  { destruct (between (fz 0) (fz 2147483648) _ _ ltac:(apply Nz; lia) ltac:(apply Nz; lia) D) as [N R].
    - rewrite !Rz by lia. lra.
    - rewrite !Rz in R by lia. split; [exact N|lra]. }
  destruct Nd as [Nd Bd]. set (d := div (fz n) (fz s)) in *. pose proof (rounded_eq _ _ D Nd) as Ed.
  pose proof (near_abs r 2147483648 ltac:(apply Rabs_le; lra) ltac:(lra)) as E1. rewrite <- Ed, tiny in E1.
  pose proof (div_rounds d (fz 1024) Nd ltac:(apply Nz; lia)) as M. rewrite (Rz 1024) in M by lia. specialize (M ltac:(lra)). change (div d (fz 1024)) with z in M.
  assert (Nz' : number z).
  { destruct (between (fz 0) (fz 2147483648) _ _ ltac:(apply Nz; lia) ltac:(apply Nz; lia) M) as [N _]; [|exact N]. rewrite !Rz by lia. lra. }
  split; [exact Nz'|]. pose proof (rounded_eq _ _ M Nz') as Ez.
  assert (B2 : Rabs (real d / 1024) <= 2147483648) by (apply Rabs_le; lra).
  pose proof (near_abs (real d / 1024) 2147483648 B2 ltac:(lra)) as E2. rewrite <- Ez, tiny in E2.
  apply Rabs_le_inv in E1, E2. apply Rabs_le. lra.
Qed.
Lemma rounded_shows d x s : rounded d x s -> exists n, shows d s n /\ Rabs (IZR n - real x * IZR (10 ^ Z.of_nat d)) <= / 2.
Proof.
  intros (n & p & q & D & M & B & _). destruct (magnitude_real _ _ _ M) as (_ & Q & E). exists (signed (negative x) n). split.
  { destruct (negative x); constructor; exact D. }
  rewrite E. set (u := (10 ^ Z.of_nat d)%Z) in *. apply IZR_lt in Q as Q'. apply IZR_le in B. rewrite mult_IZR, abs_IZR in B.
  assert (H : Rabs (IZR (p * u - n * q)) <= / 2 * IZR q) by lra.
  replace (IZR (signed (negative x) n) - IZR (signed (negative x) p) / IZR q * IZR u)
    with ((if negative x then 1 else -1) * (IZR (p * u - n * q) / IZR q)).
  2:{ rewrite minus_IZR, !mult_IZR. destruct (negative x); unfold signed; rewrite ?opp_IZR; field; lra. }
  rewrite Rabs_mult. replace (Rabs (if negative x then 1 else -1)) with 1 by (destruct (negative x); [rewrite Rabs_R1|rewrite Rabs_left by lra]; lra).
  unfold Rdiv. rewrite Rmult_1_l, Rabs_mult, (Rabs_pos_eq (/ IZR q)) by (apply Rlt_le, Rinv_0_lt_compat; lra).
  apply Rmult_le_reg_r with (IZR q); [lra|]. rewrite Rmult_assoc, Rinv_l by lra. lra.
Qed.
Lemma pct_shown a t z s : (0 < t)%Z -> Rabs (real z - 100 * (IZR a / IZR t)) <= / 1000 -> rounded 2 z s ->
  exists n, shows 2 s n /\ (Z.abs (n * t - 10000 * a) < t)%Z.
Proof.
  intros Ht H R. destruct (rounded_shows _ _ _ R) as (n & S & B). exists n. split; [exact S|]. change (IZR (10 ^ Z.of_nat 2)) with 100 in B.
  apply IZR_lt in Ht as Ht'. apply lt_IZR. rewrite abs_IZR, minus_IZR, !mult_IZR.
  set (r := IZR a / IZR t) in *. replace (IZR a) with (r * IZR t) by (unfold r; field; lra).
  apply Rabs_le_inv in H, B. apply Rabs_lt. split; nra.
Qed.
(** Rounding to decimals keeps the order. *)
Lemma signed_round (p q n p' q' n' : Z) : (0 < q)%Z -> (0 < q')%Z -> (p * q' <= p' * q)%Z ->
  (2 * Z.abs (p - n * q) <= q)%Z -> (2 * Z.abs (p - n * q) = q -> Z.Even n)%Z ->
  (2 * Z.abs (p' - n' * q') <= q')%Z -> (2 * Z.abs (p' - n' * q') = q' -> Z.Even n')%Z -> (n <= n')%Z.
Proof.
  intros Q Q' L B T B' T'. destruct (Z_le_gt_dec n n') as [H|H]; [exact H|exfalso].
  assert (A : (2 * n * q - q <= 2 * p)%Z) by lia. assert (A' : (2 * p' <= 2 * n' * q' + q')%Z) by lia.
  assert (K : (2 * n - 1 <= 2 * n' + 1)%Z).
  { apply Z.mul_le_mono_pos_r with (q * q')%Z; [lia|]. nia. }
  assert (E : n = (n' + 1)%Z) by lia. subst n.
  assert (A1 : (2 * p = (2 * n' + 1) * q)%Z) by nia. assert (A2 : (2 * p' = (2 * n' + 1) * q')%Z) by nia.
  destruct T as [k Hk]; [lia|]. destruct T' as [k' Hk']; [lia|]. lia.
Qed.
Lemma shown_order d x y s s' : number x -> number y -> SFleb x y = true -> rounded d x s -> rounded d y s' ->
  exists n n', shows d s n /\ shows d s' n' /\ (n <= n')%Z.
Proof.
  intros Nx Ny L (n & p & q & D & M & B & T) (n' & p' & q' & D' & M' & B' & T').
  pose proof (leb_cross _ _ _ _ _ _ Nx Ny L M M') as C. destruct (magnitude_real _ _ _ M) as (_ & Q & _), (magnitude_real _ _ _ M') as (_ & Q' & _).
  exists (signed (negative x) n), (signed (negative y) n').
  split; [destruct (negative x); constructor; exact D|]. split; [destruct (negative y); constructor; exact D'|].
  set (u := (10 ^ Z.of_nat d)%Z) in *. assert (U : (0 < u)%Z) by (apply Z.pow_pos_nonneg; lia).
  apply (signed_round (signed (negative x) p * u) q _ (signed (negative y) p' * u) q' _ Q Q').
  - nia.
  - destruct (negative x); unfold signed; lia.
  - intros E. destruct (negative x); unfold signed in *; [|apply T; lia]. destruct T as [k Hk]; [lia|]. exists (- k)%Z. lia.
  - destruct (negative y); unfold signed; lia.
  - intros E. destruct (negative y); unfold signed in *; [|apply T'; lia]. destruct T' as [k Hk]; [lia|]. exists (- k)%Z. lia.
Qed.
