(** The rounded figures of the results.  The proofs go through the real numbers of Flocq, so what
    follows depends on the axioms of Coq's reals. *)
From Coq Require Import ZArith Reals Lra Lia Bool SpecFloat.
From Flocq Require Import Core.Core IEEE754.BinarySingleNaN.
From Verif Require Import F64 RangeSpec FloatOrder TempTimes.
From Verif Require GoText.

Local Open Scope R_scope.
Local Notation div := (SFdiv 53 1024).
Local Notation mul := (SFmul 53 1024).
Local Notation sub := (SFsub 53 1024).
Local Notation fz := f64_of_Z.

Lemma real_inj x y : number x -> number y -> real x = real y -> real x <> 0 -> x = y.
Proof.
  intros [Vx Fx] [Vy Fy]. destruct (as_flocq x Vx) as [a ->], (as_flocq y Vy) as [b ->]. rewrite finite_same in *. rewrite !real_same. intros E Z.
  f_equal. apply B2R_inj; [| |exact E].
  - destruct a; try discriminate Fx; [exfalso; apply Z; reflexivity|reflexivity].
  - rewrite E in Z. destruct b; try discriminate Fy; [exfalso; apply Z; reflexivity|reflexivity].
Qed.
Lemma quot_range a b lo hi : 0 < b -> lo * b <= a <= hi * b -> lo <= a / b <= hi.
Proof.
  intros Hb [H1 H2]. split; apply Rmult_le_reg_r with b; try exact Hb; unfold Rdiv; rewrite Rmult_assoc, Rinv_l; lra.
Qed.
Definition half : f64 := S754_finite false 4503599627370496 (-53).
Lemma half_number : number half.
Proof. split; reflexivity. Qed.
Lemma half_real : real half = / 2.
Proof. unfold real, half, SF2R, F2R. simpl. lra. Qed.
Lemma Nz z : (Z.abs z < 2 ^ 53)%Z -> number (fz z).
Proof. intros H. apply exact_number, H. Qed.
Lemma Rz z : (Z.abs z < 2 ^ 53)%Z -> real (fz z) = IZR z.
Proof. intros H. apply exact_number, H. Qed.

(** ** The reduction *)
Definition saved (c j : Z) : f64 := mul (sub (fz 1) (div (fz c) (fz j))) (fz 100).
Section saved.
Context (c u : Z) (Hc : (0 <= c <= u)%Z) (Hu : (0 < u < 2 ^ 52)%Z).
Lemma share : let x := div (fz c) (fz (u + c)) in
  number x /\ 0 <= real x <= / 2 /\ rounded_to (IZR c / IZR (u + c)) x.
Proof.
  intros x. pose proof (div_rounds (fz c) (fz (u + c)) ltac:(apply Nz; lia) ltac:(apply Nz; lia)) as H.
  rewrite !Rz in H by lia. assert (P : 0 < IZR (u + c)) by (apply IZR_lt; lia). specialize (H ltac:(lra)). fold x in H.
  assert (B : 0 <= IZR c / IZR (u + c) <= / 2).
  { apply quot_range; [exact P|]. rewrite plus_IZR. assert (0 <= IZR c <= IZR u) by (split; apply IZR_le; lia). lra. }
  destruct (between (fz 0) half _ _ ltac:(apply Nz; lia) half_number H) as [N R].
  { rewrite Rz, half_real by lia. exact B. }
  rewrite Rz, half_real in R by lia. auto.
Qed.
Lemma rest : let x := div (fz c) (fz (u + c)) in let y := sub (fz 1) x in
  number y /\ / 2 <= real y <= 1 /\ rounded_to (1 - real x) y.
Proof.
  intros x y. destruct share as (N & B & _). fold x in N, B. pose proof (sub_rounds (fz 1) x ltac:(apply Nz; lia) N) as H. fold y in H. rewrite Rz in H by lia.
  destruct (between half (fz 1) _ _ half_number ltac:(apply Nz; lia) H) as [M R].
  { rewrite Rz, half_real by lia. lra. }
  rewrite Rz, half_real in R by lia. auto.
Qed.
Lemma saved_real : let y := sub (fz 1) (div (fz c) (fz (u + c))) in let z := saved c (u + c) in
  number z /\ 50 <= real z <= 100 /\ rounded_to (real y * 100) z.
Proof.
  intros y z. destruct rest as (N & B & _). fold y in N, B. pose proof (mul_rounds y (fz 100) N ltac:(apply Nz; lia)) as H. rewrite (Rz 100) in H by lia.
  change (mul y (fz 100)) with z in H.
  destruct (between (fz 50) (fz 100) _ _ ltac:(apply Nz; lia) ltac:(apply Nz; lia) H) as [M R].
  { rewrite !Rz by lia. lra. }
  rewrite !Rz in R by lia. auto.
Qed.
Lemma saved_range : SFleb (fz 50) (saved c (u + c)) = true /\ SFleb (saved c (u + c)) (fz 100) = true.
Proof.
  destruct saved_real as (N & B & _). split; apply leb_real; try exact N; try (apply Nz; lia); rewrite Rz by lia; lra.
Qed.
End saved.
Lemma saved_all u : (0 < u < 2 ^ 52)%Z -> saved u (u + u) = fz 50.
Proof.
  intros Hu. destruct (share u u ltac:(lia) Hu) as (Nx & Bx & Rx). destruct (rest u u ltac:(lia) Hu) as (Ny & By & Ry).
  destruct (saved_real u u ltac:(lia) Hu) as (Nz' & Bz & Rz'). set (x := div (fz u) (fz (u + u))) in *. set (y := sub (fz 1) x) in *. set (z := saved u (u + u)) in *.
  assert (P : 0 < IZR u) by (apply IZR_lt; lia).
  destruct (between half half _ _ half_number half_number Rx) as [_ Ex].
  { rewrite half_real, plus_IZR. replace (IZR u / (IZR u + IZR u)) with (/ 2) by (field; lra). lra. }
  rewrite half_real in Ex. destruct (between half half _ _ half_number half_number Ry) as [_ Ey]; [rewrite half_real; lra|].
  rewrite half_real in Ey. destruct (between (fz 50) (fz 50) _ _ ltac:(apply Nz; lia) ltac:(apply Nz; lia) Rz') as [_ Ez]; [rewrite Rz by lia; lra|].
  rewrite Rz in Ez by lia. apply real_inj; [exact Nz'|apply Nz; lia|rewrite Rz by lia; lra|lra].
Qed.
Lemma saved_none u : (0 < u < 2 ^ 52)%Z -> saved 0 u = fz 100.
Proof.
  intros Hu. replace u with (u + 0)%Z by lia. destruct (share 0 u ltac:(lia) Hu) as (Nx & Bx & Rx). destruct (rest 0 u ltac:(lia) Hu) as (Ny & By & Ry).
  destruct (saved_real 0 u ltac:(lia) Hu) as (Nz' & Bz & Rz'). set (x := div (fz 0) (fz (u + 0))) in *. set (y := sub (fz 1) x) in *. set (z := saved 0 (u + 0)) in *.
  assert (N0 : number (fz 0)) by (apply Nz; lia). assert (N1 : number (fz 1)) by (apply Nz; lia). assert (N100 : number (fz 100)) by (apply Nz; lia).
  destruct (between (fz 0) (fz 0) _ _ N0 N0 Rx) as [_ Ex]; [rewrite Rz by lia; unfold Rdiv; lra|].
  rewrite Rz in Ex by lia. destruct (between (fz 1) (fz 1) _ _ N1 N1 Ry) as [_ Ey]; [rewrite Rz by lia; lra|].
  rewrite Rz in Ey by lia. destruct (between (fz 100) (fz 100) _ _ N100 N100 Rz') as [_ Ez]; [rewrite Rz by lia; lra|].
  rewrite Rz in Ez by lia. apply real_inj; [exact Nz'|exact N100|rewrite Rz by lia; lra|lra].
Qed.
Lemma saved_le c c' u : (0 <= c <= c')%Z -> (c' <= u)%Z -> (0 < u < 2 ^ 52)%Z -> SFleb (saved c' (u + c')) (saved c (u + c)) = true.
Proof.
  intros Hc Hc' Hu. destruct (share c u ltac:(lia) Hu) as (Nx & _ & Rx), (share c' u ltac:(lia) Hu) as (Nx' & _ & Rx').
  destruct (rest c u ltac:(lia) Hu) as (Ny & _ & Ry), (rest c' u ltac:(lia) Hu) as (Ny' & _ & Ry').
  destruct (saved_real c u ltac:(lia) Hu) as (_ & _ & Sz), (saved_real c' u ltac:(lia) Hu) as (_ & _ & Sz').
  assert (L : IZR c / IZR (u + c) <= IZR c' / IZR (u + c')).
  { assert (P : 0 < IZR (u + c)) by (apply IZR_lt; lia). assert (P' : 0 < IZR (u + c')) by (apply IZR_lt; lia).
    assert (M : IZR c * IZR (u + c') <= IZR c' * IZR (u + c)) by (rewrite <- !mult_IZR; apply IZR_le; nia).
    apply Rmult_le_reg_r with (IZR (u + c) * IZR (u + c')); [nra|].
    replace (IZR c / IZR (u + c) * (IZR (u + c) * IZR (u + c'))) with (IZR c * IZR (u + c')) by (field; lra).
    replace (IZR c' / IZR (u + c') * (IZR (u + c) * IZR (u + c'))) with (IZR c' * IZR (u + c)) by (field; lra). exact M. }
  apply (rounds_le _ _ _ _ Rx Rx'), leb_real in L; [|assumption..].
  assert (L2 : real (sub (fz 1) (div (fz c') (fz (u + c')))) <= real (sub (fz 1) (div (fz c) (fz (u + c))))).
  { apply leb_real; [assumption..|]. apply (rounds_le _ _ _ _ Ry' Ry). lra. }
  apply (rounds_le _ _ _ _ Sz' Sz). lra.
Qed.

(** ** The shares of the updates, and the bandwidths *)
Lemma share_range n u : (0 <= n <= u)%Z -> (0 < u)%Z -> (100 * u < 2 ^ 53)%Z ->
  let z := div (mul (fz n) (fz 100)) (fz u) in SFleb (fz 0) z = true /\ SFleb z (fz 100) = true.
Proof.
  intros Hn Hu Hs z. pose proof (mul_rounds (fz n) (fz 100) ltac:(apply Nz; lia) ltac:(apply Nz; lia)) as H. rewrite !Rz, <- mult_IZR in H by lia.
  destruct (between (fz (n * 100)) (fz (n * 100)) _ _ ltac:(apply Nz; lia) ltac:(apply Nz; lia) H) as [N E]; [rewrite Rz by lia; lra|].
  rewrite Rz in E by lia. pose proof (div_rounds _ (fz u) N ltac:(apply Nz; lia)) as D. rewrite (Rz u) in D by lia.
  assert (P : 0 < IZR u) by (apply IZR_lt; lia). specialize (D ltac:(lra)). fold z in D.
  assert (I : 0 <= IZR (n * 100) <= 100 * IZR u) by (rewrite <- mult_IZR; split; apply IZR_le; lia).
  destruct (between (fz 0) (fz 100) _ _ ltac:(apply Nz; lia) ltac:(apply Nz; lia) D) as [M R].
  { rewrite !Rz by lia. apply quot_range; [exact P|]. lra. }
  split; apply leb_real; try (apply Nz; lia); try exact M; apply R.
Qed.
Lemma band_le s n k : (0 < s < 2 ^ 53)%Z -> (0 <= n <= k)%Z -> (k < 2 ^ 53)%Z ->
  let b x := div (div (fz x) (fz s)) (fz 1024) in SFleb (fz 0) (b n) = true /\ SFleb (b n) (b k) = true.
Proof.
  intros Hs Hn Hk b. assert (P : 1 <= IZR s) by (apply IZR_le; lia).
  assert (Q : forall x, (0 <= x < 2 ^ 53)%Z -> number (div (fz x) (fz s)) /\ rounded_to (IZR x / IZR s) (div (fz x) (fz s)) /\ 0 <= real (div (fz x) (fz s))).
  { intros x Hx. pose proof (div_rounds (fz x) (fz s) ltac:(apply Nz; lia) ltac:(apply Nz; lia)) as D. rewrite !Rz in D by lia. specialize (D ltac:(lra)).
    assert (I : 0 <= IZR x) by (apply IZR_le; lia).
    destruct (between (fz 0) (fz x) _ _ ltac:(apply Nz; lia) ltac:(apply Nz; lia) D) as [M R].
    { rewrite !Rz by lia. apply quot_range; [lra|]. nra. }
    rewrite Rz in R by lia. split; [exact M|]. split; [exact D|lra]. }
  destruct (Q n ltac:(lia)) as (Mn & Dn & Pn), (Q k ltac:(lia)) as (Mk & Dk & Pk).
  assert (L : real (div (fz n) (fz s)) <= real (div (fz k) (fz s))).
  { apply leb_real; [assumption..|]. apply (rounds_le _ _ _ _ Dn Dk). apply Rmult_le_compat_r; [apply Rlt_le, Rinv_0_lt_compat; lra|apply IZR_le; lia]. }
  pose proof (div_rounds _ (fz 1024) Mn ltac:(apply Nz; lia)) as En. pose proof (div_rounds _ (fz 1024) Mk ltac:(apply Nz; lia)) as Ek.
  rewrite (Rz 1024) in En, Ek by lia. specialize (En ltac:(lra)). specialize (Ek ltac:(lra)). split.
  - apply (rounds_le 0 _ _ _) with (2 := En); [|apply (quot_range _ 1024 0 (real (div (fz n) (fz s)))); lra].
    pose proof (rounds_Z 0) as H. exact H.
  - apply (rounds_le _ _ _ _ En Ek). apply Rmult_le_compat_r; [lra|exact L].
Qed.

(** ** How far the figures are from the exact ones *)
Lemma share_near n u k : (0 <= n <= u)%Z -> (0 < u)%Z -> (100 * u < 2 ^ 53)%Z -> (0 <= k < 2 ^ 53)%Z ->
  let z := div (mul (fz n) (fz 100)) (fz u) in
  ((k * u <= 100 * n)%Z -> SFleb (fz k) z = true) /\ ((100 * n <= k * u)%Z -> SFleb z (fz k) = true).
Proof.
  intros Hn Hu Hs Hk z. pose proof (mul_rounds (fz n) (fz 100) ltac:(apply Nz; lia) ltac:(apply Nz; lia)) as H. rewrite !Rz, <- mult_IZR in H by lia.
  destruct (between (fz (n * 100)) (fz (n * 100)) _ _ ltac:(apply Nz; lia) ltac:(apply Nz; lia) H) as [N E]; [rewrite Rz by lia; lra|].
  rewrite Rz in E by lia. pose proof (div_rounds _ (fz u) N ltac:(apply Nz; lia)) as D. rewrite (Rz u) in D by lia.
  assert (P : 0 < IZR u) by (apply IZR_lt; lia). specialize (D ltac:(lra)). fold z in D. pose proof (rounds_Z k) as K.
  set (x := real (mul (fz n) (fz 100))) in *. assert (X : x = IZR (n * 100)) by lra. split; intros L.
  - apply (rounds_le _ _ _ _ K D). apply (quot_range x (IZR u) (IZR k) (x / IZR u)); [exact P|]. split; [|unfold Rdiv; rewrite Rmult_assoc, Rinv_l; lra].
    rewrite X, <- mult_IZR. apply IZR_le. lia.
  - apply (rounds_le _ _ _ _ D K). apply (quot_range x (IZR u) (x / IZR u) (IZR k)); [exact P|]. split; [unfold Rdiv; rewrite Rmult_assoc, Rinv_l; lra|].
    rewrite X, <- mult_IZR. apply IZR_le. lia.
Qed.
Lemma band_near s n k : (0 < s)%Z -> (s < 2 ^ 53)%Z -> (0 <= n < 2 ^ 53)%Z -> (0 <= k < 2 ^ 43)%Z ->
  let b := div (div (fz n) (fz s)) (fz 1024) in
  ((k * 1024 * s <= n)%Z -> SFleb (fz k) b = true) /\ ((n <= k * 1024 * s)%Z -> SFleb b (fz k) = true).
Proof.
  intros Hs Hs' Hn Hk b. assert (P : 1 <= IZR s) by (apply IZR_le; lia).
  pose proof (div_rounds (fz n) (fz s) ltac:(apply Nz; lia) ltac:(apply Nz; lia)) as D. rewrite !Rz in D by lia. specialize (D ltac:(lra)).
  assert (I : 0 <= IZR n) by (apply IZR_le; lia).
  destruct (between (fz 0) (fz n) _ _ ltac:(apply Nz; lia) ltac:(apply Nz; lia) D) as [M R].
  { rewrite !Rz by lia. apply quot_range; [lra|]. nra. }
  pose proof (rounds_Z (k * 1024)) as K. pose proof (Nz (k * 1024) ltac:(lia)) as NK. pose proof (Rz (k * 1024) ltac:(lia)) as RK.
  pose proof (div_rounds _ (fz 1024) M ltac:(apply Nz; lia)) as E. rewrite (Rz 1024) in E by lia. specialize (E ltac:(lra)). fold b in E.
  pose proof (rounds_Z k) as K'. set (x := real (div (fz n) (fz s))) in *. split; intros L.
  - assert (G : IZR (k * 1024) <= x).
    { rewrite <- RK. apply leb_real; [exact NK|exact M|]. apply (rounds_le _ _ _ _ K D). apply (quot_range (IZR n) (IZR s) (IZR (k * 1024)) (IZR n / IZR s)); [lra|].
      split; [rewrite <- mult_IZR; apply IZR_le; lia|unfold Rdiv; rewrite Rmult_assoc, Rinv_l; lra]. }
    apply (rounds_le _ _ _ _ K' E). rewrite mult_IZR in G. apply (quot_range x 1024 (IZR k) (x / 1024)); lra.
  - assert (G : x <= IZR (k * 1024)).
    { rewrite <- RK. apply leb_real; [exact M|exact NK|]. apply (rounds_le _ _ _ _ D K). apply (quot_range (IZR n) (IZR s) (IZR n / IZR s) (IZR (k * 1024))); [lra|].
      split; [unfold Rdiv; rewrite Rmult_assoc, Rinv_l; lra|rewrite <- mult_IZR; apply IZR_le; lia]. }
    apply (rounds_le _ _ _ _ E K'). rewrite mult_IZR in G. apply (quot_range x 1024 (x / 1024) (IZR k)); lra.
Qed.
(** The reduction for [k] percent, and how near it is. *)
Definition tol : f64 := GoText.f64_of_ratio false 1 1000.
Definition saved_at (k : Z) : f64 := mul (sub (fz 1) (div (fz (100 - k)) (fz 100))) (fz 100).
Definition near_check (k : Z) : bool := SFleb (sub (fz k) tol) (saved_at k) && SFleb (saved_at k) (SFadd 53 1024 (fz k) tol)
  && f64_valid (sub (fz k) tol) && f64_finite (sub (fz k) tol) && f64_valid (SFadd 53 1024 (fz k) tol) && f64_finite (SFadd 53 1024 (fz k) tol).
Lemma near_checked : List.forallb (fun i => near_check (Z.of_nat i)) (List.seq 0 101) = true.
Proof. vm_compute. reflexivity. Qed.
Lemma near_at k : (0 <= k <= 100)%Z -> near_check k = true.
Proof.
  intros H. pose proof near_checked as C. rewrite List.forallb_forall in C. specialize (C (Z.to_nat k)). rewrite Z2Nat.id in C by lia. apply C. apply List.in_seq. lia.
Qed.
Lemma at_steps k : (0 <= k <= 100)%Z -> number (div (fz (100 - k)) (fz 100)) /\ rounded_to (IZR (100 - k) / 100) (div (fz (100 - k)) (fz 100)) /\
  number (sub (fz 1) (div (fz (100 - k)) (fz 100))) /\ rounded_to (1 - real (div (fz (100 - k)) (fz 100))) (sub (fz 1) (div (fz (100 - k)) (fz 100))) /\
  number (saved_at k) /\ rounded_to (real (sub (fz 1) (div (fz (100 - k)) (fz 100))) * 100) (saved_at k).
Proof.
  intros Hk. pose proof (div_rounds (fz (100 - k)) (fz 100) ltac:(apply Nz; lia) ltac:(apply Nz; lia)) as D. rewrite !Rz in D by lia. specialize (D ltac:(lra)).
  set (x := div (fz (100 - k)) (fz 100)) in *. assert (I : 0 <= IZR (100 - k) <= 100) by (split; apply IZR_le; lia).
  destruct (between (fz 0) (fz 1) _ _ ltac:(apply Nz; lia) ltac:(apply Nz; lia) D) as [M R]; [rewrite !Rz by lia; apply quot_range; lra|].
  rewrite !Rz in R by lia. pose proof (sub_rounds (fz 1) x ltac:(apply Nz; lia) M) as E. rewrite Rz in E by lia. set (y := sub (fz 1) x) in *.
  destruct (between (fz 0) (fz 1) _ _ ltac:(apply Nz; lia) ltac:(apply Nz; lia) E) as [M' R']; [rewrite !Rz by lia; lra|]. rewrite !Rz in R' by lia.
  pose proof (mul_rounds y (fz 100) M' ltac:(apply Nz; lia)) as F. rewrite (Rz 100) in F by lia. change (mul y (fz 100)) with (saved_at k) in F.
  destruct (between (fz 0) (fz 100) _ _ ltac:(apply Nz; lia) ltac:(apply Nz; lia) F) as [M'' _]; [rewrite !Rz by lia; lra|]. auto 10.
Qed.
Lemma saved_near c u k : (0 <= c <= u)%Z -> (0 < u < 2 ^ 52)%Z -> (0 <= k <= 100)%Z ->
  ((k * (u + c) <= 100 * u)%Z -> SFleb (sub (fz k) tol) (saved c (u + c)) = true) /\
  ((100 * u <= k * (u + c))%Z -> SFleb (saved c (u + c)) (SFadd 53 1024 (fz k) tol) = true).
Proof.
  intros Hc Hu Hk. destruct (share c u Hc Hu) as (Nx & _ & Rx). destruct (rest c u Hc Hu) as (Ny & _ & Ry). destruct (saved_real c u Hc Hu) as (Nz' & _ & Rz').
  destruct (at_steps k Hk) as (Nx' & Rx' & Ny' & Ry' & Mz & Sz). pose proof (near_at k Hk) as C. unfold near_check in C. rewrite !andb_true_iff in C.
  destruct C as [[[[[C1 C2] V1] F1] V2] F2].
  assert (P : 0 < IZR (u + c)) by (apply IZR_lt; lia). split; intros L.
  - assert (L1 : IZR c / IZR (u + c) <= IZR (100 - k) / 100).
    { apply (quot_range (IZR c) (IZR (u + c)) (IZR c / IZR (u + c)) (IZR (100 - k) / 100)); [exact P|]. split; [unfold Rdiv; rewrite Rmult_assoc, Rinv_l; lra|].
      assert (100 * IZR c <= IZR (100 - k) * IZR (u + c)) by (rewrite <- !mult_IZR; apply IZR_le; lia). lra. }
    apply (rounds_le _ _ _ _ Rx Rx'), leb_real in L1; [|assumption..].
    assert (L2 : real (sub (fz 1) (div (fz (100 - k)) (fz 100))) <= real (sub (fz 1) (div (fz c) (fz (u + c))))).
    { apply leb_real; [assumption..|]. apply (rounds_le _ _ _ _ Ry' Ry). lra. }
    apply (leb_trans _ (saved_at k)); [split; assumption|exact Mz|exact Nz'|exact C1|]. apply (rounds_le _ _ _ _ Sz Rz'). lra.
  - assert (L1 : IZR (100 - k) / 100 <= IZR c / IZR (u + c)).
    { apply (quot_range (IZR c) (IZR (u + c)) (IZR (100 - k) / 100) (IZR c / IZR (u + c))); [exact P|]. split; [|unfold Rdiv; rewrite Rmult_assoc, Rinv_l; lra].
      assert (IZR (100 - k) * IZR (u + c) <= 100 * IZR c) by (rewrite <- !mult_IZR; apply IZR_le; lia). lra. }
    apply (rounds_le _ _ _ _ Rx' Rx), leb_real in L1; [|assumption..].
    assert (L2 : real (sub (fz 1) (div (fz c) (fz (u + c)))) <= real (sub (fz 1) (div (fz (100 - k)) (fz 100)))).
    { apply leb_real; [assumption..|]. apply (rounds_le _ _ _ _ Ry Ry'). lra. }
    apply (leb_trans _ (saved_at k)); [exact Nz'|exact Mz|split; assumption| |exact C2]. apply (rounds_le _ _ _ _ Rz' Sz). lra.
Qed.
