(** Numbers written with all their decimal digits, and that [strconv.ParseFloat] reads them back. *)
From Verif Require Import Base BaseSpec BaseLemmas BaseSpecLemmas F64 Tson Serial TextSpec GoText ParseComplete Bytes Json JsonSpec JsonWrite RangeSpec TemporalSpec ExactFloat StoreSpec.
From Verif Require FloatOrder.
From Coq Require Import Reals.
Close Scope R_scope.

(** [(-1)^s * m * 2^e] in decimal: one digit after the point for each power of two below it. *)
Definition sign_text (s : bool) : string := if s then "-" else "".
Definition exact_num (x : f64) : string :=
  match x with
  | S754_zero s => sign_text s +++ "0"
  | S754_finite s m (Zneg p) =>
      let n := Z.pos m * 5 ^ Z.pos p in
      sign_text s +++ dec_text (Z.to_N (n / 10 ^ Z.pos p)) +++ "." +++ last_digits (Pos.to_nat p) n
  | S754_finite s m e => sign_text s +++ dec_text (Z.to_N (Z.pos m * 2 ^ e))
  | _ => ""
  end.

Definition parsed (neg : bool) (n : N) (d : positive) : option f64 :=
  match n with
  | N0 => Some (S754_zero neg)
  | Npos n => match f64_of_ratio neg n d with S754_infinity _ => None | x => Some x end
  end.
Lemma signed_split neg i r : all_digits i = true -> i <> "" ->
  match sign_text neg +++ i +++ r with
  | String a s' => if decide (a = "-"%char) then (true, s') else (false, sign_text neg +++ i +++ r)
  | EmptyString => (false, sign_text neg +++ i +++ r)
  end = (neg, i +++ r).
Proof.
  intros A N. destruct neg; [done|]. destruct i as [|a i]; [done|]. cbn. cbn in A. apply andb_true_iff in A as [A _].
  rewrite decide_False; [done|]. by apply is_digit_not_sign.
Qed.
Lemma go_whole neg i : all_digits i = true -> i <> "" -> go_parse_num (sign_text neg +++ i) = parsed neg (dec_val 0 i) 1.
Proof.
  intros A N. unfold go_parse_num. pose proof (signed_split neg i "" A N) as E. rewrite sapp_nil_r in E. rewrite E. clear E.
  pose proof (span_digits_ok i "" A) as E. rewrite sapp_nil_r in E. rewrite E.
  - rewrite !sapp_nil_r. rewrite decide_False by done. by destruct (dec_val 0 i).
  - intros a d _ [r Hr]. discriminate Hr.
Qed.
Lemma go_point neg i f : all_digits i = true -> i <> "" -> all_digits f = true ->
  go_parse_num (sign_text neg +++ i +++ "." +++ f) = parsed neg (dec_val 0 (i +++ f)) (pow10 (slength f)).
Proof.
  intros A N Af. unfold go_parse_num. rewrite (signed_split neg i ("." +++ f) A N).
  rewrite (span_digits_ok i ("." +++ f) A).
  - cbn [String.append]. rewrite decide_True by done.
    pose proof (span_digits_ok f "" Af) as E. rewrite sapp_nil_r in E. rewrite E; [|intros a d _ [r Hr]; discriminate Hr].
    rewrite decide_True by done. rewrite decide_False; [by destruct (dec_val 0 _)|]. by destruct i.
  - intros a d Hd [r Hr]. injection Hr as <- _. apply digit_model in Hd as [Hd _]. by vm_compute in Hd.
Qed.
Lemma last_all k n : all_digits (last_digits k n) = true.
Proof.
  induction k as [|k IH]; [done|]. cbn [last_digits all_digits]. rewrite IH, andb_true_r.
  pose proof (Z.mod_pos_bound (n / 10 ^ Z.of_nat k) 10). unfold is_digit. rewrite N_ascii_embedding by lia.
  apply andb_true_intro. split; apply N.leb_le; lia.
Qed.
Lemma last_length k n : slength (last_digits k n) = k.
Proof. induction k as [|k IH]; [done|]. cbn. by rewrite IH. Qed.
Lemma last_val k n a : dec_val a (last_digits k n) = (a * 10 ^ N.of_nat k + Z.to_N (n `mod` 10 ^ Z.of_nat k))%N.
Proof.
  revert a. induction k as [|k IH]; intros a.
  - cbn. rewrite Z.mod_1_r. lia.
  - cbn [last_digits dec_val]. rewrite IH. unfold digit_val.
    pose proof (Z.mod_pos_bound (n / 10 ^ Z.of_nat k) 10). rewrite N_ascii_embedding by lia.
    rewrite !Nat2N.inj_succ, Nat2Z.inj_succ, N.pow_succ_r', Z.pow_succ_r by lia.
    assert (P : 0 < 10 ^ Z.of_nat k) by lia. rewrite (Z.mul_comm 10), Z.rem_mul_r by lia.
    pose proof (Z.mod_pos_bound n (10 ^ Z.of_nat k) P).
    apply N2Z.inj. rewrite !N2Z.inj_add, !N2Z.inj_mul, N2Z.inj_add, N2Z.inj_mul, !N2Z.inj_pow, !nat_N_Z, !Z2N.id by lia.
    rewrite N2Z.inj_sub by lia. rewrite Z2N.id by lia. change (Z.of_N 10) with 10. change (Z.of_N 48) with 48. lia.
Qed.
Lemma pow10_pow p : Z.pos (pow10 p) = 10 ^ Z.of_nat p.
Proof. induction p as [|p IH]; [done|]. rewrite Nat2Z.inj_succ, Z.pow_succ_r by lia. cbn [pow10]. rewrite Pos2Z.inj_mul, IH. done. Qed.
Lemma digits_some s : all_digits s = true -> s <> "" -> some_digits s.
Proof. intros A N. exists (dec_val 0 s). by apply digits_model. Qed.
Lemma exact_text x : f64_finite x = true -> number_text (exact_num x).
Proof.
  assert (W : forall s i, int_lit i -> number_text (sign_text s +++ i)).
  { intros s i Hi. replace (sign_text s +++ i) with (sign_text s +++ i +++ "" +++ "") by (by rewrite !sapp_nil_r).
    constructor; [destruct s; [by right|by left]|done|constructor|constructor]. }
  destruct x as [s|s| |s m [|p|p]]; try done; intros _.
  - apply W. constructor.
  - apply W, dec_text_int.
  - apply W, dec_text_int.
  - unfold exact_num. set (n := Z.pos m * _). replace ("." +++ last_digits (Pos.to_nat p) n) with (("." +++ last_digits (Pos.to_nat p) n) +++ "") by (by rewrite sapp_nil_r).
    constructor; [destruct s; [by right|by left]|apply dec_text_int| |constructor]. constructor. apply digits_some; [apply last_all|].
    destruct (Pos2Nat.is_succ p) as [k ->]. done.
Qed.
Lemma parsed_exact s m e n d : number (S754_finite s m e) -> FloatOrder.real (S754_finite s m e) = (IZR (SpecFloat.cond_Zopp s (Z.pos n)) / IZR (Z.pos d))%R ->
  parsed s (N.pos n) d = Some (S754_finite s m e).
Proof. intros Hx Hr. unfold parsed. by rewrite (ratio_exact s m e n d Hx Hr). Qed.
Lemma exact_read x : number x -> go_parse_num (exact_num x) = Some x.
Proof.
  intros Hx. pose proof Hx as [_ Hf]. destruct x as [s|s| |s m e]; try done; [by destruct s|].
  assert (W : forall n, 0 < n -> FloatOrder.real (S754_finite s m e) = (IZR (SpecFloat.cond_Zopp s n) / IZR 1)%R -> go_parse_num (sign_text s +++ dec_text (Z.to_N n)) = Some (S754_finite s m e)).
  { intros n Hn Hr. destruct (dec_text_spec (Z.to_N n)) as (A & N & V). rewrite go_whole, V by done. destruct n as [|n|n]; [lia| |lia].
    cbn [Z.to_N]. by apply parsed_exact. }
  destruct e as [|p|p].
  - unfold exact_num. rewrite Z.mul_1_r. apply W; [lia|]. apply real_int.
  - apply W; [lia|]. apply real_up.
  - clear W. unfold exact_num. pose proof (real_down s m p) as Hr. set (n := Z.pos m * 5 ^ Z.pos p) in *. assert (Hn : 0 < n) by lia.
    destruct (dec_text_spec (Z.to_N (n / 10 ^ Z.pos p))) as (A & N & V). rewrite go_point, dec_val_app, V, last_val, last_length by (try done; apply last_all).
    assert (Q : (Z.to_N (n / 10 ^ Z.pos p) * 10 ^ N.of_nat (Pos.to_nat p) + Z.to_N (n `mod` 10 ^ Z.of_nat (Pos.to_nat p)) = Z.to_N n)%N).
    { rewrite positive_nat_Z. pose proof (Z.mod_pos_bound n (10 ^ Z.pos p)). pose proof (Z.div_pos n (10 ^ Z.pos p)).
      apply N2Z.inj. rewrite N2Z.inj_add, N2Z.inj_mul, N2Z.inj_pow, nat_N_Z, positive_nat_Z, !Z2N.id by lia.
      change (Z.of_N 10) with 10. pose proof (Z.div_mod n (10 ^ Z.pos p)). lia. }
    rewrite Q. destruct n as [|n|n]; [lia| |lia]. cbn [Z.to_N]. apply parsed_exact; [done|]. by rewrite pow10_pow, positive_nat_Z.
Qed.
Lemma int_read z : int64 z -> go_parse_num (z_text z) = Some (f64_of_Z z).
Proof.
  intros Hz. assert (W : forall s n, 0 < n -> z = SpecFloat.cond_Zopp s n -> go_parse_num (sign_text s +++ dec_text (Z.to_N n)) = Some (f64_of_Z z)).
  { intros s n Hn E. destruct (dec_text_spec (Z.to_N n)) as (A & N & V). rewrite go_whole, V by done. destruct n as [|n|n]; [lia| |lia]. cbn [Z.to_N parsed].
    rewrite ratio_Z, <- E. destruct (int_number z Hz) as [_ F]. by destruct (f64_of_Z z). }
  unfold z_text. destruct (Z.ltb_spec z 0).
  - apply (W true); [lia|]. cbn [SpecFloat.cond_Zopp]. lia.
  - destruct (Z.eq_dec z 0) as [->|Hnz]; [done|]. apply (W false); [lia|done].
Qed.
Lemma exact_reads_back isp : reads_back (go_lib isp) exact_num.
Proof.
  split.
  - intros x Hx. pose proof Hx as [_ F]. split; [by intros ->|]. split; [by intros s ->|]. split; [by apply exact_text|]. by apply exact_read.
  - intros z Hz. by apply int_read.
Qed.
