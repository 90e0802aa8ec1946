(** The model's number and pointer helpers meet the specifications. *)
From stdpp Require Import pretty.
From Verif Require Import Base BaseSpec BaseLemmas.

Lemma digit_model a d : digit a d <-> is_digit a = true ∧ digit_val a = d.
Proof.
  unfold digit, is_digit, digit_val. rewrite andb_true_iff, !N.leb_le. lia.
Qed.
Lemma digits_model s n : digits s n <-> s <> "" ∧ all_digits s = true ∧ dec_val 0 s = n.
Proof.
  split.
  - induction 1 as [a d H|s n a d H IH H2].
    + apply digit_model in H as [H1 H2]. cbn [all_digits dec_val]. rewrite H1. repeat split; [done|]. lia.
    + destruct IH as (H3 & H4 & H5). apply digit_model in H2 as [H6 H7]. repeat split.
      * by destruct s.
      * rewrite all_digits_app, H4. cbn [all_digits]. by rewrite H6.
      * rewrite dec_val_app, H5. cbn [dec_val]. lia.
  - intros (H1 & H2 & <-).
    assert (Hgen : forall s', all_digits s' = true -> forall s n, digits s n -> digits (s +++ s') (dec_val n s')).
    { induction s' as [|a s' IH]; intros Hd s0 n0 H0.
      - rewrite sapp_nil_r. exact H0.
      - cbn [all_digits] in Hd. apply andb_true_iff in Hd as [Ha Hd].
        change (s0 +++ String a s') with (s0 +++ (String a "" +++ s')). rewrite <- sapp_assoc. cbn [dec_val].
        replace (n0 * 10 + digit_val a)%N with (10 * n0 + digit_val a)%N by lia. apply IH; [done|].
        constructor; [done|]. by apply digit_model. }
    destruct s as [|a s]; [done|]. cbn [all_digits] in H2. apply andb_true_iff in H2 as [Ha Hd].
    cbn [dec_val]. change (String a s) with (String a "" +++ s). apply Hgen; [done|].
    constructor. apply digit_model. split; [done|]. lia.
Qed.
Lemma opt_digits_model s : opt_digits s <-> all_digits s = true.
Proof.
  unfold opt_digits. split.
  - intros [->|[n H]]; [done|]. apply digits_model in H. tauto.
  - intros H. destruct (decide (s = "")) as [->|Hs]; [by left|]. right. exists (dec_val 0 s). by apply digits_model.
Qed.
Lemma digits_head s n : digits s n -> exists a r, s = String a r ∧ is_digit a = true.
Proof.
  intros (H & H2 & _)%digits_model. destruct s as [|a r]; [done|]. cbn [all_digits] in H2.
  apply andb_true_iff in H2 as [H2 _]. eauto.
Qed.
Lemma int_text_parse s z : int_text s z -> parse_int s = Some z.
Proof.
  assert (Hr : forall z, - 2 ^ 63 <= z < 2 ^ 63 -> in_int64 z = true).
  { intros z0 Hz. unfold in_int64, int64_min, int64_max. apply andb_true_iff. rewrite !Z.leb_le. lia. }
  intros H. inversion H as [s0 n Hd Hn|s0 n Hd Hn|s0 n Hd Hn]; subst; unfold parse_int.
  - destruct (digits_head _ _ Hd) as (a & r & -> & Ha). destruct (is_digit_not_sign a Ha) as [H1 H2].
    rewrite !decide_False by done. apply digits_model in Hd as (_ & H3 & H4). rewrite H3, H4, Hr; [done|lia].
  - rewrite decide_False by done. rewrite decide_True by done.
    destruct (digits_head _ _ Hd) as (a & r & -> & Ha). apply digits_model in Hd as (_ & H3 & H4). rewrite H3, H4, Hr; [done|lia].
  - rewrite decide_True by done.
    destruct (digits_head _ _ Hd) as (a & r & -> & Ha). apply digits_model in Hd as (_ & H3 & H4). rewrite H3, H4, Hr; [done|lia].
Qed.
Lemma parse_int_text s z : parse_int s = Some z -> int_text s z.
Proof.
  assert (Hr : forall z, in_int64 z = true -> - 2 ^ 63 <= z < 2 ^ 63).
  { intros z0. unfold in_int64, int64_min, int64_max. rewrite andb_true_iff, !Z.leb_le. lia. }
  unfold parse_int. destruct s as [|a s]; [done|].
  destruct (decide (a = "-"%char)) as [->|H1]; [|destruct (decide (a = "+"%char)) as [->|H2]].
  - destruct s as [|b s]; [done|]. destruct (all_digits (String b s)) eqn:E; [|done].
    remember (dec_val 0 _) as v eqn:Ev. destruct (in_int64 _) eqn:E2; [|done]. intros [= <-]. apply Hr in E2. apply it_minus; [|lia]. subst v. by apply digits_model.
  - destruct s as [|b s]; [done|]. destruct (all_digits (String b s)) eqn:E; [|done].
    remember (dec_val 0 _) as v eqn:Ev. destruct (in_int64 _) eqn:E2; [|done]. intros [= <-]. apply Hr in E2. apply it_plus; [|lia]. subst v. by apply digits_model.
  - destruct (all_digits (String a s)) eqn:E; [|done].
    remember (dec_val 0 _) as v eqn:Ev. destruct (in_int64 _) eqn:E2; [|done]. intros [= <-]. apply Hr in E2. apply it_plain; [|lia]. subst v. by apply digits_model.
Qed.
Lemma parse_int_spec s z : parse_int s = Some z <-> int_text s z.
Proof. split; [apply parse_int_text|apply int_text_parse]. Qed.
Lemma parse_int_none s : parse_int s = None <-> forall z, ~ int_text s z.
Proof.
  split.
  - intros H z Hz%int_text_parse. congruence.
  - intros H. destruct (parse_int s) as [z|] eqn:E; [|done]. apply parse_int_text in E. by destruct (H z).
Qed.

Lemma encode_escaped k : rfc_encode k = escaped k.
Proof.
  induction k as [|a k IH]; [done|]. cbn [rfc_encode escaped]. unfold tilde, slash. by repeat case_decide; cbn; rewrite IH.
Qed.
Lemma decode_decoded s : decoded s (rfc_decode s).
Proof.
  assert (H : forall n s, (slength s <= n)%nat -> decoded s (rfc_decode s)); [|by apply (H (slength s))].
  clear s. induction n as [|n IH]; intros s Hn.
  - destruct s; [constructor|]. cbn in Hn. lia.
  - destruct s as [|a s]; [constructor|]. cbn [slength] in Hn. cbn [rfc_decode]. case_decide as Ha.
    + subst a. destruct s as [|b s].
      * apply (dec_other tilde "" ""); [|constructor]. intros (_ & r & [H|H]); discriminate.
      * cbn [slength] in Hn. case_decide as Hb; [|case_decide as Hb2]; subst; try (constructor; apply IH; lia).
        constructor; [|apply IH; cbn [slength]; lia]. intros (_ & r & [H|H]); congruence.
    + constructor; [|apply IH; lia]. by intros [H _].
Qed.
Lemma decoded_decode s d : decoded s d -> rfc_decode s = d.
Proof.
  induction 1 as [|s d H IH|s d H IH|a s d Hne H IH]; cbn [rfc_decode].
  - done.
  - rewrite decide_True by done. rewrite decide_False by done. rewrite decide_True by done. by rewrite IH.
  - rewrite decide_True by done. rewrite decide_True by done. by rewrite IH.
  - case_decide as Ha; [|by rewrite IH]. destruct s as [|b s]; [cbn in IH; by rewrite <- IH|].
    case_decide as Hb; [destruct Hne; split; [done|]; exists s; subst; auto|].
    case_decide as Hb2; [destruct Hne; split; [done|]; exists s; subst; auto|]. by rewrite IH.
Qed.
Lemma decode_spec s d : decoded s d <-> rfc_decode s = d.
Proof. split; [apply decoded_decode|]. intros <-. apply decode_decoded. Qed.

Lemma dec_text_digits n : digits (dec_text n) n.
Proof. apply digits_model. destruct (dec_text_spec n) as (A & B & C). done. Qed.

Lemma digit_pretty n : (n < 10)%N -> digit_char n = pretty_N_char n.
Proof.
  intros H. assert (H2 : (n = 0 \/ n = 1 \/ n = 2 \/ n = 3 \/ n = 4 \/ n = 5 \/ n = 6 \/ n = 7 \/ n = 8 \/ n = 9)%N) by lia.
  repeat destruct H2 as [->|H2]; try reflexivity. subst n. reflexivity.
Qed.
Lemma dec_text_fuel_pretty f n acc : (0 < n < 10 ^ N.of_nat f)%N -> dec_text_fuel f n acc = pretty_N_go n acc.
Proof.
  revert n acc. induction f as [|f IH]; intros n acc Hn.
  - change (10 ^ N.of_nat 0)%N with 1%N in Hn. lia.
  - cbn [dec_text_fuel]. rewrite pretty_N_go_step by lia. rewrite digit_pretty by (apply N.mod_lt; lia).
    destruct (n <? 10)%N eqn:E.
    + apply N.ltb_lt in E. rewrite (N.div_small n 10) by done. done.
    + apply N.ltb_ge in E. apply IH. rewrite Nat2N.inj_succ, N.pow_succ_r' in Hn. split.
      * apply N.div_str_pos. lia.
      * apply N.div_lt_upper_bound; lia.
Qed.
(** The decimal text is the one of std++. *)
Lemma dec_text_pretty n : dec_text n = pretty n.
Proof.
  unfold pretty, pretty_N. case_decide as Hn; [by subst|]. unfold dec_text. apply dec_text_fuel_pretty.
  split; [lia|apply N_size_nat_bound].
Qed.
