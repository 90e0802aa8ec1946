(** Tables and decimal numbers. *)
From Verif Require Import Base BaseSpec BaseLemmas BaseSpecLemmas F64 Tson Serial Csv CsvSpec.

(** ** Tables are unambiguous *)
Definition stop (a : ascii) : Prop := a = ","%char ∨ a = "010"%char.
Lemma stop_not a : stop a -> ~ plain_char a ∧ a <> quote_mark.
Proof. intros [->| ->]; (split; [intros H; apply H; repeat constructor|done]). Qed.
Lemma quoted_split t s t' s' a a' u u' : in_quotes t s -> in_quotes t' s' ->
  t +++ String quote_mark (String a u) = t' +++ String quote_mark (String a' u') -> a <> quote_mark -> a' <> quote_mark ->
  s = s' ∧ a = a' ∧ u = u'.
Proof.
  intros H. revert t' s'. induction H as [|b t s Hb _ IH|t s _ IH]; intros t' s' H' E Ha Ha'; destruct H' as [|b' t' s' Hb' H'|t' s' H'];
    cbn [String.append] in E; first [injection E as E1 E2|injection E as E1]; try congruence.
  - by subst.
  - subst b'. destruct (IH _ _ H' E2 Ha Ha') as (-> & -> & ->). done.
  - destruct (IH _ _ H' E1 Ha Ha') as (-> & -> & ->). done.
Qed.
Lemma plain_split t t' a a' u u' : plain_text t -> plain_text t' -> t +++ String a u = t' +++ String a' u' -> stop a -> stop a' -> t = t' ∧ a = a' ∧ u = u'.
Proof.
  intros H. revert t'. induction H as [|b t Hb _ IH]; intros t' H' E Ha Ha'; destruct H' as [|b' t' Hb' H']; cbn [String.append] in E.
  - by injection E as -> ->.
  - injection E as -> _. by apply stop_not in Ha as [].
  - injection E as -> _. by apply stop_not in Ha' as [].
  - injection E as <- E. by destruct (IH _ H' E Ha Ha') as (-> & -> & ->).
Qed.
Lemma plain_quoted t a u r : plain_text t -> stop a -> t +++ String a u <> String quote_mark r.
Proof.
  intros [|b s Hb _] Ha E; cbn [String.append] in E; injection E as -> _.
  - by apply stop_not in Ha as [].
  - apply Hb. constructor.
Qed.
Lemma sapp_one s a u : (s +++ String a "") +++ u = s +++ String a u.
Proof. by rewrite sapp_assoc. Qed.
Lemma cell_split t s t' s' a a' u u' : cell t s -> cell t' s' -> t +++ String a u = t' +++ String a' u' -> stop a -> stop a' -> s = s' ∧ a = a' ∧ u = u'.
Proof.
  intros [p Hp|b s0 Hb] [p' Hp'|b' s0' Hb'] E Ha Ha'.
  - by eapply plain_split.
  - rewrite sapp_one in E. cbn [String.append] in E. by apply plain_quoted in E.
  - rewrite sapp_one in E. cbn [String.append] in E. symmetry in E. by apply plain_quoted in E.
  - rewrite !sapp_one in E. cbn [String.append] in E. injection E as E. eapply quoted_split; eauto; by apply stop_not.
Qed.
Lemma line_split t r t' r' u u' : line t r -> line t' r' -> t +++ String "010" u = t' +++ String "010" u' -> r = r' ∧ u = u'.
Proof.
  assert (S1 : stop ",") by (by left). assert (S2 : stop "010") by (by right).
  intros H. revert t' r'. induction H as [t s Hc|t s v r Hc _ IH]; intros t' r' H' E; destruct H' as [t' s' Hc'|t' s' v' r' Hc' H'].
  - by destruct (cell_split _ _ _ _ _ _ _ _ Hc Hc' E S2 S2) as (-> & _ & ->).
  - rewrite !sapp_assoc in E. cbn [String.append] in E. by destruct (cell_split _ _ _ _ _ _ _ _ Hc Hc' E S2 S1) as (_ & ? & _).
  - rewrite !sapp_assoc in E. cbn [String.append] in E. by destruct (cell_split _ _ _ _ _ _ _ _ Hc Hc' E S1 S2) as (_ & ? & _).
  - rewrite !sapp_assoc in E. cbn [String.append] in E. destruct (cell_split _ _ _ _ _ _ _ _ Hc Hc' E S1 S1) as (-> & _ & E').
    by destruct (IH _ _ H' E') as (-> & ->).
Qed.
Lemma table_one s rs rs' : table s rs -> table s rs' -> rs = rs'.
Proof.
  intros H. revert rs'. induction H as [|t r u rs Hl _ IH]; intros rs' H'.
  - inversion H' as [|t r u rs Hl Hu E]; [done|]. by destruct t.
  - inversion H' as [E|t' r' u' rs1 Hl' Hu' E]; [by destruct t|]. symmetry in E. destruct (line_split _ _ _ _ _ _ Hl Hl' E) as (-> & ->).
    f_equal. by apply IH.
Qed.
Lemma table_reads s rs : table s rs -> reads_as s rs.
Proof. intros H rs'. split; [intros H'; by eapply table_one|by intros ->]. Qed.

(** ** What the writer writes *)
Lemma special_false s : has_special s = false -> plain_text s.
Proof.
  induction s as [|a s IH]; [constructor|]. cbn [has_special]. intros [H1 H2]%orb_false_iff. constructor; [|auto].
  unfold csv_special in H1. apply bool_decide_eq_false in H1. intros Hin. apply H1. unfold lf, cr, dquote, comma.
  repeat (apply elem_of_cons in Hin as [->|Hin]; [unfold quote_mark; tauto|]). by apply elem_of_nil in Hin.
Qed.
Lemma doubled s : in_quotes (double_quotes s) s.
Proof.
  induction s as [|a s IH]; [constructor|]. cbn [double_quotes]. destruct (decide (a = dquote)) as [->|Ha]; by constructor.
Qed.
Lemma field_cell f : cell (csv_field f) f.
Proof.
  unfold csv_field. destruct (needs_quotes f) eqn:E; [constructor; apply doubled|]. constructor. destruct f as [|a f]; [constructor|].
  unfold needs_quotes in E. apply orb_false_iff in E as [[_ E]%orb_false_iff _]. by apply special_false.
Qed.
Lemma fields_line r : r <> [] -> line (String.concat (String comma "") (map csv_field r)) r.
Proof.
  induction r as [|f r IH]; [done|]. intros _. destruct r as [|g r]; [constructor; apply field_cell|].
  cbn [map] in *. change (String.concat (String comma "") (csv_field f :: csv_field g :: map csv_field r))
    with (csv_field f +++ "," +++ String.concat (String comma "") (csv_field g :: map csv_field r)).
  constructor; [apply field_cell|by apply IH].
Qed.
Lemma text_table rs : [] ∉ rs -> table (csv_text rs) rs.
Proof.
  induction rs as [|r rs IH]; [constructor|]. rewrite not_elem_of_cons. intros [Hr Hrs]. cbn [csv_text]. unfold csv_record.
  rewrite sapp_one. constructor; [by apply fields_line|auto].
Qed.
Lemma text_reads rs : [] ∉ rs -> reads_as (csv_text rs) rs.
Proof. intros H. by apply table_reads, text_table. Qed.

(** ** Integers *)
Lemma z_integer z : integer (z_text z) z.
Proof.
  unfold z_text. destruct (Z.ltb_spec z 0).
  - replace z with (- Z.of_N (Z.to_N (- z))) at 2 by lia. constructor; [apply dec_text_digits|lia].
  - replace z with (Z.of_N (Z.to_N z)) at 2 by lia. constructor. apply dec_text_digits.
Qed.
Lemma digits_one s n n' : digits s n -> digits s n' -> n = n'.
Proof. intros H H'. apply digits_model in H as (_ & _ & <-). by apply digits_model in H' as (_ & _ & <-). Qed.
Lemma digits_minus s n : ~ digits (String "-" s) n.
Proof. intros (_ & H & _)%digits_model. done. Qed.
Lemma integer_one s n n' : integer s n -> integer s n' -> n = n'.
Proof.
  intros [t k H|t k H Hk] H'.
  - inversion H' as [t' k' H1|t' k' H1 _]; subst; [by rewrite (digits_one _ _ _ H H1)|by apply digits_minus in H].
  - inversion H' as [t' k' H1|t' k' H1 _]; subst; [by apply digits_minus in H1|by rewrite (digits_one _ _ _ H H1)].
Qed.

(** ** Decimals *)
Lemma frac_digits k r : all_digits (frac_text k r) = true ∧ slength (frac_text k r) = k ∧
  forall acc, Z.of_N (dec_val acc (frac_text k r)) = Z.of_N acc * 10 ^ Z.of_nat k + r `mod` 10 ^ Z.of_nat k.
Proof.
  induction k as [|k (A & L & V)].
  - repeat split. intros acc. cbn [frac_text dec_val]. change (10 ^ Z.of_nat 0) with 1. rewrite Z.mod_1_r. lia.
  - cbn [frac_text all_digits slength dec_val]. set (d := (r / 10 ^ Z.of_nat k) `mod` 10).
    assert (Hd : 0 <= d < 10) by (apply Z.mod_pos_bound; lia).
    assert (Ha : N_of_ascii (digit_char (Z.to_N d)) = (48 + Z.to_N d)%N). { unfold digit_char. apply N_ascii_embedding. lia. }
    split; [|split].
    + apply andb_true_iff. split; [|done]. unfold is_digit. rewrite Ha. apply andb_true_iff. split; apply N.leb_le; lia.
    + by rewrite L.
    + intros acc. rewrite V. unfold digit_val. rewrite Ha. rewrite Nat2Z.inj_succ, Z.pow_succ_r by lia.
      assert (P : 0 < 10 ^ Z.of_nat k) by (apply Z.pow_pos_nonneg; lia).
      assert (E : r `mod` (10 * 10 ^ Z.of_nat k) = d * 10 ^ Z.of_nat k + r `mod` 10 ^ Z.of_nat k).
      { rewrite (Z.mul_comm 10), Z.rem_mul_r by lia. subst d. lia. }
      rewrite E. replace (Z.of_N (acc * 10 + (48 + Z.to_N d - 48))) with (Z.of_N acc * 10 + d) by lia. ring.
Qed.
Lemma frac_spec k r : (0 < k)%nat -> 0 <= r < 10 ^ Z.of_nat k -> digits (frac_text k r) (Z.to_N r) ∧ slength (frac_text k r) = k.
Proof.
  intros Hk Hr. destruct (frac_digits k r) as (A & L & V). split; [|done]. apply digits_model. split; [|split; [done|]].
  - intros E. rewrite E in L. cbn in L. lia.
  - specialize (V 0%N). rewrite Z.mod_small in V by done. lia.
Qed.
Lemma half_even p q : 0 <= p -> 0 < q -> let n := round_half_even p q in
  0 <= n ∧ 2 * Z.abs (p - n * q) <= q ∧ (2 * Z.abs (p - n * q) = q -> Z.Even n).
Proof.
  intros Hp Hq. unfold round_half_even. pose proof (Z.div_mod p q ltac:(lia)) as E. pose proof (Z.mod_pos_bound p q Hq) as B.
  assert (P : 0 <= p / q) by (apply Z.div_pos; lia). set (n := p / q) in *. set (r := p `mod` q) in *. cbn zeta.
  assert (E1 : p - n * q = r) by lia. assert (E2 : p - (n + 1) * q = r - q) by lia.
  destruct (Z.ltb_spec (2 * r) q); [rewrite E1; repeat split; lia|].
  destruct (Z.ltb_spec q (2 * r)); [rewrite E2; repeat split; lia|].
  destruct (Z.even n) eqn:Ev.
  - rewrite E1. repeat split; [lia|lia|]. intros _. by apply Z.even_spec.
  - rewrite E2. repeat split; [lia|lia|]. intros _. apply Z.even_spec. rewrite Z.even_add, Ev. done.
Qed.
Lemma decimal_intro d sg n : (0 < d)%nat -> 0 <= n ->
  decimal d ((if sg : bool then "-" else "") +++ dec_text (Z.to_N (n / 10 ^ Z.of_nat d)) +++ "." +++ frac_text d (n `mod` 10 ^ Z.of_nat d)) sg n.
Proof.
  intros Hd Hn. set (u := 10 ^ Z.of_nat d). assert (U : 0 < u) by (apply Z.pow_pos_nonneg; lia).
  assert (D : decimal d (dec_text (Z.to_N (n / u)) +++ "." +++ frac_text d (n `mod` u)) false n).
  { pose proof (Z.mod_pos_bound n u U) as B. assert (P : 0 <= n / u) by (apply Z.div_pos; lia).
    destruct (frac_spec d (n `mod` u) Hd B) as (F & L).
    pose proof (dc_plain d _ _ _ _ (dec_text_digits (Z.to_N (n / u))) F L) as H. rewrite !Z2N.id in H by lia. fold u in H.
    rewrite (Z.mul_comm (n / u)), <- Z.div_mod in H by lia. done. }
  destruct sg; [|done]. cbn [String.append]. by constructor.
Qed.
Lemma fixed_rounded d x : (0 < d)%nat -> f64_finite x = true -> rounded d x (fixed_text d x).
Proof.
  intros Hd Hx. destruct x as [s|s| |s m e]; [|done|done|].
  - exists 0, 0, 1. cbn [fixed_text negative magnitude]. split.
    { pose proof (decimal_intro d s 0 Hd ltac:(lia)) as H. rewrite Z.div_0_l, Z.mod_0_l in H by (apply Z.pow_nonzero; lia). done. }
    split; [done|]. split; [lia|]. intros E. exfalso. rewrite !Z.mul_0_l in E. done.
  - cbn [fixed_text negative]. set (u := 10 ^ Z.of_nat d). assert (U : 0 < u) by (apply Z.pow_pos_nonneg; lia).
    destruct (Z.leb_spec 0 e) as [He|He].
    + exists (Z.pos m * 2 ^ e * u), (Z.pos m * 2 ^ e), 1. assert (P : 0 < 2 ^ e) by (apply Z.pow_pos_nonneg; lia).
      split; [apply decimal_intro; [done|lia]|]. split; [by left|]. fold u. rewrite Z.mul_1_r, Z.sub_diag. split; [lia|done].
    + assert (P : 0 < 2 ^ (- e)) by (apply Z.pow_pos_nonneg; lia).
      destruct (half_even (Z.pos m * u) (2 ^ (- e)) ltac:(lia) P) as (H1 & H2 & H3).
      exists (round_half_even (Z.pos m * u) (2 ^ (- e))), (Z.pos m), (2 ^ (- e)).
      split; [by apply decimal_intro|]. split; [by right|]. done.
Qed.
(** A text is a decimal in one way. *)
Lemma dot_split i i' f f' a a' : digits i a -> digits i' a' -> i +++ "." +++ f = i' +++ "." +++ f' -> i = i' ∧ f = f'.
Proof.
  intros H H'. apply digits_model in H as (_ & H & _). apply digits_model in H' as (_ & H' & _). revert i' H'.
  induction i as [|b i IH]; intros i' H' E; destruct i' as [|b' i']; cbn [String.append all_digits] in *.
  - by injection E as ->.
  - injection E as <- _. done.
  - injection E as -> _. done.
  - injection E as -> E. apply andb_true_iff in H as [_ H], H' as [_ H']. by destruct (IH H i' H' E) as (-> & ->).
Qed.
Lemma decimal_plain d s n : decimal d s false n -> exists i f a b, digits i a ∧ digits f b ∧ s = i +++ "." +++ f ∧ n = Z.of_N a * 10 ^ Z.of_nat d + Z.of_N b.
Proof. intros H. inversion H. subst. eauto 10. Qed.
Lemma digits_app_minus i a s t : digits i a -> i +++ s <> String "-" t.
Proof. intros (H1 & H2 & _)%digits_model E. destruct i as [|b i]; [done|]. cbn [String.append] in E. injection E as -> _. done. Qed.
Lemma decimal_one d s g g' n n' : decimal d s g n -> decimal d s g' n' -> g = g' ∧ n = n'.
Proof.
  assert (P : forall s n n', decimal d s false n -> decimal d s false n' -> n = n').
  { clear. intros s n n' (i & f & a & b & Hi & Hf & -> & ->)%decimal_plain (i' & f' & a' & b' & Hi' & Hf' & E & ->)%decimal_plain.
    destruct (dot_split _ _ _ _ _ _ Hi Hi' E) as (-> & ->). by rewrite (digits_one _ _ _ Hi Hi'), (digits_one _ _ _ Hf Hf'). }
  intros H H'. destruct H as [i f a b Hi Hf L|t k Ht]; [destruct g'|].
  - exfalso. inversion H' as [|t m Ht E1]. eapply digits_app_minus; [exact Hi|]. symmetry. exact E1.
  - split; [done|]. eapply P; [|done]. by constructor.
  - inversion H' as [i f a b Hi Hf L E1|t' m Ht' E1]; subst.
    + exfalso. eapply digits_app_minus; [exact Hi|]. eassumption.
    + split; [done|]. by eapply P.
Qed.
