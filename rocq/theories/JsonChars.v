(** Strings in JSON texts. *)
From Verif Require Import Base BaseSpec BaseLemmas BaseSpecLemmas F64 Tson Serial TextSpec ParseComplete MarshalText Heap Patch Json JsonSpec JsonLemmas.
From Coq Require Import Lia.

Ltac bools H := unfold utf8_2, utf8_3, utf8_4, cont, in_range in H;
  repeat (rewrite andb_true_iff in H || rewrite orb_true_iff in H || rewrite N.leb_le in H
          || rewrite N.ltb_lt in H || rewrite N.eqb_eq in H).
Ltac Zify.zify_post_hook ::= Z.div_mod_to_equations.
Inductive form : string -> Prop :=
| fm_2 a b : utf8_2 a b = true -> form (String a (String b ""))
| fm_3 a b c : utf8_3 a b c = true -> form (String a (String b (String c "")))
| fm_4 a b c d : utf8_4 a b c d = true -> form (String a (String b (String c (String d "")))).
Lemma utf8_form r : code_point r -> form (bytes (utf8_bytes r)).
Proof.
  intros Hr. unfold code_point in Hr. unfold utf8_bytes. case_decide as H1; [|case_decide as H2]; cbn [bytes foldr].
  - apply fm_2. unfold utf8_2, cont, in_range. rewrite !bv_byte by (rewrite ?mod64; lia).
    rewrite ?mod64, !andb_true_iff, !N.leb_le. lia.
  - set (x := (r / 4096)%N). set (y := ((r / 64) mod 64)%N). set (z := (r mod 64)%N).
    assert (E : r = (x * 4096 + y * 64 + z)%N) by (subst x y z; rewrite ?mod64; lia).
    assert (HB : (x < 16 ∧ y < 64 ∧ z < 64)%N) by (subst x y z; rewrite ?mod64; lia). clearbody x y z.
    apply fm_3. unfold utf8_3, cont, in_range. rewrite !bv_byte by lia.
    rewrite !andb_true_iff, !orb_true_iff, !andb_true_iff, !orb_true_iff, !andb_true_iff, !N.leb_le, !N.eqb_eq. lia.
  - set (w := (r / 262144)%N). set (x := ((r / 4096) mod 64)%N). set (y := ((r / 64) mod 64)%N). set (z := (r mod 64)%N).
    assert (E : r = (w * 262144 + x * 4096 + y * 64 + z)%N) by (subst w x y z; rewrite ?mod64; lia).
    assert (HB : (w < 5 ∧ x < 64 ∧ y < 64 ∧ z < 64)%N) by (subst w x y z; rewrite ?mod64; lia). clearbody w x y z.
    apply fm_4. unfold utf8_4, cont, in_range. rewrite !bv_byte by lia.
    rewrite !andb_true_iff, !orb_true_iff, !andb_true_iff, !N.leb_le, !N.eqb_eq. lia.
Qed.
Ltac Zify.zify_post_hook ::= idtac.
Lemma form_utf8 s : form s -> exists r, code_point r ∧ bytes (utf8_bytes r) = s.
Proof.
  destruct 1 as [a b H|a b c H|a b c d H]; eexists; [exact (seq2 _ _ H)|exact (seq3 _ _ _ H)|exact (seq4 _ _ _ _ H)].
Qed.
Lemma rune_text_bytes r : (r < 1114112)%N -> rune_text r = bytes (char_bytes r).
Proof.
  intros Hr. unfold rune_text, char_bytes, byte_of. case_decide as H1.
  - by apply N.ltb_lt in H1 as ->.
  - rewrite (proj2 (N.ltb_ge _ _)) by lia. unfold utf8_bytes. case_decide as H2.
    + by apply N.ltb_lt in H2 as ->.
    + rewrite (proj2 (N.ltb_ge _ _)) by lia. case_decide as H3.
      * by apply N.ltb_lt in H3 as ->.
      * rewrite (proj2 (N.ltb_ge _ _)) by lia. done.
Qed.

(** ** Reading what the grammar derives *)
Lemma high_first a b : utf8_2 a b = true -> (128 <= bv a)%N ∧ (128 <= bv b)%N.
Proof. intros H. bools H. lia. Qed.
Lemma high_first3 a b c : utf8_3 a b c = true -> (128 <= bv a)%N ∧ (128 <= bv b)%N ∧ (128 <= bv c)%N.
Proof. intros H. bools H. lia. Qed.
Lemma high_first4 a b c d : utf8_4 a b c d = true -> (128 <= bv a)%N ∧ (128 <= bv b)%N ∧ (128 <= bv c)%N ∧ (128 <= bv d)%N.
Proof. intros H. bools H. lia. Qed.
Lemma sc_quote s : scan_chars (String dquote s) = Some ("", s).
Proof. cbn [scan_chars]. by rewrite decide_True. Qed.
Lemma low_ne a n : (bv a ≠ n)%N -> (n < 256)%N -> a ≠ ascii_of_N n.
Proof. intros H Hn ->. by rewrite bv_byte in H. Qed.
Lemma bv_of a n : bv a = n -> a = ascii_of_N n.
Proof. intros <-. unfold bv. by rewrite ascii_N_embedding. Qed.
Lemma sc_head a s : bv a ≠ 34%N -> bv a ≠ 92%N -> (32 <= bv a)%N ->
  scan_chars (String a s) =
  if (bv a <? 128)%N then prepend (String a "") (scan_chars s)
  else match s with
        | String b s2 =>
            if utf8_2 a b then prepend (String a (String b "")) (scan_chars s2)
            else
              match s2 with
              | String c s3 =>
                  if utf8_3 a b c then prepend (String a (String b (String c ""))) (scan_chars s3)
                  else
                    match s3 with
                    | String d s4 =>
                        if utf8_4 a b c d then prepend (String a (String b (String c (String d "")))) (scan_chars s4)
                        else prepend replacement (scan_chars s)
                    | EmptyString => prepend replacement (scan_chars s)
                    end
              | EmptyString => prepend replacement (scan_chars s)
              end
        | EmptyString => prepend replacement (scan_chars s)
        end.
Proof.
  intros H1 H2 H3. apply N.ltb_ge in H3.
  apply (low_ne a 34) in H1; [|lia]. apply (low_ne a 92) in H2; [|lia].
  cbn [scan_chars]. rewrite decide_False by done. rewrite decide_False by done. rewrite H3.
  destruct s; done.
Qed.
Lemma sc_ascii a s : (32 <= bv a < 128)%N -> bv a ≠ 34%N -> bv a ≠ 92%N ->
  scan_chars (String a s) = prepend (String a "") (scan_chars s).
Proof. intros H H1 H2. rewrite sc_head by (done || lia). by rewrite (proj2 (N.ltb_lt _ _)) by lia. Qed.
Lemma not_2_3 a b c : utf8_3 a b c = true -> utf8_2 a b = false.
Proof.
  intros H. bools H. unfold utf8_2, in_range. apply andb_false_iff. left. apply andb_false_iff. right. apply N.leb_gt. lia.
Qed.
Lemma not_2_4 a b c d : utf8_4 a b c d = true -> utf8_2 a b = false ∧ utf8_3 a b c = false.
Proof.
  intros H. split.
  - bools H. unfold utf8_2, in_range. apply andb_false_iff. left. apply andb_false_iff. right. apply N.leb_gt. lia.
  - destruct (utf8_3 a b c) eqn:E; [|done]. bools H. bools E. lia.
Qed.
Lemma sc_form u s : form u -> scan_chars (u +++ s) = prepend u (scan_chars s).
Proof.
  destruct 1 as [a b H|a b c H|a b c d H]; cbn [String.append].
  - destruct (high_first _ _ H). rewrite sc_head by lia. rewrite (proj2 (N.ltb_ge _ _)) by lia. by rewrite H.
  - destruct (high_first3 _ _ _ H). rewrite sc_head by lia. rewrite (proj2 (N.ltb_ge _ _)) by lia.
    by rewrite (not_2_3 _ _ _ H), H.
  - destruct (high_first4 _ _ _ _ H). rewrite sc_head by lia. rewrite (proj2 (N.ltb_ge _ _)) by lia.
    destruct (not_2_4 _ _ _ _ H) as [H2 H3]. by rewrite H2, H3, H.
Qed.
Lemma sc_bad a s : (128 <= bv a)%N -> no_utf8 (String a s) -> scan_chars (String a s) = prepend replacement (scan_chars s).
Proof.
  intros Ha Hn. rewrite sc_head by lia. rewrite (proj2 (N.ltb_ge _ _)) by lia.
  assert (Hf : forall u s', form u -> String a s ≠ u +++ s').
  { intros u s' Hu E. apply form_utf8 in Hu as (r & Hr & <-). by apply (Hn r s'). }
  destruct s as [|b s2]; [done|].
  destruct (utf8_2 a b) eqn:E2; [by destruct (Hf _ s2 (fm_2 _ _ E2))|].
  destruct s2 as [|c s3]; [done|].
  destruct (utf8_3 a b c) eqn:E3; [by destruct (Hf _ s3 (fm_3 _ _ _ E3))|].
  destruct s3 as [|d s4]; [done|].
  destruct (utf8_4 a b c d) eqn:E4; [by destruct (Hf _ s4 (fm_4 _ _ _ _ E4))|]. done.
Qed.
Definition high_all (p : string) : Prop := forall x y a, p = x +++ String a y -> (128 <= bv a)%N.
Lemma high_all_cons a p : high_all (String a p) <-> (128 <= bv a)%N ∧ high_all p.
Proof.
  split.
  - intros H. split; [by apply (H "" p)|]. intros x y b ->. by apply (H (String a x) y).
  - intros [H1 H2] x y b E. destruct x as [|c x]; [by injection E as -> _|]. injection E as -> E. by apply (H2 x y).
Qed.
Lemma form_high u : form u -> high_all u.
Proof.
  assert (Hn : high_all "") by (intros x y z E; by destruct x).
  destruct 1 as [a b H|a b c H|a b c d H].
  - apply high_first in H. rewrite !high_all_cons. tauto.
  - apply high_first3 in H. rewrite !high_all_cons. tauto.
  - apply high_first4 in H. rewrite !high_all_cons. tauto.
Qed.
Lemma high_inside p c x y : high_all p -> c +++ String dquote x = p +++ y -> exists z, c = p +++ z.
Proof.
  revert c. induction p as [|a p IH]; intros c Hp E; [by exists c|]. apply high_all_cons in Hp as [Ha Hp].
  destruct c as [|b c]; injection E as E1 E.
  - subst a. by vm_compute in Ha.
  - subst b. destruct (IH _ Hp E) as [z ->]. by exists z.
Qed.
Lemma no_utf8_more c rest : no_utf8 c -> no_utf8 (c +++ String dquote rest).
Proof.
  intros H r y Hr E. destruct (high_inside _ _ _ _ (form_high _ (utf8_form _ Hr)) E) as [z ->]. by apply (H r z).
Qed.

Lemma hex_val_spec a d : hex_val a = Some d <-> hex a d.
Proof.
  unfold hex_val, hex, digit, in_range, bv. pose proof (N_ascii_bounded a).
  destruct (N.leb_spec 48 (N_of_ascii a)); destruct (N.leb_spec (N_of_ascii a) 57); cbn [andb];
    [|destruct (N.leb_spec 97 (N_of_ascii a)); destruct (N.leb_spec (N_of_ascii a) 102); cbn [andb];
      [|destruct (N.leb_spec 65 (N_of_ascii a)); destruct (N.leb_spec (N_of_ascii a) 70); cbn [andb]..]..];
    (split; [intros [= <-] || intros [=]; lia|intros Hh; try (f_equal; lia); exfalso; lia]).
Qed.
Lemma hex4_spec a b c d r : hex4 a b c d = Some r <-> four_hex (String a (String b (String c (String d "")))) r.
Proof.
  unfold hex4. split.
  - destruct (hex_val a) as [w|] eqn:Ea; [|done]. destruct (hex_val b) as [x|] eqn:Eb; [|done].
    destruct (hex_val c) as [y|] eqn:Ec; [|done]. destruct (hex_val d) as [z|] eqn:Ed; [|done].
    rewrite hex_val_spec in *. intros [= <-].
    replace (((w * 16 + x) * 16 + y) * 16 + z)%N with (w * 4096 + x * 256 + y * 16 + z)%N by lia. by constructor.
  - intros H. inversion H as [a' b' c' d' w x y z Ha Hb Hc Hd]; subst. rewrite <- hex_val_spec in *.
    rewrite Ha, Hb, Hc, Hd. f_equal. lia.
Qed.
Lemma four_hex_shape h r : four_hex h r -> exists a b c d, h = String a (String b (String c (String d ""))) ∧ hex4 a b c d = Some r.
Proof. intros H. pose proof H as H'. destruct H. eexists _, _, _, _. split; [done|]. by apply hex4_spec. Qed.
Lemma hex_bound a d : hex a d -> (d < 16)%N.
Proof. unfold hex, digit. lia. Qed.
Lemma four_hex_bound h r : four_hex h r -> (r < 65536)%N.
Proof. destruct 1 as [a b c d w x y z Ha Hb Hc Hd]. apply hex_bound in Ha, Hb, Hc, Hd. lia. Qed.
Lemma u_shape u r : u_text u r -> exists a b c d, u = String backslash (String "u" (String a (String b (String c (String d "")))))
  ∧ hex4 a b c d = Some r ∧ (r < 65536)%N.
Proof.
  intros (h & -> & Hh). pose proof (four_hex_bound _ _ Hh). destruct (four_hex_shape _ _ Hh) as (a & b & c & d & -> & E).
  exists a, b, c, d. done.
Qed.
Lemma u_make a b c d r : hex4 a b c d = Some r ->
  u_text (String backslash (String "u" (String a (String b (String c (String d "")))))) r ∧ (r < 65536)%N.
Proof.
  intros H%hex4_spec. split; [|by eapply four_hex_bound]. eexists. split; [|exact H]. done.
Qed.
Lemma surrogate_spec r : surrogate r <-> high_surrogate r = true ∨ low_surrogate r = true.
Proof. unfold surrogate, high_surrogate, low_surrogate, in_range. rewrite !andb_true_iff, !N.leb_le. lia. Qed.
Lemma low_half_spec r : low_half r <-> low_surrogate r = true.
Proof. unfold low_half, low_surrogate, in_range. rewrite !andb_true_iff, !N.leb_le. lia. Qed.
Lemma high_not_low r : high_surrogate r = true -> low_surrogate r = false.
Proof. unfold high_surrogate, low_surrogate, in_range. rewrite !andb_true_iff, andb_false_iff, !N.leb_le, !N.leb_gt. lia. Qed.
Lemma sc_u a b c d r s : hex4 a b c d = Some r ->
  scan_chars (String backslash (String "u" (String a (String b (String c (String d s)))))) =
  if high_surrogate r then
    match low_after s, s with
    | Some r', String _ (String _ (String _ (String _ (String _ (String _ s12))))) =>
        prepend (rune_text (65536 + (r - 55296) * 1024 + (r' - 56320))) (scan_chars s12)
    | _, _ => prepend replacement (scan_chars s)
    end
  else if low_surrogate r then prepend replacement (scan_chars s)
  else prepend (rune_text r) (scan_chars s).
Proof.
  intros H. cbn [scan_chars]. rewrite decide_False by done. rewrite decide_True by done.
  rewrite decide_True by done. rewrite H. done.
Qed.
Lemma low_after_spec s r : low_after s = Some r <-> exists u s', s = u +++ s' ∧ u_text u r ∧ low_half r.
Proof.
  split.
  - unfold low_after. destruct s as [|p [|q [|a [|b [|c [|d s]]]]]]; try done. case_decide as Hd; [|done].
    destruct Hd as [-> ->]. destruct (hex4 a b c d) as [r'|] eqn:E; [|done]. destruct (low_surrogate r') eqn:El; [|done].
    intros [= <-]. eexists _, s. split; [|split; [exact (proj1 (u_make _ _ _ _ _ E))|by apply low_half_spec]]. done.
  - intros (u & s' & -> & Hu & Hl). apply u_shape in Hu as (a & b & c & d & -> & E & _). cbn [String.append].
    unfold low_after. rewrite decide_True by done. rewrite E. apply low_half_spec in Hl. by rewrite Hl.
Qed.
Lemma inside_low c x u s' r : c +++ String dquote x = u +++ s' -> u_text u r -> exists z, c = u +++ z.
Proof.
  intros E Hu. pose proof Hu as Hu'. apply u_shape in Hu' as (a & b & d & e & -> & Eh & _).
  apply hex4_spec in Eh. inversion Eh as [a' b' c' d' w x' y z Ha Hb Hc Hd]; subst.
  assert (Hq : forall k n, hex k n -> k ≠ dquote).
  { intros k n Hk ->. unfold hex, digit in Hk. assert (N_of_ascii dquote = 34%N) by done. lia. }
  cbn [String.append] in E.
  destruct c as [|c0 c]; [by injection E|]. injection E as -> E. destruct c as [|c0 c]; [by injection E|]. injection E as -> E.
  destruct c as [|c0 c]; [injection E as E _; subst; by apply Hq in Ha|]. injection E as -> E.
  destruct c as [|c0 c]; [injection E as E _; subst; by apply Hq in Hb|]. injection E as -> E.
  destruct c as [|c0 c]; [injection E as E _; subst; by apply Hq in Hc|]. injection E as -> E.
  destruct c as [|c0 c]; [injection E as E _; subst; by apply Hq in Hd|]. injection E as -> E.
  by exists c.
Qed.
Lemma escape_spec e c : (e < 256)%N -> In (e, c) escapes <-> escape_value (ascii_of_N e) = Some (ascii_of_N c) ∧ (c < 256)%N.
Proof.
  intros He. unfold escape_value. rewrite bv_byte by done. unfold escapes, byte_of. split.
  - intros [[= <- <-]|[[= <- <-]|[[= <- <-]|[[= <- <-]|[[= <- <-]|[[= <- <-]|[[= <- <-]|[[= <- <-]|[]]]]]]]]]; done.
  - assert (I : forall x y, (x < 256)%N -> (y < 256)%N -> Some (ascii_of_N x) = Some (ascii_of_N y) -> x = y).
    { intros x y Hx Hy [= H%(f_equal N_of_ascii)]. rewrite !N_ascii_embedding in H; done. }
    intros [H Hc].
    destruct (N.eqb_spec e 34); [subst; apply I in H; [subst; simpl; auto|lia|done]|].
    destruct (N.eqb_spec e 92); [subst; apply I in H; [subst; simpl; auto|lia|done]|].
    destruct (N.eqb_spec e 47); [subst; apply I in H; [subst; simpl; auto|lia|done]|]. cbn [orb] in H.
    destruct (N.eqb_spec e 98); [subst; apply I in H; [subst; simpl; auto 12|lia|done]|].
    destruct (N.eqb_spec e 102); [subst; apply I in H; [subst; simpl; auto 12|lia|done]|].
    destruct (N.eqb_spec e 110); [subst; apply I in H; [subst; simpl; auto 12|lia|done]|].
    destruct (N.eqb_spec e 114); [subst; apply I in H; [subst; simpl; auto 12|lia|done]|].
    destruct (N.eqb_spec e 116); [subst; apply I in H; [subst; simpl; auto 12|lia|done]|]. done.
Qed.

Lemma prepend_some p x v r : prepend p x = Some (v, r) -> exists v', x = Some (v', r) ∧ v = p +++ v'.
Proof. destruct x as [[v' r']|]; [|done]. intros [= <- <-]. by exists v'. Qed.
Lemma replacement_bytes : replacement = bytes (utf8_bytes 65533).
Proof. reflexivity. Qed.
Lemma pair_bound r r' : surrogate r -> ~ low_half r -> low_half r' ->
  (65536 <= 65536 + (r - 55296) * 1024 + (r' - 56320) < 1114112)%N.
Proof. unfold surrogate, low_half. lia. Qed.
Lemma pair_text r r' : surrogate r -> ~ low_half r -> low_half r' ->
  rune_text (65536 + (r - 55296) * 1024 + (r' - 56320)) = bytes (utf8_bytes (65536 + (r - 55296) * 1024 + (r' - 56320))).
Proof.
  intros H1 H2 H3. pose proof (pair_bound _ _ H1 H2 H3). rewrite rune_text_bytes by lia.
  unfold char_bytes. by rewrite decide_False by lia.
Qed.
Lemma scan_chars_complete c v rest : chars c v -> scan_chars (c +++ String dquote rest) = Some (v, rest).
Proof.
  induction 1 as [|a s v Ha H1 H2 _ IH|r s v Hr _ IH|a s v Ha Hn _ IH|e c s v He _ IH|u r s v Hu Hr _ IH
                  |u u' r r' s v Hu Hu' Hr Hl Hr' _ IH|u r s v Hu Hr Hl _ IH].
  - apply sc_quote.
  - cbn [String.append]. rewrite sc_ascii by done. by rewrite IH.
  - rewrite sapp_assoc. rewrite sc_form by (by apply utf8_form). by rewrite IH.
  - cbn [String.append]. rewrite sc_bad; [|done|by apply (no_utf8_more _ rest) in Hn]. by rewrite IH, replacement_bytes.
  - assert (Hb : (e < 256)%N).
    { unfold escapes in He. simpl in He. repeat (destruct He as [[= <- <-]|He]; [done|]). done. }
    cbn [bytes foldr String.append]. change (ascii_of_N 92) with backslash.
    pose proof He as He'. apply escape_spec in He' as [Ee Hc]; [|done].
    cbn [scan_chars]. rewrite decide_False by done. rewrite decide_True by done.
    rewrite decide_False; [by rewrite Ee, IH|].
    intros Eu. rewrite Eu in Ee. done.
  - apply u_shape in Hu as (a & b & c & d & -> & E & Hb). cbn [String.append]. rewrite (sc_u _ _ _ _ _ _ E).
    rewrite surrogate_spec in Hr.
    destruct (high_surrogate r); [tauto|]. destruct (low_surrogate r); [tauto|]. rewrite IH.
    by rewrite rune_text_bytes by lia.
  - assert (Hla : low_after (u' +++ s +++ String dquote rest) = Some r') by (apply low_after_spec; eauto).
    rewrite !sapp_assoc.
    apply u_shape in Hu as (a & b & c & d & -> & E & Hb). cbn [String.append]. rewrite (sc_u _ _ _ _ _ _ E).
    rewrite <- (pair_text _ _ Hr Hl Hr'). rewrite surrogate_spec in Hr. rewrite low_half_spec in Hl.
    destruct Hr as [Hr|Hr]; [|done]. rewrite Hr, Hla.
    apply u_shape in Hu' as (a' & b' & c' & d' & -> & E' & Hb'). cbn [String.append]. by rewrite IH.
  - rewrite sapp_assoc.
    pose proof Hu as Hu0. apply u_shape in Hu0 as (a & b & c & d & -> & E & Hb). cbn [String.append]. rewrite (sc_u _ _ _ _ _ _ E).
    rewrite IH. cbn [prepend]. rewrite <- replacement_bytes. rewrite surrogate_spec in Hr.
    destruct (high_surrogate r) eqn:Eh.
    + destruct (low_after (s +++ String dquote rest)) as [r'|] eqn:El; [|done].
      exfalso. apply low_after_spec in El as (u' & s' & Es & Hu' & Hr').
      destruct (inside_low _ _ _ _ _ Es Hu') as [z ->].
      destruct Hl as [Hl|Hl]; [|by apply (Hl u' r' z)]. apply low_half_spec in Hl.
      by rewrite (high_not_low _ Eh) in Hl.
    + destruct (low_surrogate r); [done|]. destruct Hr; done.
Qed.
Lemma no_utf8_tests a s : (128 <= bv a)%N ->
  (forall b s', s = String b s' -> utf8_2 a b = false) ->
  (forall b c s', s = String b (String c s') -> utf8_3 a b c = false) ->
  (forall b c d s', s = String b (String c (String d s')) -> utf8_4 a b c d = false) -> no_utf8 (String a s).
Proof.
  intros Ha H2 H3 H4 r rest Hr E. pose proof (utf8_form _ Hr) as Hf.
  inversion Hf as [x y H Eq|x y z H Eq|x y z w H Eq]; rewrite <- Eq in E; injection E as -> ->.
  - by rewrite (H2 y rest) in H.
  - by rewrite (H3 y z rest) in H.
  - by rewrite (H4 y z w rest) in H.
Qed.
Lemma no_utf8_less a c rest : no_utf8 (String a (c +++ rest)) -> no_utf8 (String a c).
Proof. intros H r z Hr E. apply (H r (z +++ rest) Hr). rewrite <- sapp_assoc, <- E. done. Qed.
Lemma scan_chars_sound s v r : scan_chars s = Some (v, r) -> exists c, s = c +++ String dquote r ∧ chars c v.
Proof.
  remember (String.length s) as n eqn:Hn. assert (Hle : (String.length s <= n)%nat) by lia. clear Hn.
  revert s v Hle. induction n as [|n IH]; intros s v Hle Hs.
  { destruct s; [done|simpl in Hle; lia]. }
  destruct s as [|a s]; [done|]. cbn [String.length] in Hle.
  destruct (decide (bv a = 34%N)) as [Eq|Eq].
  { apply bv_of in Eq. change (ascii_of_N 34) with dquote in Eq. subst a. rewrite sc_quote in Hs. injection Hs as <- <-.
    exists "". split; [done|constructor]. }
  destruct (decide (bv a = 92%N)) as [Ebk|Ebk].
  { apply bv_of in Ebk. change (ascii_of_N 92) with backslash in Ebk. subst a.
    destruct s as [|e s]; [done|]. cbn [String.length] in Hle.
    destruct (decide (e = "u"%char)) as [->|Hu].
    - destruct s as [|a [|b [|c [|d s]]]]; try done. cbn [String.length] in Hle.
      destruct (hex4 a b c d) as [x|] eqn:Ex.
      2:{ cbn [scan_chars] in Hs. rewrite decide_False in Hs by done. rewrite decide_True in Hs by done.
          rewrite decide_True in Hs by done. by rewrite Ex in Hs. }
      rewrite (sc_u _ _ _ _ _ _ Ex) in Hs. destruct (u_make _ _ _ _ _ Ex) as [Hut Hub].
      assert (Hhalf : prepend replacement (scan_chars s) = Some (v, r) ->
                surrogate x -> low_half x ∨ low_after s = None ->
                exists c0, String backslash (String "u" (String a (String b (String c (String d s))))) = c0 +++ String dquote r ∧ chars c0 v).
      { intros Hp Hsu Hl. apply prepend_some in Hp as (v' & Hv & ->). apply IH in Hv as (c0 & -> & Hc); [|lia].
        eexists (_ +++ c0). split; [|rewrite replacement_bytes; eapply ch_half; [exact Hut|done| |done]].
        - done.
        - destruct Hl as [Hl|Hl]; [by left|right]. intros u' r' s' E Hu' Hr'.
          assert (Hla : low_after (c0 +++ String dquote r) = Some r').
          { apply low_after_spec. exists u', (s' +++ String dquote r). by rewrite <- sapp_assoc, <- E. }
          by rewrite Hla in Hl. }
      destruct (high_surrogate x) eqn:Eh.
      + assert (Hsu : surrogate x) by (apply surrogate_spec; by left).
        destruct (low_after s) as [r'|] eqn:El; [|by apply Hhalf; [|done|right]].
        apply low_after_spec in El as (u' & s' & -> & Hu' & Hr').
        pose proof Hu' as Hu2. apply u_shape in Hu2 as (a' & b' & c' & d' & -> & E' & _). cbn [String.append] in Hs.
        apply prepend_some in Hs as (v' & Hv & ->). cbn [String.append String.length] in Hle.
        apply IH in Hv as (c0 & -> & Hc); [|lia].
        assert (Hnl : ~ low_half x) by (intros Hl%low_half_spec; by rewrite (high_not_low _ Eh) in Hl).
        rewrite (pair_text _ _ Hsu Hnl Hr').
        eexists (_ +++ _ +++ c0). split; [|eapply ch_pair; [exact Hut|exact Hu'|done..]]. done.
      + destruct (low_surrogate x) eqn:Elw.
        * apply Hhalf; [done|apply surrogate_spec; by right|left; by apply low_half_spec].
        * apply prepend_some in Hs as (v' & Hv & ->). apply IH in Hv as (c0 & -> & Hc); [|lia].
          rewrite rune_text_bytes by lia. eexists (_ +++ c0). split; [|eapply ch_u; [exact Hut| |done]]; [done|].
          rewrite surrogate_spec, Eh, Elw. by intros [?|?].
    - cbn [scan_chars] in Hs. rewrite decide_False in Hs by done. rewrite decide_True in Hs by done.
      rewrite decide_False in Hs by done. destruct (escape_value e) as [c|] eqn:Ee; [|done].
      apply prepend_some in Hs as (v' & Hv & ->). apply IH in Hv as (c0 & -> & Hc); [|lia].
      exists (bytes [92%N; N_of_ascii e] +++ c0). split.
      + cbn [bytes foldr String.append]. by rewrite ascii_N_embedding.
      + replace (String c "" +++ v') with (bytes [N_of_ascii c] +++ v') by (cbn [bytes foldr String.append]; by rewrite ascii_N_embedding).
        apply ch_letter; [|done]. apply escape_spec; [apply N_ascii_bounded|].
        rewrite !ascii_N_embedding. split; [done|apply N_ascii_bounded]. }
  destruct (decide (bv a < 32)%N) as [Hc|Hc].
  { cbn [scan_chars] in Hs. rewrite decide_False in Hs by (by intros ->). rewrite decide_False in Hs by (by intros ->).
    apply N.ltb_lt in Hc. by rewrite Hc in Hs. }
  destruct (decide (bv a < 128)%N) as [H8|H8].
  { rewrite sc_ascii in Hs by (done || lia). apply prepend_some in Hs as (v' & Hv & ->). apply IH in Hv as (c0 & -> & Hc0); [|lia].
    exists (String a c0). split; [done|]. apply ch_ascii; [unfold bv in *; lia|done..]. }
  assert (Hbad : prepend replacement (scan_chars s) = Some (v, r) -> no_utf8 (String a s) ->
            exists c, String a s = c +++ String dquote r ∧ chars c v).
  { intros Hp Hnu. apply prepend_some in Hp as (v' & Hv & ->). apply IH in Hv as (c0 & -> & Hc0); [|lia].
    exists (String a c0). split; [done|]. rewrite replacement_bytes. apply ch_bad; [unfold bv in *; lia| |done].
    by eapply no_utf8_less. }
  assert (Hform : forall u s', form u -> String a s = u +++ s' -> exists c, String a s = c +++ String dquote r ∧ chars c v).
  { intros u s' Hu E. rewrite E in Hs |- *. rewrite sc_form in Hs by done. apply prepend_some in Hs as (v' & Hv & ->).
    apply IH in Hv as (c0 & -> & Hc0).
    - apply form_utf8 in Hu as (x & Hx & <-). eexists (_ +++ c0). split; [by rewrite sapp_assoc|]. by apply ch_utf8.
    - destruct Hu; injection E as -> ->; cbn [String.length] in Hle; lia. }
  rewrite sc_head in Hs by (done || lia). rewrite (proj2 (N.ltb_ge _ _)) in Hs by lia.
  destruct s as [|b s2]; [apply Hbad; [done|]; apply no_utf8_tests; [lia|done..]|].
  destruct (utf8_2 a b) eqn:E2; [by apply (Hform _ s2 (fm_2 _ _ E2))|].
  destruct s2 as [|c s3]; [apply Hbad; [done|]; apply no_utf8_tests; [lia|..]; congruence|].
  destruct (utf8_3 a b c) eqn:E3; [by apply (Hform _ s3 (fm_3 _ _ _ E3))|].
  destruct s3 as [|d s4]; [apply Hbad; [done|]; apply no_utf8_tests; [lia|..]; congruence|].
  destruct (utf8_4 a b c d) eqn:E4; [by apply (Hform _ s4 (fm_4 _ _ _ _ E4))|].
  apply Hbad; [done|]; apply no_utf8_tests; [lia|..]; congruence.
Qed.
Lemma chars_det c v v' : chars c v -> chars c v' -> v = v'.
Proof.
  intros H H'. apply (scan_chars_complete _ _ "") in H. apply (scan_chars_complete _ _ "") in H'. congruence.
Qed.
