(** The printers produce texts of the grammar. *)
From Verif Require Import Base F64 Tson TsonInd Serial BaseLemmas TextSpec ParseComplete.
From Coq Require Import Lia.

Section text.
Context (L : textlib).

Lemma literal_app a b x y : literal a x -> literal b y -> literal (a +++ b) (x +++ y).
Proof. induction 1; simpl; auto; constructor; auto. Qed.
Lemma literal_high a : (127 < N_of_ascii a)%N -> literal (String a "") (String a "").
Proof.
  intros H. apply lit_raw; [| |constructor]; intros ->; vm_compute in H; done.
Qed.
Lemma bv_range a : (bv a < 256)%N.
Proof. apply N_ascii_bounded. Qed.

Ltac bools H := unfold utf8_2, utf8_3, utf8_4, cont, in_range in H;
  repeat (rewrite andb_true_iff in H || rewrite orb_true_iff in H || rewrite N.leb_le in H
          || rewrite N.ltb_lt in H || rewrite N.eqb_eq in H).

(** The same with UTF-8 sequences as the printer takes them apart. *)
Inductive clean_seq : string -> Prop :=
| cs_nil : clean_seq ""
| cs_ascii a s : (32 <= N_of_ascii a < 127)%N -> clean_seq s -> clean_seq (String a s)
| cs_ctl a s : In (N_of_ascii a) [8; 9; 10; 12; 13]%N -> clean_seq s -> clean_seq (String a s)
| cs_2 a b s : utf8_2 a b = true -> is_print L (rune_2 a b) = true -> clean_seq s ->
    clean_seq (String a (String b s))
| cs_3 a b c s : utf8_3 a b c = true -> is_print L (rune_3 a b c) = true -> clean_seq s ->
    clean_seq (String a (String b (String c s)))
| cs_4 a b c d s : utf8_4 a b c d = true -> is_print L (rune_4 a b c d) = true -> clean_seq s ->
    clean_seq (String a (String b (String c (String d s)))).
Ltac Zify.zify_post_hook ::= Z.div_mod_to_equations.
Lemma mod64 r : (r mod 64 = r - 64 * (r / 64))%N.
Proof. by apply N.mod_eq. Qed.
Lemma seq2 a b : utf8_2 a b = true -> code_point (rune_2 a b) ∧ bytes (utf8_bytes (rune_2 a b)) = String a (String b "").
Proof.
  intros H. bools H. unfold code_point, utf8_bytes, rune_2. split; [lia|]. rewrite decide_True by lia.
  set (r := ((bv a - 192) * 64 + (bv b - 128))%N).
  assert (E1 : (192 + r / 64 = bv a)%N) by (subst r; rewrite ?mod64; lia).
  assert (E2 : (128 + r mod 64 = bv b)%N) by (subst r; rewrite ?mod64; lia).
  rewrite E1, E2.
  unfold bytes, bv. cbn [foldr]. rewrite !ascii_N_embedding. reflexivity.
Qed.
Lemma seq3 a b c : utf8_3 a b c = true ->
  code_point (rune_3 a b c) ∧ bytes (utf8_bytes (rune_3 a b c)) = String a (String b (String c "")).
Proof.
  intros H. bools H. unfold code_point, utf8_bytes, rune_3.
  assert (HB : (224 <= bv a <= 239 ∧ 128 <= bv b <= 191 ∧ 128 <= bv c <= 191)%N) by lia.
  assert (HS : (bv a = 224 -> 160 <= bv b)%N ∧ (bv a = 237 -> bv b <= 159)%N) by lia. clear H.
  set (r := ((bv a - 224) * 4096 + (bv b - 128) * 64 + (bv c - 128))%N).
  assert (E1 : (r / 4096 = bv a - 224)%N) by (subst r; rewrite ?mod64; lia).
  assert (E2 : (r / 64 = (bv a - 224) * 64 + (bv b - 128))%N) by (subst r; rewrite ?mod64; lia).
  assert (E3 : (r mod 64 = bv c - 128)%N) by (subst r; rewrite ?mod64; lia).
  split; [subst r; lia|]. rewrite decide_False by (subst r; rewrite ?mod64; lia). rewrite decide_True by (subst r; rewrite ?mod64; lia).
  rewrite E1, E2, E3.
  replace (224 + (bv a - 224))%N with (bv a) by (rewrite ?mod64; lia).
  replace (128 + ((bv a - 224) * 64 + (bv b - 128)) mod 64)%N with (bv b) by (rewrite ?mod64; lia).
  replace (128 + (bv c - 128))%N with (bv c) by (rewrite ?mod64; lia).
  unfold bytes, bv. cbn [foldr]. rewrite !ascii_N_embedding. reflexivity.
Qed.
Lemma seq4 a b c d : utf8_4 a b c d = true ->
  code_point (rune_4 a b c d) ∧ bytes (utf8_bytes (rune_4 a b c d)) = String a (String b (String c (String d ""))).
Proof.
  intros H. bools H. unfold code_point, utf8_bytes, rune_4.
  assert (HB : (240 <= bv a <= 244 ∧ 128 <= bv b <= 191 ∧ 128 <= bv c <= 191 ∧ 128 <= bv d <= 191)%N) by lia.
  assert (HS : (bv a = 240 -> 144 <= bv b)%N ∧ (bv a = 244 -> bv b <= 143)%N) by lia. clear H.
  set (r := ((bv a - 240) * 262144 + (bv b - 128) * 4096 + (bv c - 128) * 64 + (bv d - 128))%N).
  assert (E1 : (r / 262144 = bv a - 240)%N) by (subst r; rewrite ?mod64; lia).
  assert (E2 : (r / 4096 = (bv a - 240) * 64 + (bv b - 128))%N) by (subst r; rewrite ?mod64; lia).
  assert (E3 : (r / 64 = (bv a - 240) * 4096 + (bv b - 128) * 64 + (bv c - 128))%N) by (subst r; rewrite ?mod64; lia).
  assert (E4 : (r mod 64 = bv d - 128)%N) by (subst r; rewrite ?mod64; lia).
  split; [subst r; lia|]. rewrite !decide_False by (subst r; rewrite ?mod64; lia).
  rewrite E1, E2, E3, E4.
  replace (240 + (bv a - 240))%N with (bv a) by (rewrite ?mod64; lia).
  replace (128 + ((bv a - 240) * 64 + (bv b - 128)) mod 64)%N with (bv b) by (rewrite ?mod64; lia).
  replace (128 + ((bv a - 240) * 4096 + (bv b - 128) * 64 + (bv c - 128)) mod 64)%N with (bv c) by (rewrite ?mod64; lia).
  replace (128 + (bv d - 128))%N with (bv d) by (rewrite ?mod64; lia).
  unfold bytes, bv. cbn [foldr]. rewrite !ascii_N_embedding. reflexivity.
Qed.
Lemma bv_byte n : (n < 256)%N -> bv (ascii_of_N n) = n.
Proof. apply N_ascii_embedding. Qed.
Lemma clean_seq_rune r s : code_point r -> is_print L r = true -> clean_seq s -> clean_seq (bytes (utf8_bytes r) +++ s).
Proof.
  intros Hr Hp Hs. unfold code_point in Hr. unfold utf8_bytes. case_decide as H1; [|case_decide as H2]; cbn [bytes foldr].
  - change (clean_seq (String (ascii_of_N (192 + r / 64)) (String (ascii_of_N (128 + r mod 64)) s))).
    assert (E : rune_2 (ascii_of_N (192 + r / 64)) (ascii_of_N (128 + r mod 64)) = r)
      by (unfold rune_2; rewrite !bv_byte by (rewrite ?mod64; lia); rewrite ?mod64; lia).
    apply cs_2; [|by rewrite E|done]. unfold utf8_2, cont, in_range. rewrite !bv_byte by (rewrite ?mod64; lia).
    rewrite ?mod64, !andb_true_iff, !N.leb_le. lia.
  - set (x := (r / 4096)%N). set (y := ((r / 64) mod 64)%N). set (z := (r mod 64)%N).
    assert (E : r = (x * 4096 + y * 64 + z)%N) by (subst x y z; rewrite ?mod64; lia).
    assert (HB : (x < 16 ∧ y < 64 ∧ z < 64)%N) by (subst x y z; rewrite ?mod64; lia). clearbody x y z.
    change (clean_seq (String (ascii_of_N (224 + x)) (String (ascii_of_N (128 + y)) (String (ascii_of_N (128 + z)) s)))).
    apply cs_3; [|unfold rune_3; rewrite !bv_byte by lia|done].
    + unfold utf8_3, cont, in_range. rewrite !bv_byte by lia.
      rewrite !andb_true_iff, !orb_true_iff, !andb_true_iff, !orb_true_iff, !andb_true_iff, !N.leb_le, !N.eqb_eq. lia.
    + replace ((224 + x - 224) * 4096 + (128 + y - 128) * 64 + (128 + z - 128))%N with r by lia. done.
  - set (w := (r / 262144)%N). set (x := ((r / 4096) mod 64)%N). set (y := ((r / 64) mod 64)%N). set (z := (r mod 64)%N).
    assert (E : r = (w * 262144 + x * 4096 + y * 64 + z)%N) by (subst w x y z; rewrite ?mod64; lia).
    assert (HB : (w < 5 ∧ x < 64 ∧ y < 64 ∧ z < 64)%N) by (subst w x y z; rewrite ?mod64; lia). clearbody w x y z.
    change (clean_seq (String (ascii_of_N (240 + w)) (String (ascii_of_N (128 + x)) (String (ascii_of_N (128 + y)) (String (ascii_of_N (128 + z)) s))))).
    apply cs_4; [|unfold rune_4; rewrite !bv_byte by lia|done].
    + unfold utf8_4, cont, in_range. rewrite !bv_byte by lia.
      rewrite !andb_true_iff, !orb_true_iff, !andb_true_iff, !N.leb_le, !N.eqb_eq. lia.
    + replace ((240 + w - 240) * 262144 + (128 + x - 128) * 4096 + (128 + y - 128) * 64 + (128 + z - 128))%N with r by lia. done.
Qed.
Ltac Zify.zify_post_hook ::= idtac.
Lemma clean_as_seq s : clean L s -> clean_seq s.
Proof. induction 1; [constructor|by apply cs_ascii|by apply cs_ctl|by apply clean_seq_rune]. Qed.
Lemma clean_2 a b s : utf8_2 a b = true -> is_print L (rune_2 a b) = true -> clean L s ->
  clean L (String a (String b s)).
Proof.
  intros H Hp Hs. destruct (seq2 _ _ H) as [H1 H2].
  change (String a (String b s)) with (String a (String b "") +++ s). rewrite <- H2. by apply clean_rune.
Qed.
Lemma clean_3 a b c s : utf8_3 a b c = true -> is_print L (rune_3 a b c) = true -> clean L s ->
  clean L (String a (String b (String c s))).
Proof.
  intros H Hp Hs. destruct (seq3 _ _ _ H) as [H1 H2].
  change (String a (String b (String c s))) with (String a (String b (String c "")) +++ s). rewrite <- H2. by apply clean_rune.
Qed.
Lemma clean_4 a b c d s : utf8_4 a b c d = true -> is_print L (rune_4 a b c d) = true -> clean L s ->
  clean L (String a (String b (String c (String d s)))).
Proof.
  intros H Hp Hs. destruct (seq4 _ _ _ _ H) as [H1 H2].
  change (String a (String b (String c (String d s)))) with (String a (String b (String c (String d ""))) +++ s).
  rewrite <- H2. by apply clean_rune.
Qed.

Lemma quote_body_literal s : clean L s -> literal (quote_body L s) s.
Proof.
  intros Hs%clean_as_seq.
  induction Hs as [|a s Ha Hc IH|a s Ha Hc IH|a b s H2 Hp Hc IH|a b c s H3 Hp Hc IH|a b c d s H4 Hp Hc IH].
  - constructor.
  - cbn [quote_body]. replace (bv a <? 128)%N with true by (symmetry; apply N.ltb_lt; unfold bv; lia).
    change (String a s) with (String a "" +++ s). apply literal_app; auto.
    unfold quote_ascii. case_decide as Hq; [subst; apply lit_esc; constructor|].
    case_decide as Hb; [subst; apply lit_esc; constructor|].
    replace (N.leb 32 (bv a) && N.ltb (bv a) 127)%N with true.
    + apply lit_raw; auto. constructor.
    + symmetry. apply andb_true_iff. rewrite N.leb_le, N.ltb_lt. unfold bv. lia.
  - cbn [quote_body].
    replace (bv a <? 128)%N with true by (symmetry; apply N.ltb_lt; unfold bv; simpl in Ha; lia).
    change (String a s) with (String a "" +++ s). apply literal_app; auto.
    assert (Ea : a = ascii_of_N (N_of_ascii a)) by (symmetry; apply ascii_N_embedding).
    destruct Ha as [E|[E|[E|[E|[E|[]]]]]]; rewrite <- E in Ea; clear E; subst a;
      vm_compute; apply lit_esc; constructor.
  - assert (Ha : (194 <= bv a <= 223)%N ∧ (128 <= bv b <= 191)%N) by (clear -H2; bools H2; tauto).
    cbn [quote_body]. replace (bv a <? 128)%N with false by (symmetry; apply N.ltb_ge; lia).
    rewrite H2. unfold quote_rune. rewrite Hp.
    change (String a (String b s)) with (String a "" +++ String b "" +++ s).
    change (String a (String b "") +++ quote_body L s)
      with (String a "" +++ String b "" +++ quote_body L s).
    unfold bv in *. repeat (apply literal_app; [apply literal_high; lia|]). done.
  - assert (Ha : (224 <= bv a <= 239)%N ∧ (128 <= bv b)%N ∧ (128 <= bv c)%N) by (clear -H3; bools H3; lia).
    cbn [quote_body]. replace (bv a <? 128)%N with false by (symmetry; apply N.ltb_ge; lia).
    replace (utf8_2 a b) with false.
    2:{ symmetry. unfold utf8_2, in_range. apply andb_false_iff. left. apply andb_false_iff. right.
        apply N.leb_gt. lia. }
    rewrite H3. unfold quote_rune. rewrite Hp.
    change (String a (String b (String c s))) with (String a "" +++ String b "" +++ String c "" +++ s).
    change (String a (String b (String c "")) +++ quote_body L s)
      with (String a "" +++ String b "" +++ String c "" +++ quote_body L s).
    unfold bv in *. repeat (apply literal_app; [apply literal_high; lia|]). done.
  - assert (Ha : (240 <= bv a <= 244)%N ∧ (128 <= bv b)%N ∧ (128 <= bv c)%N ∧ (128 <= bv d)%N)
      by (clear -H4; bools H4; lia).
    cbn [quote_body]. replace (bv a <? 128)%N with false by (symmetry; apply N.ltb_ge; lia).
    replace (utf8_2 a b) with false.
    2:{ symmetry. unfold utf8_2, in_range. apply andb_false_iff. left. apply andb_false_iff. right.
        apply N.leb_gt. lia. }
    replace (utf8_3 a b c) with false.
    2:{ symmetry. apply not_true_is_false. intros H. bools H. bools H4. lia. }
    rewrite H4. unfold quote_rune. rewrite Hp.
    change (String a (String b (String c (String d s))))
      with (String a "" +++ String b "" +++ String c "" +++ String d "" +++ s).
    change (String a (String b (String c (String d ""))) +++ quote_body L s)
      with (String a "" +++ String b "" +++ String c "" +++ String d "" +++ quote_body L s).
    unfold bv in *. repeat (apply literal_app; [apply literal_high; lia|]). done.
Qed.

Lemma prim_text_scalar p : prim_ok L p -> exists k, scalar_text L k p (prim_text L p).
Proof.
  destruct p as [s|f|b]; simpl.
  - intros H. eexists. apply st_str. by apply quote_body_literal.
  - intros [d H]. eexists. by apply st_num.
  - intros _. exists (Tail false false false). destruct b; constructor.
Qed.

Lemma ts_text_stamp ts : ts <= int64_max -> stamp (ts_text ts) (if 0 <=? ts then ts else -1).
Proof.
  intros H. unfold ts_text. destruct (0 <=? ts) eqn:E; [|constructor].
  apply Z.leb_le in E. unfold z_text. replace (ts <? 0) with false by (symmetry; apply Z.ltb_ge; lia).
  destruct (dec_text_spec (Z.to_N ts)) as (A & B & C).
  assert (Ets : ts = Z.of_N (dec_val 0 (dec_text (Z.to_N ts)))) by (rewrite C; lia).
  rewrite Ets at 2.
  change (">") with ("" +++ ">"). apply stamp_intro; auto.
  - by rewrite <- Ets.
  - constructor.
Qed.

Lemma blank_space : blank " ".
Proof. constructor; [simpl; auto|constructor]. Qed.
Lemma blank_newline : blank newline.
Proof. constructor; [simpl; auto|constructor]. Qed.

(** Blanks may be added in front of a member or element list. *)
Lemma member_lead w k t s : blank w -> member_text L k t s -> member_text L k t (w +++ s).
Proof.
  intros Hw Hx. destruct Hx. rewrite <- sapp_assoc. econstructor; eauto. by apply blank_app.
Qed.
Lemma members_lead w m s : blank w -> members_text L m s -> members_text L m (w +++ s).
Proof.
  intros Hw. destruct 1.
  - constructor. by apply member_lead.
  - rewrite <- sapp_assoc. constructor; auto. by apply member_lead.
Qed.
Lemma elem_lead w t s : blank w -> elem_text L t s -> elem_text L t (w +++ s).
Proof.
  intros Hw Hx. destruct Hx. rewrite <- sapp_assoc. econstructor; eauto. by apply blank_app.
Qed.
Lemma elems_lead w l s : blank w -> elems_text L l s -> elems_text L l (w +++ s).
Proof.
  intros Hw. destruct 1.
  - constructor. by apply elem_lead.
  - rewrite <- sapp_assoc. constructor; auto. by apply elem_lead.
Qed.
(** And behind. *)
Lemma member_trail w k t s : blank w -> member_text L k t s -> member_text L k t (s +++ w).
Proof.
  intros Hw Hx. destruct Hx as [w1 txt k w2 st ots w3 w4 tl v vs w5].
  assert (E : (w1 +++ String (ascii_of_N 34) (txt +++ String (ascii_of_N 34)
     (w2 +++ st +++ w3 +++ ":" +++ w4 +++ vs +++ w5))) +++ w
     = w1 +++ String (ascii_of_N 34) (txt +++ String (ascii_of_N 34)
     (w2 +++ st +++ w3 +++ ":" +++ w4 +++ vs +++ w5 +++ w))).
  { rewrite sapp_assoc, scons_app, sapp_assoc, scons_app. by rewrite !sapp_assoc. }
  rewrite E. econstructor; eauto. by apply blank_app.
Qed.
Lemma members_trail w m s : blank w -> members_text L m s -> members_text L m (s +++ w).
Proof.
  intros Hw. induction 1.
  - constructor. by apply member_trail.
  - rewrite sapp_assoc. constructor; auto.
Qed.
Lemma elem_trail w t s : blank w -> elem_text L t s -> elem_text L t (s +++ w).
Proof.
  intros Hw Hx. destruct Hx. rewrite !sapp_assoc. econstructor; eauto. by apply blank_app.
Qed.
Lemma elems_trail w m s : blank w -> elems_text L m s -> elems_text L m (s +++ w).
Proof.
  intros Hw. induction 1.
  - constructor. by apply elem_trail.
  - rewrite sapp_assoc. constructor; auto.
Qed.

(** One member and one element, as printed. *)
Lemma print_member_leaf k p ts :
  clean L k -> doc_ok L (TLeaf p ts) ->
  member_text L k (norm_ts (TLeaf p ts)) (quote L k +++ " " +++ ts_text ts +++ ": " +++ prim_text L p).
Proof.
  intros Hk Hd. inversion Hd as [? ? Hp Hts| |]; subst.
  destruct (prim_text_scalar p Hp) as (kk & Hs).
  pose proof (member_intro L "" (quote_body L k) k " " (ts_text ts) _ "" " "
    _ _ _ "" blank_nil (quote_body_literal k Hk) blank_space (os_some _ _ (ts_text_stamp ts Hts))
    blank_nil blank_space (vt_scalar L _ _ _ Hs) ltac:(done) blank_nil) as H.
  simpl retime in H. unfold quote. rewrite quoted_app. rewrite sapp_nil_r in H. simpl in H.
  simpl. destruct (0 <=? ts) eqn:E; [rewrite E in H|simpl in H]; done.
Qed.
Lemma print_member_other k t s tl :
  clean L k -> val_text L tl t s -> t ≠ TNil -> (forall p ts, t ≠ TLeaf p ts) ->
  member_text L k t (quote L k +++ ": " +++ s).
Proof.
  intros Hk Hv Hn Hl.
  pose proof (member_intro L "" (quote_body L k) k "" "" None "" " "
    _ _ _ "" blank_nil (quote_body_literal k Hk) blank_nil os_none
    blank_nil blank_space Hv Hn blank_nil) as H.
  assert (E : retime None t = t) by (destruct t; naive_solver).
  rewrite E in H. rewrite sapp_nil_r in H. unfold quote. rewrite quoted_app. done.
Qed.
Lemma print_elem_leaf p ts :
  doc_ok L (TLeaf p ts) ->
  elem_text L (norm_ts (TLeaf p ts)) (ts_text ts +++ " " +++ prim_text L p).
Proof.
  intros Hd. inversion Hd as [? ? Hp Hts| |]; subst.
  destruct (prim_text_scalar p Hp) as (kk & Hs).
  pose proof (elem_intro L "" (ts_text ts) _ " " _ _ _ "" blank_nil
    (os_some _ _ (ts_text_stamp ts Hts)) blank_space (vt_scalar L _ _ _ Hs) ltac:(done)
    ltac:(done) blank_nil) as H.
  rewrite sapp_nil_r in H. simpl retime in H. simpl norm_ts.
  destruct (0 <=? ts) eqn:E; [rewrite E in H|simpl in H]; done.
Qed.
Lemma print_elem_other t s :
  val_text L closed t s -> t ≠ TNil -> (forall p ts, t ≠ TLeaf p ts) -> elem_text L t s.
Proof.
  intros Hv Hn Hl.
  pose proof (elem_intro L "" "" None "" _ _ _ "" blank_nil os_none blank_nil Hv Hn) as H.
  assert (E : retime None t = t) by (destruct t; naive_solver).
  rewrite E in H. rewrite sapp_nil_r in H. apply H; [|constructor].
  intros _ [r Er]. inversion Hv; subst; naive_solver.
Qed.

(** ** Marshal *)
Fixpoint marshal_members (first : bool) (m : list (string * tson)) : res string :=
  match m with
  | [] => Ok ""
  | (k, v) :: m' =>
      do sv <- marshal_val L CObject v;
      do rest <- marshal_members false m';
      Ok ((if first then "" else ", ") +++ quote L k +++ key_ts v +++ ": " +++ sv +++ rest)
  end.
Fixpoint marshal_elems (first : bool) (l : list tson) : res string :=
  match l with
  | [] => Ok ""
  | v :: l' =>
      do sv <- marshal_val L CArray v;
      do rest <- marshal_elems false l';
      Ok ((if first then "" else ", ") +++ sv +++ rest)
  end.
Lemma marshal_obj_eq c m :
  marshal_val L c (TObj m) = do body <- marshal_members true m; Ok ("{" +++ body +++ "}").
Proof. reflexivity. Qed.
Lemma marshal_arr_eq c l :
  marshal_val L c (TArr l) = do body <- marshal_elems true l; Ok ("[" +++ body +++ "]").
Proof. reflexivity. Qed.

Definition is_leaf (t : tson) : bool := match t with TLeaf _ _ => true | _ => false end.

Lemma last_wins_nodup m : NoDup (akeys m) -> last_wins m = m.
Proof.
  intros ND. unfold last_wins.
  assert (H : forall (m acc : list (string * tson)), NoDup (akeys (acc ++ m)) ->
    fold_left (fun acc kv => ainsert (fst kv) (snd kv) acc) m acc = acc ++ m).
  { clear. induction m as [|[k v] m IH]; intros acc ND; simpl.
    - by rewrite app_nil_r.
    - rewrite ainsert_notin.
      + rewrite IH; rewrite <- app_assoc; done.
      + rewrite akeys_app in ND. apply NoDup_app in ND as (_ & H & _).
        intros Hin. apply (H k Hin). simpl. constructor. }
  by rewrite H.
Qed.

Lemma norm_not_leaf t : is_leaf t = false -> forall p ts, norm_ts t ≠ TLeaf p ts.
Proof. destruct t; done. Qed.
Lemma ok_norm_not_nil t : doc_ok L t -> norm_ts t ≠ TNil.
Proof. destruct 1; done. Qed.

(** The member list after printing one or more members. *)
Lemma members_cons_text k t s m s' :
  member_text L k t s -> (m = [] ∧ s' = "") ∨ (exists s2, s' = "," +++ s2 ∧ members_text L m s2) ->
  members_text L ((k, t) :: m) (s +++ s').
Proof.
  intros Hm [[-> ->]|(s2 & -> & Hs)].
  - rewrite sapp_nil_r. by constructor.
  - by constructor.
Qed.
Lemma elems_cons_text t s l s' :
  elem_text L t s -> (l = [] ∧ s' = "") ∨ (exists s2, s' = "," +++ s2 ∧ elems_text L l s2) ->
  elems_text L (t :: l) (s +++ s').
Proof.
  intros Hm [[-> ->]|(s2 & -> & Hs)].
  - rewrite sapp_nil_r. by constructor.
  - by constructor.
Qed.

Lemma marshal_val_text t :
  doc_ok L t -> is_leaf t = false ->
  forall c, exists s, marshal_val L c t = Ok s ∧ val_text L closed (norm_ts t) s.
Proof.
  induction t as [|p ts|m IH|l IH] using tson_ind'; intros Hok Hleaf c; try done.
  - inversion Hok; done.
  - inversion Hok as [|? HND HF|]; subst. clear Hok Hleaf. rewrite marshal_obj_eq.
    assert (H : exists s, marshal_members true m = Ok s ∧
       ((m = [] ∧ s = "") ∨
        members_text L (map (fun kv => (fst kv, norm_ts (snd kv))) m) s)).
    { assert (Hgen : forall first, exists s, marshal_members first m = Ok s ∧
        ((m = [] ∧ s = "") ∨
         exists s', s = (if first then "" else ", ") +++ s' ∧
         members_text L (map (fun kv => (fst kv, norm_ts (snd kv))) m) s')).
      { clear HND. induction m as [|[k v] m IHm]; intros first.
        - eexists. split; [done|]. left. done.
        - inversion IH as [|? ? IHv IHr]; subst. inversion HF as [|? ? [Hk Hv] HFr]; subst.
          simpl in IHv, Hk, Hv.
          destruct (IHm IHr HFr false) as (rest & Er & Hrest).
          assert (Hone : exists sv, marshal_val L CObject v = Ok sv ∧
             member_text L k (norm_ts v) (quote L k +++ key_ts v +++ ": " +++ sv)).
          { destruct (is_leaf v) eqn:El.
            - destruct v as [|p ts| |]; try done. eexists. split; [done|].
              exact (print_member_leaf k p ts Hk Hv).
            - destruct (IHv Hv eq_refl CObject) as (sv & Esv & Hsv). exists sv. split; [done|].
              destruct v; try done; eapply print_member_other; eauto; try done;
                by apply norm_not_leaf. }
          destruct Hone as (sv & Esv & Hsv). cbn [marshal_members marshal_elems]. rewrite Esv, Er. cbn [rbind].
          eexists. split; [done|]. right. eexists. split; [done|].
          assert (E : quote L k +++ key_ts v +++ ": " +++ sv +++ rest
            = (quote L k +++ key_ts v +++ ": " +++ sv) +++ rest) by by rewrite !sapp_assoc.
          rewrite E. apply members_cons_text; [done|].
          destruct Hrest as [[-> ->]|(s' & -> & Hs')]; [by left|]. right.
          exists (" " +++ s'). split; [done|]. by apply members_lead; [apply blank_space|]. }
      destruct (Hgen true) as (s & Es & [?|(s' & -> & H)]); [exists s; auto|exists s'; auto]. }
    destruct H as (s & -> & H). simpl rbind. eexists. split; [done|].
    destruct H as [[-> ->]|H].
    + apply (vt_obj0 L ""), blank_nil.
    + simpl norm_ts. rewrite <- (last_wins_nodup (map _ m)).
      * by apply vt_obj.
      * by rewrite akeys_map.
  - inversion Hok as [| |? HF]; subst. clear Hok Hleaf. rewrite marshal_arr_eq.
    assert (H : exists s, marshal_elems true l = Ok s ∧
       ((l = [] ∧ s = "") ∨ elems_text L (map norm_ts l) s)).
    { assert (Hgen : forall first, exists s, marshal_elems first l = Ok s ∧
        ((l = [] ∧ s = "") ∨
         exists s', s = (if first then "" else ", ") +++ s' ∧ elems_text L (map norm_ts l) s')).
      { induction l as [|v l IHl]; intros first.
        - eexists. split; [done|]. left. done.
        - inversion IH as [|? ? IHv IHr]; subst. inversion HF as [|? ? Hv HFr]; subst.
          destruct (IHl IHr HFr false) as (rest & Er & Hrest).
          assert (Hone : exists sv, marshal_val L CArray v = Ok sv ∧ elem_text L (norm_ts v) sv).
          { destruct (is_leaf v) eqn:El.
            - destruct v as [|p ts| |]; try done. eexists. split; [done|].
              exact (print_elem_leaf p ts Hv).
            - destruct (IHv Hv eq_refl CArray) as (sv & Esv & Hsv). exists sv. split; [done|].
              eapply print_elem_other; eauto; [by apply ok_norm_not_nil|by apply norm_not_leaf]. }
          destruct Hone as (sv & Esv & Hsv). cbn [marshal_members marshal_elems]. rewrite Esv, Er. cbn [rbind].
          eexists. split; [done|]. right. eexists. split; [done|].
          apply elems_cons_text; [done|].
          destruct Hrest as [[-> ->]|(s' & -> & Hs')]; [by left|]. right.
          exists (" " +++ s'). split; [done|]. by apply elems_lead; [apply blank_space|]. }
      destruct (Hgen true) as (s & Es & [?|(s' & -> & H)]); [exists s; auto|exists s'; auto]. }
    destruct H as (s & -> & H). simpl rbind. eexists. split; [done|].
    destruct H as [[-> ->]|H].
    + apply (vt_arr0 L ""), blank_nil.
    + simpl norm_ts. by apply vt_arr.
Qed.

Lemma marshal_text t :
  doc_ok L t -> exists s, marshal L t = Ok s ∧ val_text L closed (norm_ts t) s.
Proof.
  intros Hok. destruct (is_leaf t) eqn:El.
  - destruct t as [|p ts| |]; try done. inversion Hok as [? ? Hp Hts| |]; subst.
    eexists. split; [done|]. destruct (prim_text_scalar p Hp) as (k & Hs).
    exact (vt_scalar_stamp L k p _ " " _ _ Hs blank_space (ts_text_stamp ts Hts)).
  - by apply marshal_val_text.
Qed.

(** ** MarshalIndent *)
Definition indent_members (cur ind : string) := fix go (first : bool) (m : list (string * tson)) : string :=
  match m with
  | [] => ""
  | (k, v) :: m' =>
      (if first then "" else "," +++ newline) +++
      cur +++ ind +++ quote L k +++
      match v with
      | TLeaf p ts => " " +++ ts_text ts +++ ": " +++ prim_text L p
      | _ => ": " +++ marshal_indent_val L (cur +++ ind) ind CObject v
      end +++ go false m'
  end.
Definition indent_elems (cur ind : string) := fix go (first : bool) (l : list tson) : string :=
  match l with
  | [] => ""
  | v :: l' =>
      (if first then "" else "," +++ newline) +++
      cur +++ ind +++ marshal_indent_val L (cur +++ ind) ind CArray v +++ go false l'
  end.
Lemma indent_members_cons cur ind first k v m :
  indent_members cur ind first ((k, v) :: m)
  = (if first then "" else "," +++ newline) +++
      cur +++ ind +++ quote L k +++
      match v with
      | TLeaf p ts => " " +++ ts_text ts +++ ": " +++ prim_text L p
      | _ => ": " +++ marshal_indent_val L (cur +++ ind) ind CObject v
      end +++ indent_members cur ind false m.
Proof. reflexivity. Qed.
Lemma indent_elems_cons cur ind first v l :
  indent_elems cur ind first (v :: l)
  = (if first then "" else "," +++ newline) +++
      cur +++ ind +++ marshal_indent_val L (cur +++ ind) ind CArray v +++ indent_elems cur ind false l.
Proof. reflexivity. Qed.
Lemma indent_obj_eq cur ind c m :
  marshal_indent_val L cur ind c (TObj m)
  = "{" +++ newline +++ indent_members cur ind true m +++ newline +++ cur +++ "}".
Proof. reflexivity. Qed.
Lemma indent_arr_eq cur ind c l :
  marshal_indent_val L cur ind c (TArr l)
  = "[" +++ newline +++ indent_elems cur ind true l +++ newline +++ cur +++ "]".
Proof. reflexivity. Qed.

Lemma indent_val_text ind t :
  blank ind -> doc_ok L t -> is_leaf t = false ->
  forall cur c, blank cur -> val_text L closed (norm_ts t) (marshal_indent_val L cur ind c t).
Proof.
  intros Hind. induction t as [|p ts|m IH|l IH] using tson_ind'; intros Hok Hleaf cur c Hcur; try done.
  - inversion Hok; done.
  - inversion Hok as [|? HND HF|]; subst. clear Hok Hleaf. rewrite indent_obj_eq.
    assert (H : (m = [] ∧ indent_members cur ind true m = "") ∨
        members_text L (map (fun kv => (fst kv, norm_ts (snd kv))) m) (indent_members cur ind true m)).
    { assert (Hgen : forall first,
        ((m = [] ∧ indent_members cur ind first m = "") ∨
         exists s', indent_members cur ind first m = (if first then "" else "," +++ newline) +++ s' ∧
         members_text L (map (fun kv => (fst kv, norm_ts (snd kv))) m) s')).
      { clear HND. induction m as [|[k v] m IHm]; intros first; [by left|].
        inversion IH as [|? ? IHv IHr]; subst. inversion HF as [|? ? [Hk Hv] HFr]; subst.
        simpl in IHv, Hk, Hv. right. rewrite indent_members_cons. eexists. split; [done|].
        specialize (IHm IHr HFr false). cbn [map fst snd].
        rewrite <- sapp_assoc. rewrite <- (sapp_assoc (quote L k)). rewrite <- (sapp_assoc (cur +++ ind)).
        apply members_cons_text.
        - apply member_lead; [by apply blank_app|].
          destruct (is_leaf v) eqn:El.
          + destruct v as [|p ts| |]; try done. exact (print_member_leaf k p ts Hk Hv).
          + specialize (IHv Hv eq_refl (cur +++ ind) CObject ltac:(by apply blank_app)).
            pose proof (ok_norm_not_nil _ Hv).
            destruct v; try done; eapply print_member_other; eauto; try done; by apply norm_not_leaf.
        - destruct IHm as [[-> ->]|(s' & -> & Hs')]; [by left|]. right.
          exists (newline +++ s'). split; [done|]. by apply members_lead; [apply blank_newline|]. }
      destruct (Hgen true) as [?|(s' & -> & H)]; auto. }
    destruct H as [[-> ->]|H].
    + simpl norm_ts. change ("" +++ newline +++ cur +++ "}") with (newline +++ cur +++ "}").
      rewrite <- !(sapp_assoc newline). rewrite <- (sapp_assoc _ cur). apply vt_obj0.
      repeat apply blank_app; auto using blank_newline.
    + simpl norm_ts. rewrite <- (last_wins_nodup (map _ m)) by by rewrite akeys_map.
      assert (E : "{" +++ newline +++ indent_members cur ind true m +++ newline +++ cur +++ "}"
         = "{" +++ (newline +++ indent_members cur ind true m +++ (newline +++ cur)) +++ "}")
        by by rewrite !sapp_assoc.
      rewrite E. apply vt_obj. apply members_lead; [apply blank_newline|].
      apply members_trail; [|done]. by apply blank_app; [apply blank_newline|].
  - inversion Hok as [| |? HF]; subst. clear Hok Hleaf. rewrite indent_arr_eq.
    assert (H : (l = [] ∧ indent_elems cur ind true l = "") ∨
        elems_text L (map norm_ts l) (indent_elems cur ind true l)).
    { assert (Hgen : forall first,
        ((l = [] ∧ indent_elems cur ind first l = "") ∨
         exists s', indent_elems cur ind first l = (if first then "" else "," +++ newline) +++ s' ∧
         elems_text L (map norm_ts l) s')).
      { induction l as [|v l IHl]; intros first; [by left|].
        inversion IH as [|? ? IHv IHr]; subst. inversion HF as [|? ? Hv HFr]; subst.
        right. rewrite indent_elems_cons. eexists. split; [done|].
        specialize (IHl IHr HFr false). cbn [map].
        rewrite <- sapp_assoc. rewrite <- (sapp_assoc (cur +++ ind)).
        apply elems_cons_text.
        - apply elem_lead; [by apply blank_app|].
          destruct (is_leaf v) eqn:El.
          + destruct v as [|p ts| |]; try done. exact (print_elem_leaf p ts Hv).
          + specialize (IHv Hv eq_refl (cur +++ ind) CArray ltac:(by apply blank_app)).
            apply print_elem_other; auto; [by apply ok_norm_not_nil|by apply norm_not_leaf].
        - destruct IHl as [[-> ->]|(s' & -> & Hs')]; [by left|]. right.
          exists (newline +++ s'). split; [done|]. by apply elems_lead; [apply blank_newline|]. }
      destruct (Hgen true) as [?|(s' & -> & H)]; auto. }
    destruct H as [[-> ->]|H].
    + simpl norm_ts. change ("" +++ newline +++ cur +++ "]") with (newline +++ cur +++ "]").
      rewrite <- !(sapp_assoc newline). rewrite <- (sapp_assoc _ cur). apply vt_arr0.
      repeat apply blank_app; auto using blank_newline.
    + simpl norm_ts.
      assert (E : "[" +++ newline +++ indent_elems cur ind true l +++ newline +++ cur +++ "]"
         = "[" +++ (newline +++ indent_elems cur ind true l +++ (newline +++ cur)) +++ "]")
        by by rewrite !sapp_assoc.
      rewrite E. apply vt_arr. apply elems_lead; [apply blank_newline|].
      apply elems_trail; [|done]. by apply blank_app; [apply blank_newline|].
Qed.
Lemma indent_text t p i :
  doc_ok L t -> blank p -> blank i -> val_text L closed (norm_ts t) (marshal_indent L t p i).
Proof.
  intros Hok Hp Hi. destruct (is_leaf t) eqn:El.
  - destruct t as [|q ts| |]; try done. inversion Hok as [? ? Hq Hts| |]; subst.
    destruct (prim_text_scalar q Hq) as (k & Hs).
    exact (vt_scalar_stamp L k q _ " " _ _ Hs blank_space (ts_text_stamp ts Hts)).
  - by apply indent_val_text.
Qed.

(** ** Round trips *)
Lemma closed_doc t s rest : val_text L closed t s -> doc_text L t (s +++ rest).
Proof.
  intros H. exists "", closed, s, rest. split; [done|]. split; [constructor|]. split; [done|]. done.
Qed.
Lemma marshal_roundtrip t rest :
  doc_ok L t -> exists s, marshal L t = Ok s ∧ unmarshal L (s +++ rest) = Ok (norm_ts t).
Proof.
  intros Hok. destruct (marshal_text t Hok) as (s & E & Hs). exists s. split; [done|].
  apply unmarshal_complete. by apply closed_doc.
Qed.
Lemma indent_roundtrip t p i rest :
  doc_ok L t -> blank p -> blank i -> unmarshal L (marshal_indent L t p i +++ rest) = Ok (norm_ts t).
Proof.
  intros Hok Hp Hi. apply unmarshal_complete. apply closed_doc. by apply indent_text.
Qed.
End text.
