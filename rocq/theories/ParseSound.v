(** The parser accepts only texts of the grammar, always ends, and panics only on "null". *)
From Verif Require Import Base F64 Tson Serial BaseLemmas BaseSpec BaseSpecLemmas TextSpec ParseComplete.
From Coq Require Import Lia.

Lemma pbind_ok {A B} (r : pres A) (f : A -> string -> pres B) b s :
  pbind r f = POk b s -> exists a s', r = POk a s' ∧ f a s' = POk b s.
Proof. destruct r; simpl; try done. eauto. Qed.

Lemma expect_sound c s u r : expect c s = POk u r -> exists w, blank w ∧ s = w +++ String c r.
Proof.
  unfold expect. destruct (skip_ws_split s) as (w & Hw & E).
  destruct (skip_ws s) as [|a s'] eqn:Es; [done|]. case_decide; [|done]. intros [= _ ->]. subst.
  eauto.
Qed.

Lemma parse_string_body_sound s x r :
  parse_string_body s = POk x r -> exists txt, literal txt x ∧ s = txt +++ String dquote r.
Proof.
  remember (slength s) as n eqn:Hn. assert (Hle : (slength s <= n)%nat) by lia. clear Hn.
  revert s x r Hle. induction n as [|n IH]; intros s x r Hle.
  { destruct s; simpl in *; [done|lia]. }
  destruct s as [|a s]; [done|]. cbn [parse_string_body].
  case_decide as Ha.
  - destruct s as [|e s]; [done|].
    assert (Hput : forall c, escape e c ->
      pbind (parse_string_body s) (fun r0 rest => POk (String c r0) rest) = POk x r ->
      exists txt, literal txt x ∧ String a (String e s) = txt +++ String dquote r).
    { intros c Hc H. apply pbind_ok in H as (y & s' & H1 & [= <- <-]).
      apply IH in H1 as (txt & Hl & ->); [|simpl in Hle; lia].
      subst a. eexists (String backslash (String e txt)). split; [|done].
      by apply lit_esc. }
    repeat (case_decide; [subst; by apply Hput; constructor|]). done.
  - case_decide as Hq.
    + intros [= <- ->]. exists "". split; [constructor|]. by subst.
    + intros H. apply pbind_ok in H as (y & s' & H1 & [= <- <-]).
      apply IH in H1 as (txt & Hl & ->); [|simpl in Hle; lia].
      exists (String a txt). split; [|done]. by apply lit_raw.
Qed.
Lemma parse_string_sound s x r :
  parse_string s = POk x r ->
  exists w txt, blank w ∧ literal txt x ∧ s = w +++ String dquote (txt +++ String dquote r).
Proof.
  intros H. apply pbind_ok in H as (u & s' & H1 & H2).
  apply expect_sound in H1 as (w & Hw & ->). apply parse_string_body_sound in H2 as (txt & Hl & ->).
  eauto.
Qed.

Lemma span_digits_sound s d r :
  span_digits s = (d, r) -> s = d +++ r ∧ all_digits d = true ∧ digit_stop r.
Proof.
  revert d r. induction s as [|a s IH]; intros d r; simpl.
  - intros [= <- <-]. split; [done|]. split; [done|]. intros a z Ha [? ?]. done.
  - destruct (is_digit a) eqn:Ha.
    + destruct (span_digits s) as [d' r'] eqn:E. intros [= <- <-].
      destruct (IH d' r' eq_refl) as (-> & Hd & Hs). simpl. by rewrite Ha.
    + intros [= <- <-]. split; [done|]. split; [done|]. intros b z [Hb _]%digit_model [r E].
      injection E as -> _. congruence.
Qed.

Lemma parse_timestamp_sound s ts r :
  parse_timestamp s = POk ts r -> exists w st, blank w ∧ stamp st ts ∧ s = w +++ st +++ r.
Proof.
  intros H. apply pbind_ok in H as (u & s1 & H1 & H2). apply expect_sound in H1 as (w & Hw & ->).
  destruct s1 as [|a s2]; [done|]. case_decide as Hg.
  - injection H2 as <- <-. exists w, "<>". split; [done|]. split; [constructor|]. by subst.
  - destruct (span_digits (String a s2)) as [d r1] eqn:E.
    apply span_digits_sound in E as (E & Hd & _). rewrite E.
    case_decide as Hne; [done|]. rewrite parse_int_digits in H2 by done.
    destruct (in_int64 (Z.of_N (dec_val 0 d))) eqn:Hi; [|done].
    apply pbind_ok in H2 as (u2 & s3 & H3 & [= <- <-]).
    apply expect_sound in H3 as (w' & Hw' & ->).
    exists w, ("<" +++ d +++ w' +++ ">"). split; [done|]. split.
    + apply stamp_intro; auto. unfold in_int64 in Hi. apply andb_true_iff in Hi as [_ Hi].
      by apply Z.leb_le in Hi.
    + simpl. by rewrite !sapp_assoc.
Qed.

Section sound.
Context (L : textlib).

Lemma parse_number_sound s f r :
  parse_number L s = POk f r -> starts_number (peek s) = true ->
  exists txt dotted, number L txt f dotted ∧ s = txt +++ r ∧ digit_stop r
    ∧ (negb dotted = true -> ~ begins "." r).
Proof.
  unfold parse_number. intros H Hst.
  assert (Hsg : exists sg s1, (match s with
     | String a s' => if decide (a = "-"%char) then (String a "", s') else ("", s)
     | EmptyString => ("", s) end) = (sg, s1) ∧ s = sg +++ s1 ∧
     (sg = "-" ∨ (sg = "" ∧ is_digit (peek s1) = true))).
  { destruct s as [|a s']; [done|]. case_decide.
    - subst. do 2 eexists. eauto.
    - do 2 eexists. split; [done|]. split; [done|]. right. split; [done|].
      cbn [peek] in *. unfold starts_number in Hst. rewrite bool_decide_false in Hst by done. done. }
  destruct Hsg as (sg & s1 & Esg & -> & Hsg). rewrite Esg in H. clear Esg.
  destruct (span_digits s1) as [ip s2] eqn:E1. apply span_digits_sound in E1 as (-> & Hip & Hs2).
  assert (Hsg' : sg = "-" ∨ (sg = "" ∧ ip ≠ "")).
  { destruct Hsg as [->|[-> Hd]]; [auto|]. right. split; [done|]. intros ->.
    simpl in Hd. destruct s2 as [|a s2]; [done|]. eapply Hs2; [by apply digit_model|]. by eexists. }
  destruct s2 as [|a s3].
  - destruct (parse_num L _) as [x|] eqn:Hn; [|done]. injection H as -> <-.
    rewrite sapp_nil_r in Hn. exists (sg +++ ip +++ ""), false. split.
    + apply number_intro; [done|by apply opt_digits_model|by left|]. by rewrite sapp_nil_r.
    + rewrite !sapp_nil_r. split; [done|]. split.
      * intros ? ? ? [? ?]. done.
      * intros _ [? ?]. done.
  - destruct (decide (a = "."%char)) as [->|Hdot].
    + destruct (span_digits s3) as [d s4] eqn:E2.
      apply span_digits_sound in E2 as (-> & Hd & Hs4).
      destruct (parse_num L _) as [x|] eqn:Hn; [|done]. injection H as -> <-.
      exists (sg +++ ip +++ String "." d), true. split; [|split; [|done]].
      * apply number_intro; [done|by apply opt_digits_model| |done]. right. split; [done|]. exists d. split; [done|]. by apply opt_digits_model.
      * by rewrite !sapp_assoc.
    + destruct (parse_num L _) as [x|] eqn:Hn; [|done]. injection H as -> <-.
      rewrite sapp_nil_r in Hn. exists (sg +++ ip +++ ""), false. split.
      * apply number_intro; [done|by apply opt_digits_model|by left|]. by rewrite sapp_nil_r.
      * rewrite !sapp_nil_r, !sapp_assoc. split; [done|]. split; [done|].
        intros _ [r' E]. injection E as -> _. done.
Qed.

Lemma parse_primitive_sound s p r :
  parse_primitive L s = POk p r ->
  exists w k txt, blank w ∧ scalar_text L k p txt ∧ s = w +++ txt +++ r ∧
    tail_ok k r ∧ (forall b, p ≠ PBool b) ∧ no_stamp k = false.
Proof.
  unfold parse_primitive. destruct (skip_ws_split s) as (w & Hw & E).
  case_decide as Hq.
  - intros H. apply pbind_ok in H as (x & s' & H1 & [= <- <-]).
    apply parse_string_sound in H1 as (w' & txt & Hw' & Hl & E').
    exists (w +++ w'), (Tail false false false), (String dquote (txt +++ String dquote "")).
    split; [by apply blank_app|]. split; [by apply st_str|]. split.
    + rewrite E, E'. rewrite quoted_app. by rewrite sapp_assoc.
    + split; [|done]. split; [done|]. done.
  - destruct (starts_number (peek (skip_ws s))) eqn:Hst; [|done].
    intros H. apply pbind_ok in H as (x & s' & H1 & [= <- <-]).
    apply parse_number_sound in H1 as (txt & dotted & Hn & E' & Hd & Hdot); [|done].
    exists w, (Tail false true (negb dotted)), txt. split; [done|].
    split; [by apply st_num|]. split; [congruence|].
    split; [|done]. split; [done|]. done.
Qed.

Lemma trailing_sound p s t r :
  trailing_ts p s = POk t r ->
  (exists w st ts, blank w ∧ stamp st ts ∧ t = TLeaf p ts ∧ s = w +++ st +++ r) ∨
  (exists w, blank w ∧ t = TLeaf p (-1) ∧ s = w +++ r ∧
     forall w' r', s = w' +++ r' -> blank w' -> ~ begins "<" r').
Proof.
  unfold trailing_ts. destruct (skip_ws_split s) as (w & Hw & E).
  case_decide as Hq.
  - intros H. apply pbind_ok in H as (ts & s' & H1 & [= <- <-]).
    apply parse_timestamp_sound in H1 as (w' & st & Hw' & Hs & E').
    left. exists (w +++ w'), st, ts. split; [by apply blank_app|]. split; [done|]. split; [done|].
    rewrite E, E'. by rewrite sapp_assoc.
  - intros [= <- <-]. right. exists w. split; [done|]. split; [done|]. split; [done|].
    intros w' r' E' Hw' [r'' ->]. apply Hq. rewrite E', skip_ws_blank by done. done.
Qed.

Lemma drop_prefix_sound p s r : drop_prefix p s = Some r -> s = p +++ r.
Proof.
  revert s. induction p as [|a p IH]; intros s; simpl; [by intros [= ->]|].
  destruct s as [|b s]; [done|]. case_decide as D; [|done]. intros H. apply IH in H as ->. by subst.
Qed.

(** A scalar followed by its optional stamp. *)
Lemma scalar_trailing_sound k p txt r0 t r :
  scalar_text L k p txt -> tail_ok k r0 -> no_stamp k = false ->
  trailing_ts p r0 = POk t r ->
  exists k' vs w', txt +++ r0 = vs +++ w' +++ r ∧ blank w' ∧ val_text L k' t vs ∧ tail_ok k' (w' +++ r).
Proof.
  intros Hs Ht Hns H. apply trailing_sound in H as [(w & st & ts & Hw & Hst & -> & ->)|(w & Hw & -> & -> & Hlt)].
  - exists closed, (txt +++ w +++ st), "". split; [simpl; by rewrite !sapp_assoc|].
    split; [constructor|]. split; [by eapply vt_scalar_stamp|]. done.
  - exists (Tail true (no_digit k) (no_dot k)), txt, w. split; [done|]. split; [done|].
    split; [by apply vt_scalar|]. destruct Ht as (_ & H1 & H2). split; [|by split].
    intros _ w' r' E Hw'. by eapply Hlt.
Qed.

Definition S_val (f : nat) : Prop := forall s t r, parse_val L f s = POk t r ->
  exists w k vs w', s = w +++ vs +++ w' +++ r ∧ blank w ∧ blank w' ∧ val_text L k t vs
    ∧ tail_ok k (w' +++ r).
Definition S_members (f : nat) : Prop := forall acc s t r, parse_members L f acc s = POk t r ->
  exists m txt, t = TObj (fold_left (fun acc kv => ainsert (fst kv) (snd kv) acc) m acc)
    ∧ members_text L m txt ∧ s = txt +++ "}" +++ r.
Definition S_elems (f : nat) : Prop := forall acc s t r, parse_elems L f acc s = POk t r ->
  exists l txt, t = TArr (acc ++ l) ∧ elems_text L l txt ∧ s = txt +++ "]" +++ r.

Lemma opt_stamp_sound s ts r :
  (if decide (peek (skip_ws s) = lt_char)
   then pbind (parse_timestamp (skip_ws s)) (fun ts r2 => POk ts (skip_ws r2))
   else POk 0 (skip_ws s)) = POk ts r ->
  exists w st ots w', blank w ∧ blank w' ∧ opt_stamp st ots ∧ s = w +++ st +++ w' +++ r ∧
    (ots = Some ts ∨ (ots = None ∧ ts = 0)) ∧ (ots = None -> ~ begins "<" r) ∧ skip_ws r = r.
Proof.
  destruct (skip_ws_split s) as (w & Hw & E). case_decide as Hq.
  - intros H. apply pbind_ok in H as (ts' & s' & H1 & [= <- <-]).
    apply parse_timestamp_sound in H1 as (w1 & st & Hw1 & Hs & E').
    destruct (skip_ws_split s') as (w2 & Hw2 & E2).
    exists (w +++ w1), st, (Some ts'), w2. split; [by apply blank_app|]. split; [done|].
    split; [by constructor|]. split.
    + rewrite E, E', E2 at 1. by rewrite !sapp_assoc.
    + split; [auto|]. split; [done|]. apply skip_ws_idem.
  - intros [= <- <-]. exists w, "", None, "". split; [done|]. split; [constructor|].
    split; [constructor|]. split; [done|]. split; [auto|]. split; [|apply skip_ws_idem].
    intros _ [r E']. rewrite E' in Hq. done.
Qed.

Lemma wrap_sound v ts ots v' :
  wrap v ts = Some v' -> (ots = Some ts ∨ (ots = None ∧ ts = 0)) -> v' = retime ots v ∧ v ≠ TNil.
Proof.
  intros H Ho. assert (v ≠ TNil) by (intros ->; done). split; [|done].
  rewrite (wrap_retime v ots ts) in H by done. congruence.
Qed.

Lemma parse_sound_mut f : S_val f ∧ S_members f ∧ S_elems f.
Proof.
  induction f as [|f (IHv & IHm & IHe)].
  { repeat split; intros ?; intros; done. }
  split; [|split].
  - intros s t r H. rewrite parse_val_S in H. cbv zeta in H.
    destruct (skip_ws_split s) as (w & Hw & E).
    destruct (decide (peek (skip_ws s) = lt_char)) as [Hlt|Hlt].
    { apply pbind_ok in H as (ts & s1 & H1 & H). apply pbind_ok in H as (p & s2 & H2 & [= <- <-]).
      apply parse_timestamp_sound in H1 as (w1 & st & Hw1 & Hst & E1).
      apply parse_primitive_sound in H2 as (w2 & k & txt & Hw2 & Hs & E2 & Ht & Hb & _).
      destruct (skip_ws_split s1) as (w3 & Hw3 & E3).
      exists (w +++ w1), k, (st +++ (w3 +++ w2) +++ txt), "". split.
      - rewrite E, E1, E3, E2. simpl. by rewrite !sapp_assoc.
      - split; [by apply blank_app|]. split; [constructor|]. split; [|done].
        apply vt_stamp_scalar; auto. by apply blank_app. }
    destruct (decide (peek (skip_ws s) = "{"%char)) as [Hob|Hob].
    { apply pbind_ok in H as (u & s1 & H1 & H).
      apply expect_sound in H1 as (w1 & Hw1 & E1).
      destruct (skip_ws_split s1) as (w3 & Hw3 & E3).
      assert (Hmem : parse_members L f [] (skip_ws s1) = POk t r ->
        exists w k vs w', s = w +++ vs +++ w' +++ r ∧ blank w ∧ blank w' ∧ val_text L k t vs
          ∧ tail_ok k (w' +++ r)).
      { intros Hm. apply IHm in Hm as (m & txt & -> & Hm & E4).
        exists (w +++ w1), closed, ("{" +++ (w3 +++ txt) +++ "}"), "".
        split; [rewrite E, E1, E3, E4; simpl; by rewrite !sapp_assoc|].
        split; [by apply blank_app|]. split; [constructor|]. split; [|done].
        apply vt_obj. clear -Hm Hw3.
        assert (Hone : forall k t s, member_text L k t s -> member_text L k t (w3 +++ s)).
        { intros k t s Hx. destruct Hx.
          rewrite <- sapp_assoc. econstructor; eauto. by apply blank_app. }
        destruct Hm as [k t s H|k t s m s' H H'].
        - constructor. auto.
        - rewrite <- sapp_assoc. constructor; auto. }
      destruct (skip_ws s1) as [|a r2] eqn:Es1; [auto|]. case_decide; [|auto].
      injection H as <- <-. subst a. clear Hmem.
      exists (w +++ w1), closed, ("{" +++ w3 +++ "}"), "".
      split; [rewrite E, E1, E3; simpl; by rewrite !sapp_assoc|].
      split; [by apply blank_app|]. split; [constructor|]. split; [|done].
      by apply vt_obj0. }
    destruct (decide (peek (skip_ws s) = "["%char)) as [Har|Har].
    { apply pbind_ok in H as (u & s1 & H1 & H).
      apply expect_sound in H1 as (w1 & Hw1 & E1).
      destruct (skip_ws_split s1) as (w3 & Hw3 & E3).
      assert (Hmem : parse_elems L f [] (skip_ws s1) = POk t r ->
        exists w k vs w', s = w +++ vs +++ w' +++ r ∧ blank w ∧ blank w' ∧ val_text L k t vs
          ∧ tail_ok k (w' +++ r)).
      { intros Hm. apply IHe in Hm as (m & txt & -> & Hm & E4).
        exists (w +++ w1), closed, ("[" +++ (w3 +++ txt) +++ "]"), "".
        split; [rewrite E, E1, E3, E4; simpl; by rewrite !sapp_assoc|].
        split; [by apply blank_app|]. split; [constructor|]. split; [|done].
        apply vt_arr. clear -Hm Hw3.
        assert (Hone : forall t s, elem_text L t s -> elem_text L t (w3 +++ s)).
        { intros t s Hx. destruct Hx.
          rewrite <- sapp_assoc. econstructor; eauto. by apply blank_app. }
        simpl. destruct Hm as [t s H|t s m s' H H'].
        - constructor. auto.
        - rewrite <- sapp_assoc. constructor; auto. }
      destruct (skip_ws s1) as [|a r2] eqn:Es1; [auto|]. case_decide; [|auto].
      injection H as <- <-. subst a. clear Hmem.
      exists (w +++ w1), closed, ("[" +++ w3 +++ "]"), "".
      split; [rewrite E, E1, E3; simpl; by rewrite !sapp_assoc|].
      split; [by apply blank_app|]. split; [constructor|]. split; [|done].
      by apply vt_arr0. }
    assert (Hprim : pbind (parse_primitive L (skip_ws s)) (fun p r => trailing_ts p r) = POk t r ->
        exists w k vs w', s = w +++ vs +++ w' +++ r ∧ blank w ∧ blank w' ∧ val_text L k t vs
          ∧ tail_ok k (w' +++ r)).
    { intros Hp. apply pbind_ok in Hp as (p & s1 & H1 & H2).
      apply parse_primitive_sound in H1 as (w1 & k & txt & Hw1 & Hs & E1 & Ht & Hb & Hns).
      destruct (scalar_trailing_sound _ _ _ _ _ _ Hs Ht Hns H2) as (k' & vs & w' & E2 & Hw' & Hv & Ht').
      exists (w +++ w1), k', vs, w'. split; [|split; [by apply blank_app|done]].
      rewrite E, E1, E2. by rewrite sapp_assoc. }
    destruct (decide (peek (skip_ws s) = dquote)) as [Hq|Hq]; [auto|].
    destruct (starts_number (peek (skip_ws s))) eqn:Hn; [auto|]. clear Hprim.
    assert (Hbool : forall b txt r1, scalar_text L closed (PBool b) txt -> skip_ws s = txt +++ r1 ->
        trailing_ts (PBool b) r1 = POk t r ->
        exists w k vs w', s = w +++ vs +++ w' +++ r ∧ blank w ∧ blank w' ∧ val_text L k t vs
          ∧ tail_ok k (w' +++ r)).
    { intros b txt r1 Hs E1 H2.
      destruct (scalar_trailing_sound _ _ _ _ _ _ Hs (ltac:(done) : tail_ok closed r1) eq_refl H2)
        as (k' & vs & w' & E2 & Hw' & Hv & Ht').
      exists w, k', vs, w'. split; [|done]. by rewrite E, E1, E2. }
    destruct (drop_prefix "true" (skip_ws s)) as [r1|] eqn:D1.
    { apply drop_prefix_sound in D1. eapply Hbool; eauto. constructor. }
    destruct (drop_prefix "false" (skip_ws s)) as [r1|] eqn:D2.
    { apply drop_prefix_sound in D2. eapply Hbool; eauto. constructor. }
    destruct (drop_prefix "null" (skip_ws s)) as [r1|] eqn:D3; [|done].
    apply drop_prefix_sound in D3. injection H as <- <-.
    exists w, closed, "null", "". split; [by rewrite E, D3|]. split; [done|]. split; [constructor|].
    split; [constructor|done].
  - intros acc s t r H. rewrite parse_members_S in H. cbv zeta in H.
    destruct (skip_ws_split s) as (w & Hw & E).
    apply pbind_ok in H as (key & s1 & H1 & H).
    apply pbind_ok in H as (ts & s2 & H2 & H).
    apply pbind_ok in H as (u & s3 & H3 & H).
    apply pbind_ok in H as (v & s4 & H4 & H).
    apply parse_string_sound in H1 as (w1 & txt & Hw1 & Hl & E1).
    apply opt_stamp_sound in H2 as (w2 & st & ots & w3 & Hw2 & Hw3 & Hst & E2 & Hts & Hlt & _).
    apply expect_sound in H3 as (w4 & Hw4 & E3).
    destruct (skip_ws_split s3) as (w5 & Hw5 & E5).
    apply IHv in H4 as (w6 & k & vs & w7 & E6 & Hw6 & Hw7 & Hv & Ht).
    destruct (wrap v ts) as [v'|] eqn:Hwr; [|done].
    destruct (wrap_sound _ _ ots _ Hwr Hts) as [-> Hnil].
    destruct (skip_ws_split s4) as (w8 & Hw8 & E8).
    assert (Hmt : member_text L key (retime ots v)
      ((w +++ w1) +++ String (ascii_of_N 34) (txt +++ String (ascii_of_N 34)
        (w2 +++ st +++ (w3 +++ w4) +++ ":" +++ (w5 +++ w6) +++ vs +++ (w7 +++ w8))))).
    { econstructor; eauto; by apply blank_app. }
    assert (Es : s = ((w +++ w1) +++ String (ascii_of_N 34) (txt +++ String (ascii_of_N 34)
        (w2 +++ st +++ (w3 +++ w4) +++ ":" +++ (w5 +++ w6) +++ vs +++ (w7 +++ w8)))) +++ skip_ws s4).
    { rewrite !sapp_assoc, scons_app, sapp_assoc, scons_app, !sapp_assoc. simpl String.append.
      rewrite ?sapp_assoc. rewrite E at 1. rewrite E1, E2, E3, E5, E6, E8 at 1.
      rewrite ?sapp_assoc. done. }
    destruct (skip_ws s4) as [|a r6]; [done|].
    destruct (decide (a = ","%char)) as [->|Hc].
    + apply IHm in H as (m & txt' & -> & Hm & ->).
      eexists ((key, retime ots v) :: m), _. split; [done|]. split; [by constructor|].
      rewrite Es, !(sapp_assoc _ ("," +++ txt')). done.
    + destruct (decide (a = "}"%char)) as [->|Hc2]; [|done].
      injection H as <- <-. eexists [(key, retime ots v)], _.
      split; [done|]. split; [by constructor|]. rewrite Es. done.
  - intros acc s t r H. rewrite parse_elems_S in H. cbv zeta in H.
    apply pbind_ok in H as (ts & s2 & H2 & H).
    apply pbind_ok in H as (v & s4 & H4 & H).
    apply opt_stamp_sound in H2 as (w2 & st & ots & w3 & Hw2 & Hw3 & Hst & E2 & Hts & Hlt & Hsk).
    apply IHv in H4 as (w6 & k & vs & w7 & E6 & Hw6 & Hw7 & Hv & Ht).
    destruct (wrap v ts) as [v'|] eqn:Hwr; [|done].
    destruct (wrap_sound _ _ ots _ Hwr Hts) as [-> Hnil].
    destruct (skip_ws_split s4) as (w8 & Hw8 & E8).
    assert (Hw6n : w6 = "").
    { destruct Hw6 as [|b w6 Hb Hw6]; [done|]. exfalso. rewrite E6 in Hsk. simpl in Hsk.
      apply blank_ws in Hb. rewrite Hb in Hsk.
      pose proof (slength_skip_ws (w6 +++ vs +++ w7 +++ s4)) as Hlen. rewrite Hsk in Hlen.
      simpl in Hlen. lia. }
    subst w6. simpl in E6.
    assert (Hmt : elem_text L (retime ots v) (w2 +++ st +++ w3 +++ vs +++ (w7 +++ w8))).
    { econstructor; eauto; [|by apply blank_app]. intros HN [r' E']. apply (Hlt HN).
      rewrite E6, E'. by eexists. }
    assert (Es : s = (w2 +++ st +++ w3 +++ vs +++ (w7 +++ w8)) +++ skip_ws s4).
    { rewrite E2, E6, E8 at 1. by rewrite !sapp_assoc. }
    destruct (skip_ws s4) as [|a r6]; [done|].
    destruct (decide (a = ","%char)) as [->|Hc].
    + apply IHe in H as (m & txt' & -> & Hm & ->).
      eexists (retime ots v :: m), _. split; [by rewrite <- app_assoc|]. split; [by constructor|].
      rewrite Es, !(sapp_assoc _ ("," +++ txt')). done.
    + destruct (decide (a = "]"%char)) as [->|Hc2]; [|done].
      injection H as <- <-. eexists [retime ots v], _.
      split; [done|]. split; [by constructor|]. rewrite Es. done.
Qed.

Lemma unmarshal_sound s t : unmarshal L s = Ok t -> doc_text L t s.
Proof.
  unfold unmarshal. destruct (parse_val L (parse_fuel s) (skip_ws s)) as [t' r| | |] eqn:E; try done.
  intros [= <-]. apply (proj1 (parse_sound_mut _)) in E as (w & k & vs & w' & E & Hw & Hw' & Hv & Ht).
  destruct (skip_ws_split s) as (w0 & Hw0 & E0).
  exists (w0 +++ w), k, vs, (w' +++ r). split; [|split; [by apply blank_app|done]].
  rewrite E0, E. by rewrite sapp_assoc.
Qed.

(** ** The recursion bound is never reached. *)
Lemma parse_val_rest f s t r : parse_val L f s = POk t r -> (S (slength r) <= slength s)%nat.
Proof.
  intros H. apply (proj1 (parse_sound_mut _)) in H as (w & k & vs & w' & -> & _ & _ & Hv & _).
  apply val_text_nonempty in Hv. rewrite !slength_app. lia.
Qed.
Lemma parse_string_no_fuel s : parse_string_body s ≠ PFuel ∧ parse_string_body s ≠ PPanic.
Proof.
  remember (slength s) as n eqn:Hn. assert (Hle : (slength s <= n)%nat) by lia. clear Hn.
  revert s Hle. induction n as [|n IH]; intros s Hle.
  { destruct s; simpl in *; [done|lia]. }
  destruct s as [|a s]; [done|]. cbn [parse_string_body].
  assert (Hput : forall s c, (slength s <= n)%nat ->
    pbind (parse_string_body s) (fun r0 rest => POk (String c r0) rest) ≠ PFuel ∧
    pbind (parse_string_body s) (fun r0 rest => POk (String c r0) rest) ≠ PPanic).
  { intros s0 c H0. specialize (IH s0 H0). destruct (parse_string_body s0); simpl; tauto || done. }
  simpl in Hle.
  case_decide.
  - destruct s as [|e s]; [done|]. simpl in Hle.
    repeat (case_decide; [apply Hput; lia|]). done.
  - case_decide; [done|]. apply Hput. lia.
Qed.
Lemma parse_string_nf s : parse_string s ≠ PFuel ∧ parse_string s ≠ PPanic.
Proof.
  unfold parse_string, expect. destruct (skip_ws s) as [|a r]; [done|].
  case_decide; [|done]. apply parse_string_no_fuel.
Qed.
Lemma parse_timestamp_nf s : parse_timestamp s ≠ PFuel ∧ parse_timestamp s ≠ PPanic.
Proof.
  unfold parse_timestamp, expect. destruct (skip_ws s) as [|a r]; [done|].
  case_decide; [|done]. cbn [pbind]. destruct r as [|b r]; [done|]. case_decide; [done|].
  destruct (span_digits (String b r)) as [d r']. case_decide; [done|].
  destruct (parse_int d); [|done]. destruct (skip_ws r') as [|c r2]; [done|].
  case_decide; done.
Qed.
Lemma parse_number_nf s : parse_number L s ≠ PFuel ∧ parse_number L s ≠ PPanic.
Proof.
  unfold parse_number. destruct (match s with "" => _ | String _ _ => _ end) as [sg s1].
  destruct (span_digits s1) as [ip s2].
  destruct (match s2 with "" => _ | String _ _ => _ end) as [fp s3].
  destruct (parse_num L _); done.
Qed.
Lemma parse_primitive_nf s : parse_primitive L s ≠ PFuel ∧ parse_primitive L s ≠ PPanic.
Proof.
  unfold parse_primitive. case_decide.
  - pose proof (parse_string_nf (skip_ws s)). destruct (parse_string (skip_ws s)); simpl; tauto || done.
  - destruct (starts_number _); [|done].
    pose proof (parse_number_nf (skip_ws s)). destruct (parse_number L (skip_ws s)); simpl; tauto || done.
Qed.
Lemma trailing_nf p s : trailing_ts p s ≠ PFuel ∧ trailing_ts p s ≠ PPanic.
Proof.
  unfold trailing_ts. case_decide; [|done].
  pose proof (parse_timestamp_nf (skip_ws s)). destruct (parse_timestamp (skip_ws s)); simpl; tauto || done.
Qed.

Lemma opt_stamp_nf s :
  (if decide (peek (skip_ws s) = lt_char)
   then pbind (parse_timestamp (skip_ws s)) (fun ts r2 => POk ts (skip_ws r2))
   else POk 0 (skip_ws s)) ≠ PFuel ∧
  (if decide (peek (skip_ws s) = lt_char)
   then pbind (parse_timestamp (skip_ws s)) (fun ts r2 => POk ts (skip_ws r2))
   else POk 0 (skip_ws s)) ≠ PPanic.
Proof.
  case_decide; [|done]. pose proof (parse_timestamp_nf (skip_ws s)).
  destruct (parse_timestamp (skip_ws s)); simpl; tauto || done.
Qed.

(** A text containing "null". *)
Definition has_null (s : string) : Prop := exists a b, s = a +++ "null" +++ b.
Lemma has_null_app a s : has_null s -> has_null (a +++ s).
Proof. intros (x & y & ->). exists (a +++ x), y. by rewrite sapp_assoc. Qed.
Lemma has_null_skip s : has_null (skip_ws s) -> has_null s.
Proof. destruct (skip_ws_split s) as (w & _ & E). rewrite E at 2. apply has_null_app. Qed.

(** Each parsing function: no exhausted bound with enough fuel, and panics only on "null". *)
Lemma parse_ends_mut f :
  (forall s, ((2 * slength s + 1 <= f)%nat -> parse_val L f s ≠ PFuel)
     ∧ (parse_val L f s = PPanic -> has_null s)) ∧
  (forall acc s, ((2 * slength s + 2 <= f)%nat -> parse_members L f acc s ≠ PFuel)
     ∧ (parse_members L f acc s = PPanic -> has_null s)) ∧
  (forall acc s, ((2 * slength s + 2 <= f)%nat -> parse_elems L f acc s ≠ PFuel)
     ∧ (parse_elems L f acc s = PPanic -> has_null s)).
Proof.
  induction f as [|f (IHv & IHm & IHe)].
  { repeat split; try (intros; simpl in *; lia); intros; done. }
  split; [|split].
  - intros s. rewrite parse_val_S. cbv zeta.
    pose proof (slength_skip_ws s) as Hls.
    assert (Hx : forall (r : pres tson), (r ≠ PFuel ∧ r ≠ PPanic) ->
      ((2 * slength s + 1 <= S f)%nat -> r ≠ PFuel) ∧ (r = PPanic -> has_null s)) by tauto.
    case_decide.
    { apply Hx. pose proof (parse_timestamp_nf (skip_ws s)).
      destruct (parse_timestamp (skip_ws s)) as [ts r| | |]; simpl; try (tauto || done).
      pose proof (parse_primitive_nf (skip_ws r)).
      destruct (parse_primitive L (skip_ws r)); simpl; tauto || done. }
    case_decide as Hb.
    { unfold expect. rewrite skip_ws_idem. destruct (skip_ws s) as [|a r] eqn:Es; [done|].
      case_decide; [|by apply Hx]. cbn [pbind].
      pose proof (slength_skip_ws r) as Hlr. simpl in Hls.
      assert (Hr : has_null (skip_ws r) -> has_null s).
      { intros HN0. apply has_null_skip. rewrite Es. apply (has_null_app (String a "") r).
        by apply has_null_skip. }
      destruct (IHm [] (skip_ws r)) as [H1 H2].
      assert (Hgo : ((2 * slength s + 1 <= S f)%nat -> parse_members L f [] (skip_ws r) ≠ PFuel)
        ∧ (parse_members L f [] (skip_ws r) = PPanic -> has_null s)).
      { split; [intros; apply H1; lia|auto]. }
      destruct (skip_ws r) as [|c r2]; [done|]. case_decide; [by apply Hx|done]. }
    case_decide as Hb2.
    { unfold expect. rewrite skip_ws_idem. destruct (skip_ws s) as [|a r] eqn:Es; [done|].
      case_decide; [|by apply Hx]. cbn [pbind].
      pose proof (slength_skip_ws r) as Hlr. simpl in Hls.
      assert (Hr : has_null (skip_ws r) -> has_null s).
      { intros HN0. apply has_null_skip. rewrite Es. apply (has_null_app (String a "") r).
        by apply has_null_skip. }
      destruct (IHe [] (skip_ws r)) as [H1 H2].
      assert (Hgo : ((2 * slength s + 1 <= S f)%nat -> parse_elems L f [] (skip_ws r) ≠ PFuel)
        ∧ (parse_elems L f [] (skip_ws r) = PPanic -> has_null s)).
      { split; [intros; apply H1; lia|auto]. }
      destruct (skip_ws r) as [|c r2]; [done|]. case_decide; [by apply Hx|done]. }
    assert (Hp : pbind (parse_primitive L (skip_ws s)) (fun p r => trailing_ts p r) ≠ PFuel
      ∧ pbind (parse_primitive L (skip_ws s)) (fun p r => trailing_ts p r) ≠ PPanic).
    { pose proof (parse_primitive_nf (skip_ws s)).
      destruct (parse_primitive L (skip_ws s)); simpl; try (tauto || done). apply trailing_nf. }
    case_decide; [by apply Hx|]. destruct (starts_number _); [by apply Hx|].
    apply Hx. destruct (drop_prefix "true" _); [apply trailing_nf|].
    destruct (drop_prefix "false" _); [apply trailing_nf|].
    destruct (drop_prefix "null" _); done.
  - intros acc s. rewrite parse_members_S. cbv zeta.
    pose proof (slength_skip_ws s) as Hls. pose proof (has_null_skip s) as Hn0.
    pose proof (parse_string_nf (skip_ws s)) as [Hnf1 Hnf2].
    destruct (parse_string (skip_ws s)) as [key r| | |] eqn:E1; simpl pbind;
      [clear Hnf1 Hnf2|split; congruence|done|done].
    apply parse_string_sound in E1 as (w1 & txt & _ & _ & E1). rewrite E1 in Hls.
    rewrite slength_app in Hls. simpl in Hls. rewrite slength_app in Hls. simpl in Hls.
    assert (Hn1 : has_null r -> has_null s).
    { intros HN0. apply Hn0. rewrite E1. apply has_null_app.
      apply (has_null_app (String dquote "")). apply has_null_app.
      by apply (has_null_app (String dquote "")). }
    pose proof (opt_stamp_nf r) as [Hnf1 Hnf2].
    match goal with |- (_ -> pbind ?x _ ≠ _) ∧ _ => destruct x as [ts r3| | |] eqn:E2 end; simpl pbind;
      [clear Hnf1 Hnf2|split; congruence|done|done].
    apply opt_stamp_sound in E2 as (w2 & st & ots & w3 & _ & _ & _ & E2 & _).
    assert (Hl3 : (slength r3 <= slength r)%nat) by (rewrite E2, !slength_app; lia).
    assert (Hn3 : has_null r3 -> has_null s).
    { intros HN0. apply Hn1. rewrite E2. do 3 apply has_null_app. done. }
    destruct (expect ":" r3) as [u r4| | |] eqn:E3; simpl pbind.
    2:{ split; congruence. }
    2:{ exfalso. unfold expect in E3. destruct (skip_ws r3); [done|]. by case_decide. }
    2:{ exfalso. unfold expect in E3. destruct (skip_ws r3); [done|]. by case_decide. }
    apply expect_sound in E3 as (w4 & _ & E3).
    assert (Hl4 : (S (slength r4) <= slength r3)%nat) by (rewrite E3, slength_app; simpl; lia).
    assert (Hn4 : has_null r4 -> has_null s).
    { intros HN0. apply Hn3. rewrite E3. apply has_null_app.
      by apply (has_null_app (String ":" "")). }
    pose proof (slength_skip_ws r4) as Hl4'. pose proof (has_null_skip r4) as Hn4'.
    destruct (IHv (skip_ws r4)) as [H1 H2].
    destruct (parse_val L f (skip_ws r4)) as [v r5| | |] eqn:E4; simpl pbind.
    2:{ split; congruence. }
    2:{ split; [congruence|]. auto. }
    2:{ split; [|congruence]. intros. exfalso. apply H1; [lia|done]. }
    pose proof (parse_val_rest _ _ _ _ E4) as Hl5.
    apply (proj1 (parse_sound_mut _)) in E4 as (w & k & vs & w' & E4 & _ & _ & Hv & _).
    destruct (wrap v ts) as [v'|] eqn:Hwr.
    2:{ split; [done|]. intros _. apply Hn4, Hn4'. rewrite E4. apply has_null_app.
        destruct v; try done. inversion Hv; subst. exists "", (w' +++ r5). done. }
    pose proof (slength_skip_ws r5) as Hl5'. pose proof (has_null_skip r5) as Hn5.
    destruct (skip_ws r5) as [|a r6] eqn:E6; [done|]. simpl in Hl5'.
    case_decide.
    + destruct (IHm (ainsert key v' acc) r6) as [H3 H4]. split.
      * intros. apply H3. lia.
      * intros H5. apply Hn4, Hn4'. rewrite E4. do 3 apply has_null_app. apply Hn5.
        apply (has_null_app (String a "")). auto.
    + case_decide; done.
  - intros acc s. rewrite parse_elems_S. cbv zeta.
    pose proof (opt_stamp_nf s) as [Hnf1 Hnf2].
    match goal with |- (_ -> pbind ?x _ ≠ _) ∧ _ => destruct x as [ts r3| | |] eqn:E2 end; simpl pbind;
      [clear Hnf1 Hnf2|split; congruence|done|done].
    apply opt_stamp_sound in E2 as (w2 & st & ots & w3 & _ & _ & _ & E2 & _).
    assert (Hl3 : (slength r3 <= slength s)%nat) by (rewrite E2, !slength_app; lia).
    assert (Hn3 : has_null r3 -> has_null s).
    { intros HN0. rewrite E2. do 3 apply has_null_app. done. }
    destruct (IHv r3) as [H1 H2].
    destruct (parse_val L f r3) as [v r5| | |] eqn:E4; simpl pbind.
    2:{ split; congruence. }
    2:{ split; [congruence|]. auto. }
    2:{ split; [|congruence]. intros. exfalso. apply H1; [lia|done]. }
    pose proof (parse_val_rest _ _ _ _ E4) as Hl5.
    apply (proj1 (parse_sound_mut _)) in E4 as (w & k & vs & w' & E4 & _ & _ & Hv & _).
    destruct (wrap v ts) as [v'|] eqn:Hwr.
    2:{ split; [done|]. intros _. apply Hn3. rewrite E4. apply has_null_app.
        destruct v; try done. inversion Hv; subst. exists "", (w' +++ r5). done. }
    pose proof (slength_skip_ws r5) as Hl5'. pose proof (has_null_skip r5) as Hn5.
    destruct (skip_ws r5) as [|a r6] eqn:E6; [done|]. simpl in Hl5'.
    case_decide.
    + destruct (IHe (acc ++ [v']) r6) as [H3 H4]. split.
      * intros. apply H3. lia.
      * intros H5. apply Hn3. rewrite E4. do 3 apply has_null_app. apply Hn5.
        apply (has_null_app (String a "")). auto.
    + case_decide; done.
Qed.

Lemma unmarshal_terminates s : parse_val L (parse_fuel s) (skip_ws s) ≠ PFuel.
Proof.
  apply (proj1 (parse_ends_mut _)). unfold parse_fuel. pose proof (slength_skip_ws s). lia.
Qed.
Lemma unmarshal_panic_null s : unmarshal L s = Panic -> has_null s.
Proof.
  unfold unmarshal. pose proof (unmarshal_terminates s) as Ht.
  destruct (parse_val L (parse_fuel s) (skip_ws s)) eqn:E; try done.
  intros _. apply has_null_skip. by apply (proj1 (parse_ends_mut (parse_fuel s))).
Qed.
End sound.
