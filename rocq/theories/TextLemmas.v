(** Consequences of the grammar theorems, used by [Prop_Text.v]. *)
From Verif Require Import Base F64 Tson TsonInd Serial BaseLemmas TextSpec ParseComplete ParseSound MarshalText.
From Coq Require Import Lia.

Lemma every_stamp_same (P : Z -> Prop) t t' : same_doc t t' -> every_stamp P t -> every_stamp P t'.
Proof.
  revert t'. induction t as [| |m IH|l IH] using tson_ind'; intros t' H E.
  - inversion H; subst. done.
  - inversion H; subst. done.
  - inversion H as [| | |? m' m'' HP HF]; subst. inversion E as [| |? HE|]; subst. constructor.
    rewrite HP in HE, IH. clear HP H E. induction HF as [|a b m' m'' [Ek Hab] HF IHF]; constructor.
    + inversion HE; subst. inversion IH; subst. eauto.
    + inversion HE; subst. inversion IH; subst. auto.
  - inversion H as [| |? l' HF|]; subst. inversion E as [| | |? HE]; subst. constructor.
    clear H E. induction HF; constructor; inversion HE; subst; inversion IH; subst; eauto.
Qed.

Lemma same_doc_akeys (m m' : list (string * tson)) :
  Forall2 (fun a b => fst a = fst b ∧ same_doc (snd a) (snd b)) m m' -> akeys m = akeys m'.
Proof. induction 1 as [|a b m m' [E _] HF IH]; simpl; congruence. Qed.

Section lemmas.
Context (L : textlib).

Lemma doc_ok_same t t' : same_doc t t' -> doc_ok L t -> doc_ok L t'.
Proof.
  revert t'. induction t as [| |m IH|l IH] using tson_ind'; intros t' H E.
  - inversion E.
  - inversion H; subst. done.
  - inversion H as [| | |? m' m'' HP HF]; subst. inversion E as [|? HND HE|]; subst. constructor.
    + rewrite <- (same_doc_akeys _ _ HF). unfold akeys. by rewrite <- HP.
    + rewrite HP in HE, IH. clear HP H E HND. induction HF as [|a b m' m'' [Ek Hab] HF IHF]; constructor.
      * inversion HE as [|? ? [? ?]]; subst. inversion IH; subst. rewrite <- Ek. eauto.
      * inversion HE; subst. inversion IH; subst. auto.
  - inversion H as [| |? l' HF|]; subst. inversion E as [| |? HE]; subst. constructor.
    clear H E. induction HF; constructor; inversion HE; subst; inversion IH; subst; eauto.
Qed.

Lemma norm_ts_same t t' : same_doc t t' -> same_doc (norm_ts t) (norm_ts t').
Proof.
  revert t'. induction t as [| |m IH|l IH] using tson_ind'; intros t' H.
  - inversion H; subst. constructor.
  - inversion H; subst. constructor.
  - inversion H as [| | |? m' m'' HP HF]; subst. simpl.
    apply (sd_obj _ (map (fun kv => (fst kv, norm_ts (snd kv))) m')); [by rewrite HP|].
    rewrite HP in IH. clear HP H. induction HF as [|a b m' m'' [Ek Hab] HF IHF]; constructor.
    + inversion IH; subst. simpl. auto.
    + inversion IH; subst. auto.
  - inversion H as [| |? l' HF|]; subst. simpl. constructor. clear H.
    induction HF; simpl; constructor; inversion IH; subst; auto.
Qed.
Lemma norm_ts_id t : every_stamp (fun ts => -1 <= ts) t -> norm_ts t = t.
Proof.
  induction t as [|p ts|m IH|l IH] using tson_ind'; intros E; simpl.
  - done.
  - inversion E; subst. f_equal. destruct (0 <=? ts) eqn:H; [done|]. apply Z.leb_gt in H. lia.
  - f_equal. inversion E as [| |? HE|]; subst. clear E.
    induction m as [|[k v] m IHm]; [done|]. inversion IH; inversion HE; subst. simpl in *.
    f_equal; [f_equal; auto|auto].
  - f_equal. inversion E as [| | |? HE]; subst. clear E.
    induction l as [|v l IHl]; [done|]. inversion IH; inversion HE; subst. simpl in *.
    f_equal; auto.
Qed.

Lemma text_roundtrip t t' rest :
  doc_ok L t -> same_doc t t' ->
  exists s t'', marshal L t' = Ok s ∧ unmarshal L (s +++ rest) = Ok t'' ∧ same_doc t'' (norm_ts t).
Proof.
  intros Hok Hs. destruct (marshal_roundtrip L t' rest (doc_ok_same _ _ Hs Hok)) as (s & E1 & E2).
  exists s, (norm_ts t'). split; [done|]. split; [done|].
  apply norm_ts_same. by apply same_doc_sym.
Qed.
Lemma text_indent_roundtrip t t' p i rest :
  doc_ok L t -> same_doc t t' -> blank p -> blank i ->
  exists t'', unmarshal L (marshal_indent L t' p i +++ rest) = Ok t'' ∧ same_doc t'' (norm_ts t).
Proof.
  intros Hok Hs Hp Hi. exists (norm_ts t'). split.
  - apply indent_roundtrip; auto. by eapply doc_ok_same.
  - apply norm_ts_same. by apply same_doc_sym.
Qed.

Lemma text_injective t t' s :
  doc_ok L t -> doc_ok L t' -> marshal L t = Ok s -> marshal L t' = Ok s -> norm_ts t = norm_ts t'.
Proof.
  intros H H' E E'. destruct (marshal_roundtrip L t "" H) as (s1 & F1 & F2).
  destruct (marshal_roundtrip L t' "" H') as (s2 & G1 & G2). congruence.
Qed.

(** *** Results of Unmarshal *)
Lemma retime_nil ots v : v ≠ TNil -> retime ots v ≠ TNil.
Proof. by destruct v. Qed.
Lemma last_wins_acc (m acc : list (string * tson)) :
  NoDup (akeys acc) ->
  NoDup (akeys (fold_left (fun acc kv => ainsert (fst kv) (snd kv) acc) m acc)).
Proof.
  revert acc. induction m as [|[k v] m IH]; intros acc H; simpl; auto.
  apply IH. by apply NoDup_ainsert.
Qed.
Lemma ainsert_Forall {V} (P : V -> Prop) k v (m : list (string * V)) :
  P v -> Forall (fun kv => P (snd kv)) m -> Forall (fun kv => P (snd kv)) (ainsert k v m).
Proof.
  intros Hv. induction 1 as [|[k' v'] m H HF IH]; simpl; [by repeat constructor|].
  case_decide; constructor; auto.
Qed.
Lemma last_wins_Forall (P : tson -> Prop) m :
  Forall (fun kv => P (snd kv)) m -> Forall (fun kv => P (snd kv)) (last_wins m).
Proof.
  intros H. unfold last_wins.
  assert (G : forall (m acc : list (string * tson)), Forall (fun kv => P (snd kv)) m ->
    Forall (fun kv => P (snd kv)) acc ->
    Forall (fun kv => P (snd kv)) (fold_left (fun acc kv => ainsert (fst kv) (snd kv) acc) m acc)).
  { clear. induction m as [|[k v] m IH]; intros acc HF Ha; simpl; auto.
    inversion HF; subst. apply IH; auto. by apply ainsert_Forall. }
  by apply G.
Qed.

Definition good_result (t : tson) : Prop :=
  wf t ∧ (t = TNil ∨ null_free t) ∧ every_stamp (fun ts => -1 <= ts <= int64_max) t.
Definition good_member (t : tson) : Prop :=
  wf t ∧ null_free t ∧ every_stamp (fun ts => -1 <= ts <= int64_max) t.

Lemma stamp_range st ts : stamp st ts -> -1 <= ts <= int64_max.
Proof. destruct 1; unfold int64_max; lia. Qed.
Lemma retime_good st ots v :
  opt_stamp st ots -> v ≠ TNil -> good_result v -> good_member (retime ots v).
Proof.
  intros Ho Hn (H1 & H2 & H3). destruct H2 as [?|H2]; [done|]. unfold good_member.
  destruct v as [|p ts| |]; try done; simpl.
  split; [constructor|]. split; [constructor|]. constructor.
  inversion H3; subst. destruct Ho as [|st ts' Hst].
  - unfold int64_max. lia.
  - apply stamp_range in Hst. destruct (0 <=? ts'); lia.
Qed.
Lemma good_members_split (m : list (string * tson)) :
  Forall (fun kv => good_member (snd kv)) m ->
  Forall (fun kv => wf (snd kv)) m ∧ Forall (fun kv => null_free (snd kv)) m ∧
  Forall (fun kv => every_stamp (fun ts => -1 <= ts <= int64_max) (snd kv)) m.
Proof.
  intros H. repeat split; eapply Forall_impl; try exact H; intros kv Hk; apply Hk.
Qed.
Lemma good_elems_split (l : list tson) :
  Forall good_member l ->
  Forall wf l ∧ Forall null_free l ∧ Forall (every_stamp (fun ts => -1 <= ts <= int64_max)) l.
Proof.
  intros H. repeat split; eapply Forall_impl; try exact H; intros kv Hk; apply Hk.
Qed.

Lemma grammar_good :
  (forall k t s, val_text L k t s -> good_result t) ∧
  (forall m s, members_text L m s -> Forall (fun kv => good_member (snd kv)) m) ∧
  (forall k t s, member_text L k t s -> good_member t) ∧
  (forall l s, elems_text L l s -> Forall good_member l) ∧
  (forall t s, elem_text L t s -> good_member t).
Proof.
  assert (Hleaf : forall p ts, -1 <= ts <= int64_max -> good_result (TLeaf p ts)).
  { intros. split; [constructor|]. split; [right; constructor|by constructor]. }
  apply text_mutind; intros.
  - split; [constructor|]. split; [by left|constructor].
  - apply Hleaf. unfold int64_max. lia.
  - apply Hleaf. by eapply stamp_range.
  - apply Hleaf. by eapply stamp_range.
  - split; [repeat constructor|]. split; [right; repeat constructor|repeat constructor].
  - apply (last_wins_Forall good_member) in H. apply good_members_split in H as (A & B & C).
    split; [constructor; [apply last_wins_acc; constructor|done]|].
    split; [right; by constructor|by constructor].
  - split; [repeat constructor|]. split; [right; repeat constructor|repeat constructor].
  - apply good_elems_split in H as (A & B & C).
    split; [by constructor|]. split; [right; by constructor|by constructor].
  - by constructor.
  - by constructor.
  - by eapply retime_good.
  - by constructor.
  - by constructor.
  - by eapply retime_good.
Qed.

Lemma unmarshal_good s t :
  unmarshal L s = Ok t ->
  wf t ∧ (t = TNil ∨ null_free t) ∧ every_stamp (fun ts => -1 <= ts <= int64_max) t.
Proof.
  intros H. apply unmarshal_sound in H as (w & k & vs & rest & _ & _ & Hv & _).
  by apply (proj1 grammar_good) in Hv.
Qed.

Lemma unmarshal_iff s t : unmarshal L s = Ok t <-> doc_text L t s.
Proof. split; [apply unmarshal_sound|apply unmarshal_complete]. Qed.

(** Text after a complete container is dropped. *)
Lemma unmarshal_trailing s t rest :
  unmarshal L s = Ok t -> (exists m, t = TObj m) ∨ (exists l, t = TArr l) ->
  unmarshal L (s +++ rest) = Ok t.
Proof.
  intros H Ht. apply unmarshal_sound in H as (w & k & vs & r & -> & Hw & Hv & Hk).
  apply unmarshal_complete. exists w, k, vs, (r +++ rest). rewrite !sapp_assoc.
  split; [done|]. split; [done|]. split; [done|].
  inversion Hv; subst; try done; destruct Ht as [[? ?]|[? ?]]; done.
Qed.

(** *** Members and elements without a stamp of their own *)
Lemma missing_stamp_member txt k kk p ps vst ovs :
  literal txt k -> scalar_text L kk p ps -> opt_stamp vst ovs ->
  unmarshal L ("{" +++ String (ascii_of_N 34) (txt +++ String (ascii_of_N 34) (":" +++ ps +++ vst +++ "}")))
  = Ok (TObj [(k, TLeaf p 0)]).
Proof.
  intros Hl Hp Hv. apply unmarshal_complete.
  assert (Hval : exists tl old, val_text L tl (TLeaf p old) (ps +++ vst)).
  { destruct Hv as [|vst vts Hs].
    - rewrite sapp_nil_r. do 2 eexists. by apply vt_scalar.
    - do 2 eexists. change (ps +++ vst) with (ps +++ "" +++ vst).
      eapply vt_scalar_stamp; eauto. constructor. }
  destruct Hval as (tl & old & Hval).
  pose proof (member_intro L "" txt k "" "" None "" "" tl _ _ "" blank_nil Hl blank_nil os_none
    blank_nil blank_nil Hval ltac:(done) blank_nil) as Hm. simpl retime in Hm.
  pose proof (vt_obj L _ _ (ms_one L _ _ _ Hm)) as Ho.
  exists "", closed. eexists _, "". split; [|split; [constructor|split; [exact Ho|done]]].
  rewrite !sapp_nil_r. simpl. do 2 f_equal. rewrite !sapp_assoc. simpl. by rewrite !sapp_assoc.
Qed.
Lemma missing_stamp_elem kk p ps vst ovs :
  scalar_text L kk p ps -> opt_stamp vst ovs ->
  unmarshal L ("[" +++ ps +++ vst +++ "]") = Ok (TArr [TLeaf p 0]).
Proof.
  intros Hp Hv. apply unmarshal_complete.
  assert (Hval : exists tl old, val_text L tl (TLeaf p old) (ps +++ vst)).
  { destruct Hv as [|vst vts Hs].
    - rewrite sapp_nil_r. do 2 eexists. by apply vt_scalar.
    - do 2 eexists. change (ps +++ vst) with (ps +++ "" +++ vst).
      eapply vt_scalar_stamp; eauto. constructor. }
  destruct Hval as (tl & old & Hval).
  assert (Hns : ~ begins "<" (ps +++ vst)).
  { intros [r E]. destruct Hp as [|? ? ? Hn| |]; simpl in E; try done.
    destruct (number_head L _ _ _ Hn) as (a & r' & -> & Ha). simpl in E. injection E as -> _. done. }
  pose proof (elem_intro L "" "" None "" tl _ _ "" blank_nil os_none blank_nil Hval ltac:(done)
    (fun _ => Hns) blank_nil) as Hm. simpl retime in Hm.
  pose proof (vt_arr L _ _ (es_one L _ _ Hm)) as Ho.
  exists "", closed. eexists _, "". split; [|split; [constructor|split; [exact Ho|done]]].
  rewrite !sapp_nil_r. simpl. by rewrite !sapp_assoc.
Qed.

(** *** Strings that need other escapes are lost *)
Lemma parse_literal_app p x r :
  literal p x ->
  parse_string_body (p +++ r) = pbind (parse_string_body r) (fun y rest => POk (x +++ y) rest).
Proof.
  induction 1 as [|a txt s H1 H2 Hl IH|e c txt s He Hl IH].
  - simpl. by destruct (parse_string_body r).
  - cbn [String.append parse_string_body]. do 2 rewrite decide_False by done. rewrite IH.
    by destruct (parse_string_body r).
  - destruct He; cbn -[ascii_of_N dquote]; rewrite IH; by destruct (parse_string_body r).
Qed.
Lemma parse_bad_escape e r :
  escape_letter e = false -> parse_string_body (String backslash (String e r)) = PErr.
Proof.
  intros He. cbn [parse_string_body]. rewrite decide_True by done.
  repeat (rewrite decide_False; [|intros ->; vm_compute in He; done]). done.
Qed.

(** [quote_body s] meets a rejected escape. *)
Definition spoiled (b : string) : Prop :=
  exists p x e r, literal p x ∧ escape_letter e = false ∧ b = p +++ String backslash (String e r).
Lemma spoiled_parse b rest : spoiled b -> parse_string_body (b +++ rest) = PErr.
Proof.
  intros (p & x & e & r & Hl & He & ->). rewrite sapp_assoc. rewrite (parse_literal_app _ _ _ Hl).
  rewrite !scons_app. by rewrite parse_bad_escape.
Qed.
Lemma spoiled_app p x b : literal p x -> spoiled b -> spoiled (p +++ b).
Proof.
  intros Hl (p' & x' & e & r & Hl' & He & ->). exists (p +++ p'), (x +++ x'), e, r.
  split; [by apply literal_app|]. split; [done|]. by rewrite sapp_assoc.
Qed.
Lemma spoiled_here e r : escape_letter e = false -> spoiled (String backslash (String e r)).
Proof. intros He. exists "", "", e, r. split; [constructor|done]. Qed.

Lemma clean_step p x s : clean L x -> literal p x -> 
  (forall y, clean L y -> clean L (x +++ y)) ->
  clean L s ∨ spoiled (quote_body L s) -> clean L (x +++ s) ∨ spoiled (p +++ quote_body L s).
Proof. intros _ Hl Hx [H|H]; [left; auto|right; by eapply spoiled_app]. Qed.

Ltac bools H := unfold utf8_2, utf8_3, utf8_4, cont, in_range in H;
  repeat (rewrite andb_true_iff in H || rewrite orb_true_iff in H || rewrite N.leb_le in H
          || rewrite N.ltb_lt in H || rewrite N.eqb_eq in H).

Lemma quote_unclean s : clean L s ∨ spoiled (quote_body L s).
Proof.
  remember (slength s) as n eqn:Hn. assert (Hle : (slength s <= n)%nat) by lia. clear Hn.
  revert s Hle. induction n as [|n IH]; intros s Hle.
  { destruct s; [left; constructor|simpl in Hle; lia]. }
  destruct s as [|a s0]; [left; constructor|]. simpl in Hle.
  assert (IH0 : clean L s0 ∨ spoiled (quote_body L s0)) by (apply IH; lia).
  cbn [quote_body]. destruct (bv a <? 128)%N eqn:Ha.
  - unfold quote_ascii. case_decide as E1.
    { subst. change (String dquote s0) with (String dquote "" +++ s0).
      apply (clean_step (String backslash (String dquote "")) (String dquote "") s0); auto.
      - apply clean_ascii; [vm_compute; by split|constructor].
      - apply (lit_esc _ _ "" ""); constructor.
      - intros y Hy. apply clean_ascii; [vm_compute; by split|done]. }
    case_decide as E2.
    { subst. change (String backslash s0) with (String backslash "" +++ s0).
      apply (clean_step (String backslash (String backslash "")) (String backslash "") s0); auto.
      - apply clean_ascii; [vm_compute; by split|constructor].
      - apply (lit_esc _ _ "" ""); constructor.
      - intros y Hy. apply clean_ascii; [vm_compute; by split|done]. }
    destruct (N.leb 32 (bv a) && N.ltb (bv a) 127)%N eqn:E3.
    { apply andb_true_iff in E3 as [E3 E4]. apply N.leb_le in E3. apply N.ltb_lt in E4.
      unfold bv in *. change (String a s0) with (String a "" +++ s0).
      apply (clean_step (String a "") (String a "") s0); auto.
      - apply clean_ascii; [done|constructor].
      - by apply lit_raw; [..|constructor].
      - intros y Hy. by apply clean_ascii. }
    assert (Hctl : forall c e, bv a = c -> In c [8; 9; 10; 12; 13]%N -> escape e (ascii_of_N c) ->
       clean L (String a s0) ∨ spoiled (String backslash (String e "") +++ quote_body L s0)).
    { intros c e Hc Hin He. assert (Ea : a = ascii_of_N c) by (rewrite <- Hc; symmetry; apply ascii_N_embedding).
      change (String a s0) with (String a "" +++ s0).
      apply (clean_step (String backslash (String e "")) (String a "") s0); auto.
      - apply clean_ctl; [unfold bv in Hc; by rewrite Hc|constructor].
      - apply (lit_esc _ _ "" ""); [by rewrite Ea|constructor].
      - intros y Hy. apply clean_ctl; [unfold bv in Hc; by rewrite Hc|done]. }
    destruct (bv a =? 7)%N eqn:E7; [right; by apply spoiled_here|].
    destruct (bv a =? 8)%N eqn:E8; [apply N.eqb_eq in E8; eapply Hctl; [done|simpl; tauto|constructor]|].
    destruct (bv a =? 12)%N eqn:E12; [apply N.eqb_eq in E12; eapply Hctl; [done|simpl; tauto|constructor]|].
    destruct (bv a =? 10)%N eqn:E10; [apply N.eqb_eq in E10; eapply Hctl; [done|simpl; tauto|constructor]|].
    destruct (bv a =? 13)%N eqn:E13; [apply N.eqb_eq in E13; eapply Hctl; [done|simpl; tauto|constructor]|].
    destruct (bv a =? 9)%N eqn:E9; [apply N.eqb_eq in E9; eapply Hctl; [done|simpl; tauto|constructor]|].
    destruct (bv a =? 11)%N eqn:E11; [right; by apply spoiled_here|].
    right. by apply spoiled_here.
  - apply N.ltb_ge in Ha.
    assert (Hbad : forall q, spoiled (quote_bad_byte a +++ q)).
    { intros q. by apply spoiled_here. }
    destruct s0 as [|b s1]; [right; rewrite <- (sapp_nil_r (quote_bad_byte a)); apply Hbad|].
    simpl in Hle. assert (IH1 : clean L s1 ∨ spoiled (quote_body L s1)) by (apply IH; lia).
    assert (Hq : forall r raw q, is_print L r = false -> spoiled (quote_rune L r raw +++ q)).
    { intros r raw q Hp. unfold quote_rune. rewrite Hp. destruct (r <? 65536)%N; by apply spoiled_here. }
    assert (Hcont : forall x, cont x = true -> (127 < N_of_ascii x)%N).
    { intros x Hx. unfold cont, in_range in Hx. apply andb_true_iff in Hx as [Hx _].
      apply N.leb_le in Hx. unfold bv in Hx. lia. }
    assert (Ha' : (127 < N_of_ascii a)%N) by (unfold bv in Ha; lia).
    destruct (utf8_2 a b) eqn:U2.
    { destruct (is_print L (rune_2 a b)) eqn:P2; [|right; by apply Hq].
      unfold quote_rune. rewrite P2.
      assert (Hb : (127 < N_of_ascii b)%N).
      { unfold utf8_2 in U2. apply andb_true_iff in U2 as [_ U2]. auto. }
      apply (clean_step (String a (String b "")) (String a (String b "")) s1); auto.
      - apply clean_2; [done|done|constructor].
      - by apply (literal_app _ _ _ _ (literal_high a Ha')), literal_high.
      - intros y Hy. by apply clean_2. }
    destruct s1 as [|c s2]; [right; apply Hbad|].
    simpl in Hle. assert (IH2 : clean L s2 ∨ spoiled (quote_body L s2)) by (apply IH; lia).
    destruct (utf8_3 a b c) eqn:U3.
    { destruct (is_print L (rune_3 a b c)) eqn:P2; [|right; by apply Hq].
      unfold quote_rune. rewrite P2.
      assert (Hb : (127 < N_of_ascii b)%N ∧ (127 < N_of_ascii c)%N).
      { bools U3. unfold bv in U3. lia. }
      apply (clean_step (String a (String b (String c ""))) (String a (String b (String c ""))) s2); auto.
      - apply clean_3; [done|done|constructor].
      - apply (literal_app _ _ _ _ (literal_high a Ha')). apply (literal_app (String b "") _ (String b "")).
        + apply literal_high; lia.
        + apply literal_high; lia.
      - intros y Hy. by apply clean_3. }
    destruct s2 as [|d s3]; [right; apply Hbad|].
    simpl in Hle. assert (IH3 : clean L s3 ∨ spoiled (quote_body L s3)) by (apply IH; lia).
    destruct (utf8_4 a b c d) eqn:U4; [|right; apply Hbad].
    destruct (is_print L (rune_4 a b c d)) eqn:P2; [|right; by apply Hq].
    unfold quote_rune. rewrite P2.
    assert (Hb : (127 < N_of_ascii b)%N ∧ (127 < N_of_ascii c)%N ∧ (127 < N_of_ascii d)%N).
    { bools U4. unfold bv in U4. lia. }
    destruct Hb as (Hb & Hc & Hd).
    apply (clean_step (String a (String b (String c (String d ""))))
       (String a (String b (String c (String d "")))) s3); auto.
    + apply clean_4; [done|done|constructor].
    + apply (literal_app _ _ _ _ (literal_high a Ha')). apply (literal_app (String b "") _ (String b "")).
      * by apply literal_high.
      * apply (literal_app (String c "") _ (String c "")); by apply literal_high.
    + intros y Hy. by apply clean_4.
Qed.

(** A string leaf comes back exactly when its string is clean; otherwise Unmarshal fails. *)
Lemma string_leaf_lost x ts s :
  ~ clean L x -> marshal L (TLeaf (PStr x) ts) = Ok s -> unmarshal L s = Err.
Proof.
  intros Hx H. destruct (quote_unclean x) as [?|Hsp]; [done|].
  unfold marshal in H.
  assert (E : forall f r, parse_val L (S f) (String dquote (quote_body L x +++ String dquote r)) = PErr).
  { intros f r. rewrite parse_val_S. rewrite skip_ws_id by done. cbv zeta. cbn [peek].
    do 3 rewrite decide_False by done. rewrite decide_True by done.
    unfold parse_primitive. rewrite skip_ws_id by done. cbv zeta. cbn [peek]. rewrite decide_True by done.
    unfold parse_string. rewrite (expect_ok dquote _ (quote_body L x +++ String dquote r)) by done.
    cbn [pbind]. by rewrite spoiled_parse. }
  assert (Ht : exists r, marshal_val L CTop (TLeaf (PStr x) ts)
     = Ok (String dquote (quote_body L x +++ String dquote r))).
  { eexists. cbn [marshal_val leaf_text prim_text]. unfold quote.
    rewrite !scons_app, !sapp_assoc, !scons_app. reflexivity. }
  destruct Ht as [r Ht]. rewrite Ht in H. injection H as <-.
  unfold unmarshal. rewrite skip_ws_id by done. unfold parse_fuel.
  match goal with |- context [parse_val L ?f _] => destruct f as [|f'] eqn:Ef end; [lia|].
  by rewrite E.
Qed.

(** *** The statements of [Prop_Text.v] *)
Lemma text_roundtrip0 t t' :
  doc_ok L t -> same_doc t t' ->
  exists s t'', marshal L t' = Ok s ∧ unmarshal L s = Ok t'' ∧ same_doc t'' (norm_ts t).
Proof.
  intros H1 H2. destruct (text_roundtrip t t' "" H1 H2) as (s & t'' & A & B & C).
  rewrite sapp_nil_r in B. eauto.
Qed.
Lemma text_roundtrip_exact t t' :
  doc_ok L t -> every_stamp (fun ts => -1 <= ts) t -> same_doc t t' ->
  exists s t'', marshal L t' = Ok s ∧ unmarshal L s = Ok t'' ∧ same_doc t'' t.
Proof.
  intros H1 Hs H2. destruct (text_roundtrip0 t t' H1 H2) as (s & t'' & A & B & C).
  rewrite norm_ts_id in C by done. eauto.
Qed.
Lemma indent_roundtrip_exact t t' p i :
  doc_ok L t -> every_stamp (fun ts => -1 <= ts) t -> same_doc t t' -> blank p -> blank i ->
  exists t'', unmarshal L (marshal_indent L t' p i) = Ok t'' ∧ same_doc t'' t.
Proof.
  intros H1 Hs H2 Hp Hi. destruct (text_indent_roundtrip t t' p i "" H1 H2 Hp Hi) as (t'' & A & B).
  rewrite norm_ts_id in B by done. rewrite sapp_nil_r in A. eauto.
Qed.
Lemma no_null_no_panic s :
  ~ (exists a b, s = a +++ "null" +++ b) -> unmarshal L s ≠ Panic.
Proof. intros H E. by apply unmarshal_panic_null in E. Qed.
Lemma trailing_after_marshal t s rest :
  doc_ok L t -> marshal L t = Ok s -> unmarshal L (s +++ rest) = Ok (norm_ts t).
Proof. intros H E. destruct (marshal_roundtrip L t rest H) as (s' & A & B). congruence. Qed.
Lemma text_injective_exact t1 t2 s :
  doc_ok L t1 -> doc_ok L t2 ->
  every_stamp (fun ts => -1 <= ts) t1 -> every_stamp (fun ts => -1 <= ts) t2 ->
  marshal L t1 = Ok s -> marshal L t2 = Ok s -> t1 = t2.
Proof.
  intros A B C D E F. rewrite <- (norm_ts_id t1), <- (norm_ts_id t2) by done.
  by eapply text_injective.
Qed.
Lemma grammar_unambiguous s t t' : doc_text L t s -> doc_text L t' s -> t = t'.
Proof. intros A B. apply unmarshal_complete in A, B. congruence. Qed.
End lemmas.
