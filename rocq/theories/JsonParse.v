(** The reader of JSON texts accepts exactly the grammar. *)
From Verif Require Import Base BaseSpec BaseLemmas BaseSpecLemmas F64 Tson Serial TextSpec Heap Patch Json JsonSpec JsonLemmas JsonChars.
From Coq Require Import Lia.

Scheme value_ind' := Minimality for value_text Sort Prop
with elems_ind' := Minimality for elems_text Sort Prop
with members_ind' := Minimality for members_text Sort Prop.
Combined Scheme text_ind from value_ind', elems_ind', members_ind'.

(** ** How values begin *)
Definition starts (f : ascii -> bool) (s : string) : Prop := exists a r, s = String a r ∧ f a = true.
Definition num_first (a : ascii) : bool := is_digit a || bool_decide (a = "-"%char).
Definition value_first (a : ascii) : bool :=
  num_first a || bool_decide (a = dquote) || bool_decide (a = "["%char) || bool_decide (a = "{"%char)
  || bool_decide (a = "n"%char) || bool_decide (a = "t"%char) || bool_decide (a = "f"%char).
Lemma number_first s : number_text s -> starts num_first s.
Proof.
  intros [g i f e Hg Hi Hf He]. unfold num_first. destruct Hg as [-> | ->].
  - cbn [String.append]. destruct Hi as [|d Hd _]; [by eexists _, _|].
    destruct (some_digits_head d (f +++ e) Hd) as (a & d' & -> & Ha). eexists _, _. split; [done|]. by rewrite Ha.
  - by eexists _, _.
Qed.
Lemma value_starts s t : value_text s t -> starts value_first s.
Proof.
  destruct 1 as [| | |s H|s v (c & -> & H)|w H|s l H|w H|s m H]; try by eexists _, _.
  apply number_first in H as (a & r & -> & H). eexists _, _. split; [done|]. unfold value_first. by rewrite H.
Qed.
Lemma value_first_out a : value_first a = true ->
  is_ws a = false ∧ a ≠ "]"%char ∧ a ≠ "}"%char ∧ a ≠ ","%char ∧ a ≠ ":"%char.
Proof.
  destruct a as [[] [] [] [] [] [] [] []]; vm_compute; intros H; try discriminate H; done.
Qed.
Lemma num_first_out a : num_first a = true ->
  a ≠ "{"%char ∧ a ≠ "["%char ∧ a ≠ dquote ∧ a ≠ "n"%char ∧ a ≠ "t"%char ∧ a ≠ "f"%char.
Proof.
  destruct a as [[] [] [] [] [] [] [] []]; vm_compute; intros H; try discriminate H; done.
Qed.
Lemma skip_value s t rest : value_text s t -> skip_ws (s +++ rest) = s +++ rest.
Proof.
  intros (a & r & -> & Ha)%value_starts. cbn [String.append]. apply skip_stop. by apply value_first_out in Ha as [? _].
Qed.
(** What follows a value. *)
Definition next_ok (s : string) : Prop :=
  match s with String a _ => is_ws a = true ∨ a = ","%char ∨ a = "]"%char ∨ a = "}"%char | "" => True end.
Lemma next_stops s : next_ok s -> stops num_next s.
Proof.
  destruct s as [|a s]; [done|]. cbn [next_ok stops]. intros [H|[-> |[-> | ->]]]; [|done..].
  revert H. destruct a as [[] [] [] [] [] [] [] []]; vm_compute; intros H; try discriminate H; done.
Qed.
Lemma next_white w s : white w -> next_ok s -> next_ok (w +++ s).
Proof. destruct 1 as [|a w Ha _]; [done|]. intros _. left. by apply is_ws_spec. Qed.
Lemma after_app p s : after p (p +++ s) = Some s.
Proof. induction p as [|a p IH]; [by destruct s|]. cbn [after String.append]. by rewrite decide_True. Qed.
Lemma after_sound p s r : after p s = Some r -> s = p +++ r.
Proof.
  revert s. induction p as [|a p IH]; intros s; cbn [after]; [by destruct s; intros [= <-]|].
  destruct s as [|b s]; [done|]. case_decide; [|done]. subst. intros H%IH. by subst.
Qed.
Lemma after_head p a s b r : p = String b r -> a ≠ b -> after p (String a s) = None.
Proof. intros -> H. cbn [after]. by rewrite decide_False. Qed.
Lemma white_len w s : (slength s <= slength (w +++ s))%nat.
Proof. induction w; cbn [String.append slength]; lia. Qed.
Lemma white_tail w a s : white w -> is_ws a = false -> skip_ws (w +++ String a s) = String a s.
Proof. intros H Ha. rewrite skip_white by done. by apply skip_stop. Qed.
Lemma str_text_shape k n : string_text k n -> exists c, chars c n ∧ forall rest, k +++ rest = String dquote (c +++ String dquote rest).
Proof. intros (c & -> & Hc). exists c. split; [done|]. intros rest. rewrite !sapp_assoc. done. Qed.

(** ** Completeness *)
Lemma scan_complete :
  (forall s t, value_text s t -> forall n rest, (slength s < n)%nat -> next_ok rest ->
     scan_value n (s +++ rest) = Some (t, rest)) ∧
  (forall s l, elems_text s l -> forall n rest, (S (slength s) < n)%nat ->
     (forall a r, skip_ws (s +++ "]" +++ rest) = String a r -> a ≠ "]"%char) ∧
     scan_elems n (skip_ws (s +++ "]" +++ rest)) = Some (l, rest)) ∧
  (forall s m, members_text s m -> forall n rest, (S (slength s) < n)%nat ->
     (forall a r, skip_ws (s +++ "}" +++ rest) = String a r -> a ≠ "}"%char) ∧
     scan_members n (skip_ws (s +++ "}" +++ rest)) = Some (m, rest)).
Proof.
  apply text_ind.
  - intros [|n] rest Hn _; [lia|]. done.
  - intros [|n] rest Hn _; [lia|]. done.
  - intros [|n] rest Hn _; [lia|]. done.
  - intros s Hs [|n] rest Hn Hr; [lia|]. pose proof (number_first s Hs) as (a & r & E & Ha).
    apply num_first_out in Ha as (H1 & H2 & H3 & H4 & H5 & H6).
    pose proof (scan_number_complete s rest Hs (next_stops _ Hr)) as Hnum.
    rewrite E in Hnum |- *. cbn [String.append scan_value] in Hnum |- *.
    rewrite (decide_False (P := a = "{"%char)), (decide_False (P := a = "["%char)), (decide_False (P := a = dquote)) by done.
    rewrite (after_head "null" a _ _ _ eq_refl) by done.
    rewrite (after_head "true" a _ _ _ eq_refl) by done.
    rewrite (after_head "false" a _ _ _ eq_refl) by done.
    by rewrite Hnum.
  - intros s v Hs [|n] rest Hn _; [lia|]. apply str_text_shape in Hs as (c & Hc & ->).
    cbn [scan_value]. rewrite decide_False by done. rewrite decide_False by done. rewrite decide_True by done.
    by rewrite scan_chars_complete with (v := v).
  - intros w Hw [|n] rest Hn _; [lia|]. rewrite !sapp_assoc. cbn [String.append scan_value].
    rewrite decide_False by done. rewrite decide_True by done. rewrite white_tail by done. by rewrite decide_True.
  - intros s l _ IH [|n] rest Hn _; [lia|]. rewrite !sapp_assoc. cbn [String.append scan_value].
    rewrite decide_False by done. rewrite decide_True by done.
    cbn [String.append slength] in Hn. rewrite slength_app in Hn. cbn [slength String.append] in Hn.
    destruct (IH n rest) as [Hhd E]; [lia|]. cbn [String.append] in Hhd, E.
    destruct (skip_ws (s +++ String "]" rest)) as [|b s2] eqn:Es.
    + destruct n; [lia|]. cbn [scan_elems] in E. destruct n; done.
    + rewrite decide_False by (by eapply Hhd). by rewrite E.
  - intros w Hw [|n] rest Hn _; [lia|]. rewrite !sapp_assoc. cbn [String.append scan_value].
    rewrite decide_True by done. rewrite white_tail by done. by rewrite decide_True.
  - intros s l _ IH [|n] rest Hn _; [lia|]. rewrite !sapp_assoc. cbn [String.append scan_value].
    rewrite decide_True by done.
    cbn [String.append slength] in Hn. rewrite slength_app in Hn. cbn [slength String.append] in Hn.
    destruct (IH n rest) as [Hhd E]; [lia|]. cbn [String.append] in Hhd, E.
    destruct (skip_ws (s +++ String "}" rest)) as [|b s2] eqn:Es.
    + destruct n; done.
    + rewrite decide_False by (by eapply Hhd). by rewrite E.
  - intros w s w' t Hw Hs IH Hw' n rest Hn. rewrite !sapp_assoc. rewrite skip_white by done.
    rewrite (skip_value s t) by done. split.
    { apply value_starts in Hs as (a & r & -> & Ha). intros a' r' [= <- _]. by apply value_first_out in Ha as (_ & ? & _). }
    destruct n as [|n]; [lia|]. rewrite !slength_app in Hn. cbn [slength String.append] in Hn. cbn [scan_elems].
    rewrite IH; [|lia|apply next_white; [done|cbn; auto]].
    cbn [String.append]. rewrite white_tail by done. by rewrite decide_True.
  - intros w s w' t r l Hw Hs IH Hw' _ IHr n rest Hn. rewrite !sapp_assoc. rewrite skip_white by done.
    rewrite (skip_value s t) by done. split.
    { apply value_starts in Hs as (a & r' & -> & Ha). intros a' r'' [= <- _]. by apply value_first_out in Ha as (_ & ? & _). }
    destruct n as [|n]; [lia|]. rewrite !slength_app in Hn. cbn [slength String.append] in Hn. cbn [scan_elems].
    rewrite IH; [|lia|apply next_white; [done|cbn; auto]].
    cbn [String.append]. rewrite white_tail by done. rewrite decide_False by done. rewrite decide_True by done.
    destruct (IHr n rest) as [_ E]; [lia|]. cbn [String.append] in E. by rewrite E.
  - intros w k nm w1 w2 s w3 t Hw Hk Hw1 Hw2 Hs IH Hw3 n rest Hn. rewrite !sapp_assoc. rewrite skip_white by done.
    rewrite !slength_app in Hn. cbn [slength String.append] in Hn.
    apply str_text_shape in Hk as (c & Hc & ->). rewrite skip_stop by done. split; [by intros a r [= <- _]|].
    destruct n as [|n]; [lia|]. cbn [scan_members]. rewrite decide_True by done.
    rewrite (scan_chars_complete _ _ _ Hc). cbn [String.append]. rewrite white_tail by done. rewrite decide_True by done.
    rewrite skip_white by done. rewrite (skip_value s t) by done.
    rewrite IH; [|lia|apply next_white; [done|cbn; auto]].
    rewrite white_tail by done. by rewrite decide_True.
  - intros w k nm w1 w2 s w3 t r m Hw Hk Hw1 Hw2 Hs IH Hw3 _ IHr n rest Hn. rewrite !sapp_assoc. rewrite skip_white by done.
    rewrite !slength_app in Hn. cbn [slength String.append] in Hn.
    apply str_text_shape in Hk as (c & Hc & ->). rewrite skip_stop by done. split; [by intros a r' [= <- _]|].
    destruct n as [|n]; [lia|]. cbn [scan_members]. rewrite decide_True by done.
    rewrite (scan_chars_complete _ _ _ Hc). cbn [String.append]. rewrite white_tail by done. rewrite decide_True by done.
    rewrite skip_white by done. rewrite (skip_value s t) by done.
    rewrite IH; [|lia|apply next_white; [done|cbn; auto]].
    rewrite white_tail by done. rewrite decide_False by done. rewrite decide_True by done.
    destruct (IHr n rest) as [_ E]; [lia|]. cbn [String.append] in E. by rewrite E.
Qed.

(** ** Soundness *)
Lemma white_app w w' : white w -> white w' -> white (w +++ w').
Proof. induction 1; [done|]. intros. constructor; auto. Qed.
Lemma scan_sound n :
  (forall s t r, scan_value n s = Some (t, r) -> exists u, s = u +++ r ∧ value_text u t) ∧
  (forall s l r, scan_elems n s = Some (l, r) -> exists u, s = u +++ "]" +++ r ∧ elems_text u l) ∧
  (forall s m r, scan_members n s = Some (m, r) -> exists u, s = u +++ "}" +++ r ∧ members_text u m).
Proof.
  induction n as [|n (IHv & IHe & IHm)]; [done|]. split; [|split].
  - intros s t r H. cbn [scan_value] in H. destruct s as [|a s1]; [done|].
    destruct (decide (a = "{"%char)) as [->|_].
    { destruct (skip_sound s1) as (w & Hw & Es). destruct (skip_ws s1) as [|b s2]; [done|].
      destruct (decide (b = "}"%char)) as [->|_].
      - injection H as <- <-. subst s1. exists ("{" +++ w +++ "}"). split; [by rewrite !sapp_assoc|by constructor].
      - destruct (scan_members n (String b s2)) as [[m r']|] eqn:E; [|done]. injection H as <- <-.
        apply IHm in E as (u & Eu & Hu). rewrite Eu in Es. subst s1. exists ("{" +++ (w +++ u) +++ "}").
        split; [by rewrite !sapp_assoc|]. apply vt_obj.
        destruct Hu as [w0 k nm w1 w2 s w3 t Hw0|w0 k nm w1 w2 s w3 t r m Hw0];
          rewrite <- !(sapp_assoc w); constructor; try done; by apply white_app. }
    destruct (decide (a = "["%char)) as [->|_].
    { destruct (skip_sound s1) as (w & Hw & Es). destruct (skip_ws s1) as [|b s2]; [done|].
      destruct (decide (b = "]"%char)) as [->|_].
      - injection H as <- <-. subst s1. exists ("[" +++ w +++ "]"). split; [by rewrite !sapp_assoc|by constructor].
      - destruct (scan_elems n (String b s2)) as [[m r']|] eqn:E; [|done]. injection H as <- <-.
        apply IHe in E as (u & Eu & Hu). rewrite Eu in Es. subst s1. exists ("[" +++ (w +++ u) +++ "]").
        split; [by rewrite !sapp_assoc|]. apply vt_arr.
        destruct Hu as [w0 s w' t Hw0|w0 s w' t r m Hw0];
          rewrite <- !(sapp_assoc w); constructor; try done; by apply white_app. }
    destruct (decide (a = dquote)) as [->|_].
    { destruct (scan_chars s1) as [[v r']|] eqn:E; [|done]. injection H as <- <-.
      apply scan_chars_sound in E as (c & -> & Hc). exists (bytes [34]%N +++ c +++ bytes [34]%N).
      split; [by rewrite !sapp_assoc|]. apply vt_str. by exists c. }
    destruct (after "null" (String a s1)) as [r'|] eqn:E1.
    { injection H as <- <-. apply after_sound in E1. rewrite E1. exists "null". split; [done|constructor]. }
    destruct (after "true" (String a s1)) as [r'|] eqn:E2.
    { injection H as <- <-. apply after_sound in E2. rewrite E2. exists "true". split; [done|constructor]. }
    destruct (after "false" (String a s1)) as [r'|] eqn:E3.
    { injection H as <- <-. apply after_sound in E3. rewrite E3. exists "false". split; [done|constructor]. }
    destruct (scan_number (String a s1)) as [[lit r']|] eqn:E4; [|done]. injection H as <- <-.
    apply scan_number_sound in E4 as [E Hl]. exists lit. split; [done|by constructor].
  - intros s l r H. cbn [scan_elems] in H. destruct (scan_value n s) as [[t r']|] eqn:E; [|done].
    apply IHv in E as (u & -> & Hu). destruct (skip_sound r') as (w & Hw & Er). destruct (skip_ws r') as [|b r1]; [done|].
    subst r'. destruct (decide (b = "]"%char)) as [->|_].
    { injection H as <- <-. exists ("" +++ u +++ w). split; [by rewrite !sapp_assoc|]. constructor; [constructor|done..]. }
    destruct (decide (b = ","%char)) as [->|_]; [|done].
    destruct (scan_elems n (skip_ws r1)) as [[l' r2]|] eqn:E; [|done]. injection H as <- <-.
    apply IHe in E as (u' & Eu & Hu'). destruct (skip_sound r1) as (w1 & Hw1 & Er). rewrite Eu in Er. subst r1.
    exists ("" +++ u +++ w +++ "," +++ (w1 +++ u')). split; [by rewrite !sapp_assoc|].
    constructor; [constructor|done|done|].
    destruct Hu' as [w0 s w' t' Hw0|w0 s w' t' r m Hw0];
          rewrite <- !(sapp_assoc w1); constructor; try done; by apply white_app.
  - intros s m r H. cbn [scan_members] in H. destruct s as [|a s1]; [done|]. destruct (decide (a = dquote)) as [->|_]; [|done].
    destruct (scan_chars s1) as [[k r']|] eqn:E; [|done]. apply scan_chars_sound in E as (c & -> & Hc).
    destruct (skip_sound r') as (w1 & Hw1 & Er). destruct (skip_ws r') as [|c1 r1]; [done|]. subst r'.
    destruct (decide (c1 = ":"%char)) as [->|_]; [|done].
    destruct (skip_sound r1) as (w2 & Hw2 & Er).
    destruct (scan_value n (skip_ws r1)) as [[t r2]|] eqn:E; [|done]. apply IHv in E as (u & Eu & Hu). rewrite Eu in Er. subst r1.
    destruct (skip_sound r2) as (w3 & Hw3 & Er). destruct (skip_ws r2) as [|b r3]; [done|]. subst r2.
    assert (Hk : string_text (bytes [34]%N +++ c +++ bytes [34]%N) k) by (by exists c).
    destruct (decide (b = "}"%char)) as [->|_].
    { injection H as <- <-. exists ("" +++ (bytes [34]%N +++ c +++ bytes [34]%N) +++ w1 +++ ":" +++ w2 +++ u +++ w3).
      split; [rewrite !sapp_assoc; cbn [String.append bytes foldr]; by rewrite ?sapp_assoc|].
      constructor; try done. constructor. }
    destruct (decide (b = ","%char)) as [->|_]; [|done].
    destruct (scan_members n (skip_ws r3)) as [[m' r4]|] eqn:E; [|done]. injection H as <- <-.
    apply IHm in E as (u' & Eu' & Hu'). destruct (skip_sound r3) as (w4 & Hw4 & Er). rewrite Eu' in Er. subst r3.
    exists ("" +++ (bytes [34]%N +++ c +++ bytes [34]%N) +++ w1 +++ ":" +++ w2 +++ u +++ w3 +++ "," +++ (w4 +++ u')).
    split; [rewrite !sapp_assoc; cbn [String.append bytes foldr]; by rewrite ?sapp_assoc|].
    constructor; try done; [constructor|].
    destruct Hu' as [w0 k' nm w1' w2' s w3' t' Hw0|w0 k' nm w1' w2' s w3' t' r m Hw0];
          rewrite <- !(sapp_assoc w4); constructor; try done; by apply white_app.
Qed.
Lemma scan_text s t : scan s = Some t <-> json_text s t.
Proof.
  unfold scan. split.
  - destruct (skip_sound s) as (w & Hw & Es). destruct (scan_value _ _) as [[t' r]|] eqn:E; [|done].
    apply scan_sound in E as (u & Eu & Hu). destruct (skip_sound r) as (w' & Hw' & Er).
    destruct (skip_ws r); [|done]. intros [= <-]. rewrite Es, Eu, Er, sapp_nil_r. by constructor.
  - intros [w u w' t' Hw Hu Hw']. rewrite skip_white by done. rewrite (skip_value u t') by done.
    rewrite (proj1 scan_complete u t' Hu).
    + replace (skip_ws w') with ""; [done|]. rewrite <- (sapp_nil_r w'). by rewrite skip_white.
    + rewrite !slength_app. lia.
    + rewrite <- (sapp_nil_r w'). by apply next_white.
Qed.
Lemma json_text_det s t t' : json_text s t -> json_text s t' -> t = t'.
Proof. rewrite <- !scan_text. congruence. Qed.
