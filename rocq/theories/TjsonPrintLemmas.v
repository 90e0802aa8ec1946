(** The listing of a temporal JSON document can be read back. *)
From stdpp Require Import pretty.
From Verif Require Import Base BaseSpec F64 Tson Serial Tjson TjsonSpec TjsonPrint TjsonPrintSpec BaseLemmas BaseSpecLemmas TjsonLemmas.
From Verif Require ListingLemmas DiffApply VssRunLemmas.
From Coq Require Import Lia.

(** ** Lines *)
Lemma cons_split {A} (a b : A) l l' : a :: l = b :: l' -> a = b ∧ l = l'.
Proof. by intros [= -> ->]. Qed.
Fixpoint unlines (ls : list string) : string := match ls with [] => "" | l :: ls' => put_line l +++ unlines ls' end.
Lemma unlines_app a b : unlines (a ++ b) = unlines a +++ unlines b.
Proof. induction a as [|l a IH]; [done|]. cbn [app unlines]. by rewrite IH, sapp_assoc. Qed.
Lemma unlines_cons l ls : unlines (l :: ls) = l +++ String feed (unlines ls).
Proof. cbn [unlines]. unfold put_line. rewrite sapp_assoc. done. Qed.
Lemma unlines_concat ls : unlines ls = String.concat "" (map (fun l => l +++ String feed "") ls).
Proof.
  induction ls as [|l ls IH]; [done|]. cbn [unlines map]. unfold put_line. change newline with (String feed "").
  rewrite IH. destruct ls as [|l' ls]; [cbn [map String.concat]; apply sapp_nil_r|done].
Qed.
Lemma unlines_inj ls : forall ls', Forall (fun l => contains feed l = false) ls -> Forall (fun l => contains feed l = false) ls' -> unlines ls = unlines ls' -> ls = ls'.
Proof.
  induction ls as [|l ls IH]; intros [|l' ls'] H H' E; [done|..].
  - rewrite unlines_cons in E. by destruct l'.
  - rewrite unlines_cons in E. by destruct l.
  - rewrite !unlines_cons in E. inversion H as [|? ? H1 H2]; subst. inversion H' as [|? ? H1' H2']; subst.
    apply ListingLemmas.first_unique in E as [-> E]; [|done..]. f_equal. by apply IH.
Qed.
Lemma unlines_end ls : unlines ls = "" ∨ exists a, unlines ls = a +++ String feed "".
Proof.
  induction ls as [|l ls IH]; [by left|]. right. cbn [unlines]. unfold put_line. change newline with (String feed "").
  destruct IH as [->|[a ->]]; [exists l; by rewrite sapp_nil_r|]. exists ((l +++ String feed "") +++ a). by rewrite !sapp_assoc.
Qed.
Lemma unlines_rows a b c : rows (unlines (a ++ b ++ c)) b.
Proof. exists (unlines a), (unlines c). rewrite !unlines_app, (unlines_concat b). split; [done|]. apply unlines_end. Qed.

(** ** Blanks *)
Fixpoint sp (n : nat) : string := match n with O => "" | S n' => String " " (sp n') end.
Lemma sp_add n m : sp (n + m) = sp n +++ sp m.
Proof. induction n as [|n IH]; [done|]. cbn [sp plus append]. by rewrite IH. Qed.
Lemma sp_margin n : margin n = sp (4 * n).
Proof. induction n as [|n IH]; [done|]. cbn [margin]. rewrite IH. replace (4 * S n)%nat with (4 + 4 * n)%nat by lia. by rewrite sp_add. Qed.
Definition low (n : nat) (r : list string) : Prop := match r with [] => True | l :: _ => forall x, l ≠ sp n +++ x end.
Lemma low_mono n m r : (n <= m)%nat -> low n r -> low m r.
Proof.
  intros L H. destruct r as [|l r]; [done|]. intros x ->. apply (H (sp (m - n) +++ x)).
  rewrite <- sapp_assoc, <- sp_add. by replace (n + (m - n))%nat with m by lia.
Qed.
Lemma low_line n m c s r : (n < m)%nat -> c ≠ " "%char -> low m ((sp n +++ String c s) :: r).
Proof.
  intros L Hc x E. replace m with (n + S (m - n - 1))%nat in E by lia. rewrite sp_add, sapp_assoc in E.
  apply sapp_inv_head in E. cbn in E. by injection E.
Qed.

(** ** The listing as lines *)
Section lines.
Context (fmtv : json -> string).
Definition iline (n : nat) (k p : string) : string := sp n +++ "Item: " +++ k +++ " (Timestamp: " +++ p +++ ")".
Fixpoint vlines (n i : nat) (vs : list (string * json)) : list string :=
  match vs with
  | [] => []
  | (p, d) :: vs' => (sp n +++ "    [" +++ dec_text (N.of_nat i) +++ "] Timestamp: " +++ p) :: (sp n +++ "        Data: " +++ fmtv d) :: vlines n (S i) vs'
  end.
Fixpoint klines (n : nat) (k : string) (c : titem) : list string :=
  let 'TItem p vs cs := c in
  iline n k p ::
  match vs with [] => [] | _ => (sp n +++ "  Versions:") :: vlines n 0 vs end ++
  match cs with
  | [] => []
  | _ => (sp n +++ "  Children:") ::
      (fix go (cs : list (string * titem)) : list string := match cs with [] => [] | (k', c') :: cs' => klines (n + 4) k' c' ++ go cs' end) cs
  end.
Fixpoint kslines (n : nat) (cs : list (string * titem)) : list string :=
  match cs with [] => [] | (k, c) :: cs' => klines n k c ++ kslines n cs' end.
Definition clines (n : nat) (cs : list (string * titem)) : list string :=
  match cs with [] => [] | _ => (sp n +++ "  Children:") :: kslines (n + 4) cs end.
Definition vhead (n : nat) (vs : list (string * json)) : list string :=
  match vs with [] => [] | _ => (sp n +++ "  Versions:") :: vlines n 0 vs end.
Lemma klines_eq n k p vs cs : klines n k (TItem p vs cs) = iline n k p :: vhead n vs ++ clines n cs.
Proof.
  assert (G : forall l, (fix go (cs : list (string * titem)) : list string := match cs with [] => [] | (k', c') :: cs' => klines (n + 4) k' c' ++ go cs' end) l = kslines (n + 4) l).
  { clear. intros l. induction l as [|[k' c'] l IH]; [done|]. cbn [kslines]. by rewrite IH. }
  cbn [klines]. rewrite G. done.
Qed.
Fixpoint dlines (d : tdoc) : list string :=
  match d with
  | [] => []
  | (k, TItem p vs cs) :: d' => iline 0 k p :: "  Versions:" :: vlines 0 0 vs ++ clines 0 cs ++ "" :: dlines d'
  end.
Definition lines (d : tdoc) : list string := "TJSON Document:" :: "==============" :: dlines d.

Lemma vlines_text n vs : forall i, version_lines fmtv (sp n) i vs = unlines (vlines n i vs).
Proof. induction vs as [|[p d] vs IH]; intros i; [done|]. cbn [version_lines vlines unlines]. by rewrite IH. Qed.
Lemma print_child_eq ind k p vs cs : print_child fmtv ind k (TItem p vs cs) =
  item_line ind k p +++ match vs with [] => "" | _ => put_line (ind +++ "  Versions:") +++ version_lines fmtv ind 0 vs end +++
  match cs with [] => "" | _ => put_line (ind +++ "  Children:") +++ print_children fmtv (ind +++ "    ") cs end.
Proof.
  assert (G : forall l, (fix go (cs : list (string * titem)) : string := match cs with [] => "" | (k', c') :: cs' => print_child fmtv (ind +++ "    ") k' c' +++ go cs' end) l
    = print_children fmtv (ind +++ "    ") l).
  { clear. intros l. induction l as [|[k' c'] l IH]; [done|]. cbn [print_children]. by rewrite IH. }
  cbn [print_child]. rewrite G. done.
Qed.
Lemma klines_text : forall c n k, print_child fmtv (sp n) k c = unlines (klines n k c).
Proof.
  fix IH 1. intros [p vs cs] n k.
  assert (K : print_children fmtv (sp (n + 4)) cs = unlines (kslines (n + 4) cs)).
  { revert cs. fix go 1. intros [|[k' c'] cs]; [done|]. cbn [print_children kslines]. by rewrite unlines_app, IH, go. }
  clear IH. rewrite print_child_eq, klines_eq. cbn [unlines]. unfold item_line, iline. f_equal.
  rewrite unlines_app. f_equal.
  - destruct vs as [|v vs]; [done|]. rewrite vlines_text. done.
  - rewrite sp_add in K. cbn [sp] in K. rewrite K. by destruct cs.
Qed.
Lemma kslines_text n cs : print_children fmtv (sp n) cs = unlines (kslines n cs).
Proof. induction cs as [|[k c] cs IH]; [done|]. cbn [print_children kslines]. by rewrite unlines_app, IH, klines_text. Qed.
Lemma lines_text d : pretty_print fmtv d = unlines (lines d).
Proof.
  unfold pretty_print, lines. cbn [unlines]. do 2 f_equal. induction d as [|[k [p vs cs]] d IH]; [done|].
  cbn [print_items dlines unlines]. rewrite IH, (vlines_text 0), !unlines_app. f_equal. f_equal. f_equal.
  assert (E : match cs with [] => "" | _ :: _ => put_line "  Children:" +++ print_children fmtv "    " cs end = unlines (clines 0 cs)).
  { destruct cs as [|c cs]; [done|]. rewrite (kslines_text 4). done. }
  rewrite E. done.
Qed.

(** ** Reading the lines *)
Lemma item_inj n k p k' p' : contains " " p = false -> contains " " p' = false -> iline n k p = iline n k' p' -> k = k' ∧ p = p'.
Proof.
  unfold iline. intros H H' E%sapp_inv_head%(sapp_inv_head "Item: ").
  rewrite <- !sapp_assoc in E. apply sapp_inv_tail in E.
  assert (G : forall a a' b b', contains " " b = false -> contains " " b' = false -> a +++ String " " b = a' +++ String " " b' -> a = a' ∧ b = b').
  { clear. induction a as [|x a IH]; intros [|x' a'] b b' H H' E; cbn [append] in E.
    - by injection E.
    - injection E as <- ->. rewrite contains_app in H. cbn in H. by rewrite orb_true_r in H.
    - injection E as -> <-. rewrite contains_app in H'. cbn in H'. by rewrite orb_true_r in H'.
    - injection E as -> E. by destruct (IH _ _ _ H H' E) as [-> ->]. }
  assert (S : forall k p, (k +++ " (Timestamp: ") +++ p = (k +++ " (Timestamp:") +++ String " " p).
  { intros. rewrite !sapp_assoc. done. }
  rewrite !S in E. apply G in E as [E ->]; [|done..]. by apply sapp_inv_tail in E.
Qed.
Notation vlike := (fun v v' : string * json => fst v = fst v' ∧ fmtv (snd v) = fmtv (snd v')).
Notation clike := (fun c c' : string * titem => fst c = fst c' ∧ like fmtv (snd c) (snd c')).
Lemma vlines_inj n vs : forall i vs' r r', low (n + 4) r -> low (n + 4) r' -> vlines n i vs ++ r = vlines n i vs' ++ r' -> Forall2 vlike vs vs' ∧ r = r'.
Proof.
  assert (D : forall i p vs r r', low (n + 4) r -> r = vlines n i (p :: vs) ++ r' -> False).
  { intros i [p d] vs0 r r' L ->. cbn in L. apply (L ("[" +++ dec_text (N.of_nat i) +++ "] Timestamp: " +++ p)).
    rewrite sp_add, sapp_assoc. done. }
  induction vs as [|[p d] vs IH]; intros i [|[p' d'] vs'] r r' L L' E.
  - by split.
  - destruct (D i (p', d') vs' r r' L E).
  - destruct (D i (p, d) vs r' r L' (eq_sym E)).
  - cbn [vlines app] in E. injection E as E1 E2 E3. apply sapp_inv_head in E1, E2.
    apply (sapp_inv_head "    [") in E1. apply sapp_inv_head in E1. apply (sapp_inv_head "] Timestamp: ") in E1.
    apply (sapp_inv_head "        Data: ") in E2.
    destruct (IH _ _ _ _ L L' E3) as [F ->]. split; [|done]. by constructor.
Qed.
Lemma clines_low n cs r : low (n + 1) r -> low (n + 4) (clines n cs ++ r).
Proof.
  intros L. destruct cs as [|c cs]; [eapply low_mono; [|done]; lia|]. cbn [clines app].
  change (sp n +++ "  Children:") with (sp n +++ sp 2 +++ "Children:"). rewrite <- sapp_assoc, <- sp_add. apply low_line; [lia|done].
Qed.
Lemma head_ne n (b b' : string) r r' : low (n + 1) r -> r = (sp n +++ String " " b) :: r' -> False.
Proof. intros L ->. apply (L b). rewrite sp_add, sapp_assoc. done. Qed.
Lemma vhead_inj n vs vs' cs cs' r r' : low (n + 1) r -> low (n + 1) r' -> vhead n vs ++ clines n cs ++ r = vhead n vs' ++ clines n cs' ++ r' ->
  Forall2 vlike vs vs' ∧ clines n cs ++ r = clines n cs' ++ r'.
Proof.
  intros L L' E.
  assert (D : forall v vs cs r r', low (n + 1) r -> clines n cs ++ r = vhead n (v :: vs) ++ r' -> False).
  { clear. intros v vs cs r r' L E. cbn [vhead app] in E. destruct cs as [|c cs].
    - cbn in E. exact (head_ne n " Versions:" "" _ _ L E).
    - cbn [clines app] in E. injection E as E _. by apply sapp_inv_head in E. }
  destruct vs as [|v vs], vs' as [|v' vs'].
  - by split.
  - destruct (D v' vs' cs r _ L E).
  - destruct (D v vs cs' r' _ L' (eq_sym E)).
  - change ((sp n +++ "  Versions:") :: (vlines n 0 (v :: vs) ++ clines n cs ++ r) = (sp n +++ "  Versions:") :: (vlines n 0 (v' :: vs') ++ clines n cs' ++ r')) in E.
    apply (f_equal (@tl string)) in E. cbn [tl] in E. by apply (vlines_inj n (v :: vs) 0 (v' :: vs')) in E; [|apply clines_low..].
Qed.
Definition tight (c : titem) : Prop := forall n k k' c' r r', low (n + 1) r -> low (n + 1) r' ->
  listable fmtv c -> listable fmtv c' -> klines n k c ++ r = klines n k' c' ++ r' -> (k = k' ∧ like fmtv c c') ∧ r = r'.
Lemma kslines_inj n cs : Forall (fun c => tight (snd c)) cs -> forall cs' r r', low n r -> low n r' ->
  Forall (fun c => listable fmtv (snd c)) cs -> Forall (fun c => listable fmtv (snd c)) cs' ->
  kslines n cs ++ r = kslines n cs' ++ r' -> Forall2 clike cs cs' ∧ r = r'.
Proof.
  assert (D : forall k c cs r r', low n r -> r = kslines n ((k, c) :: cs) ++ r' -> False).
  { intros k [p vs cs0] cs1 r r' L ->. cbn [kslines] in L. rewrite klines_eq in L. by eapply L. }
  assert (K : forall cs r, low n r -> low (n + 1) (kslines n cs ++ r)).
  { intros [|[k [p vs cs0]] cs1] r L; [eapply low_mono; [|done]; lia|]. cbn [kslines]. rewrite klines_eq. cbn [app]. apply low_line; [lia|done]. }
  induction 1 as [|[k c] cs T Ts IH]; intros [|[k' c'] cs'] r r' L L' H H' E.
  - by split.
  - destruct (D k' c' cs' r r' L E).
  - destruct (D k c cs r' r L' (eq_sym E)).
  - cbn [kslines] in E. rewrite <- !app_assoc in E. inversion H as [|? ? H1 H2]; subst. inversion H' as [|? ? H1' H2']; subst.
    apply T in E as [E1 E2]; [|by apply K|by apply K|done..].
    destruct (IH _ _ _ L L' H2 H2' E2) as [F ->]. split; [|done]. by constructor.
Qed.
Lemma clines_inj n cs cs' r r' : Forall (fun c => tight (snd c)) cs -> low (n + 1) r -> low (n + 1) r' ->
  Forall (fun c => listable fmtv (snd c)) cs -> Forall (fun c => listable fmtv (snd c)) cs' ->
  clines n cs ++ r = clines n cs' ++ r' -> Forall2 clike cs cs' ∧ r = r'.
Proof.
  intros T L L' H H' E. destruct cs as [|c cs], cs' as [|c' cs']; cbn [clines app] in E.
  - by split.
  - by destruct (head_ne n " Children:" "" _ _ L E).
  - by destruct (head_ne n " Children:" "" _ _ L' (eq_sym E)).
  - apply (f_equal (@tl string)) in E. cbn [tl] in E. apply kslines_inj in E; [done|done|..|done|done]; (eapply low_mono; [|done]; lia).
Qed.
Lemma no_blank s : free_of [" "%char; feed] s -> contains " " s = false ∧ contains feed s = false.
Proof.
  induction 1 as [|a s H _ [IH1 IH2]]; [done|]. cbn [contains]. rewrite IH1, IH2, !orb_false_r.
  split; apply bool_decide_eq_false; intros ->; apply H; [by left|right; by left].
Qed.
Lemma kids_ok (P : string -> Prop) cs : Forall (fun c => P (fst c) ∧ listable fmtv (snd c)) cs -> Forall (fun c => listable fmtv (snd c)) cs.
Proof. intros H. eapply Forall_impl; [done|]. by intros c [_ ?]. Qed.
Lemma all_tight : forall c, tight c.
Proof.
  fix IH 1. intros [p vs cs] n k k' [p' vs' cs'] r r' L L' H H' E.
  assert (T : Forall (fun c => tight (snd c)) cs).
  { clear - IH. revert cs. fix go 1. intros [|[k c] cs]; [constructor|]. constructor; [apply IH|apply go]. }
  clear IH. rewrite !klines_eq in E. cbn [app] in E. apply cons_split in E as [E1 E2]. rewrite <- !app_assoc in E2.
  inversion H as [? ? ? Hp Hv Hc]; subst. inversion H' as [? ? ? Hp' Hv' Hc']; subst.
  apply item_inj in E1 as [-> ->]; [|by apply no_blank..].
  apply vhead_inj in E2 as [F E2]; [|done..]. apply clines_inj in E2 as [G ->]; [|done|done|done|by eapply kids_ok|by eapply kids_ok].
  split; [|done]. split; [done|]. by constructor.
Qed.
Lemma tights (cs : list (string * titem)) : Forall (fun c => tight (snd c)) cs.
Proof. induction cs as [|c cs IH]; constructor; [apply all_tight|done]. Qed.
Lemma dlines_inj d : forall d', listable_doc fmtv d -> listable_doc fmtv d' -> dlines d = dlines d' -> like_doc fmtv d d'.
Proof.
  induction d as [|[k [p vs cs]] d IH]; intros [|[k' [p' vs' cs']] d'] H H' E; [constructor|done|done|].
  inversion H as [|? ? [_ H1] H2]; subst. inversion H' as [|? ? [_ H1'] H2']; subst. cbn [snd] in H1, H1'.
  inversion H1 as [? ? ? Hp Hv Hc]; subst. inversion H1' as [? ? ? Hp' Hv' Hc']; subst.
  assert (B : forall ds, low (0 + 1) ("" :: ds)) by (intros ds x; done).
  cbn [dlines] in E. apply cons_split in E as [E1 E2]. apply cons_split in E2 as [_ E2]. apply item_inj in E1 as [-> ->]; [|by apply no_blank..].
  apply vlines_inj in E2 as [F E2]; [|by apply clines_low..].
  apply clines_inj in E2 as [G E2]; [|apply tights|done|done|by eapply kids_ok|by eapply kids_ok].
  apply cons_split in E2 as [_ E2]. constructor; [|by apply IH]. split; [done|]. by constructor.
Qed.
(** ** Lines contain no line feed *)
Notation clean := (Forall (fun l : string => contains feed l = false)).
Lemma sp_clean n : contains feed (sp n) = false.
Proof. induction n as [|n IH]; [done|]. cbn [sp contains]. by rewrite IH. Qed.
Lemma dec_clean n : contains feed (dec_text n) = false.
Proof. apply DiffApply.digits_no; [done|apply dec_text_spec]. Qed.
Lemma vlines_clean n vs : forall i, Forall (fun v => free_of [" "%char; feed] (fst v) ∧ free_of [feed] (fmtv (snd v))) vs -> clean (vlines n i vs).
Proof.
  induction vs as [|[p d] vs IH]; intros i H; [constructor|]. inversion H as [|? ? [H1 H2] H3]; subst. cbn [fst snd] in *.
  apply no_blank in H1 as [_ H1]. apply free_contains in H2. cbn [vlines].
  constructor; [|constructor; [|by apply IH]]; rewrite !contains_app, sp_clean; [rewrite dec_clean, H1|rewrite H2]; done.
Qed.
Lemma iline_clean n k p : contains feed k = false -> contains feed p = false -> contains feed (iline n k p) = false.
Proof. intros H1 H2. unfold iline. rewrite !contains_app, sp_clean, H1, H2. done. Qed.
Lemma klines_clean : forall c n k, listable fmtv c -> free_of [feed] k -> clean (klines n k c).
Proof.
  fix IH 1. intros [p vs cs] n k H Hk. rewrite klines_eq. inversion H as [? ? ? Hp Hv Hc]; subst. apply free_contains in Hk.
  constructor; [apply iline_clean; [done|by apply no_blank]|]. apply Forall_app. split.
  - destruct vs as [|v vs]; [constructor|]. constructor; [rewrite contains_app, sp_clean; done|by apply vlines_clean].
  - clear Hv vs H. assert (G : clean (kslines (n + 4) cs)).
    { revert cs Hc. fix go 1. intros [|[k' c'] cs] Hc; [constructor|]. cbn [kslines]. apply Forall_app. split.
      - apply IH; [by inversion Hc as [|? ? [? ?] ?]|by inversion Hc as [|? ? [? ?] ?]].
      - apply go. by inversion Hc. }
    destruct cs as [|c cs]; [constructor|]. constructor; [rewrite contains_app, sp_clean; done|done].
Qed.
Lemma kslines_clean n cs : listable_doc fmtv cs -> clean (kslines n cs).
Proof. induction 1 as [|[k c] cs [H1 H2] Hc IH]; [constructor|]. cbn [kslines]. apply Forall_app. split; [by apply klines_clean|done]. Qed.
Lemma dlines_clean d : listable_doc fmtv d -> clean (dlines d).
Proof.
  induction 1 as [|[k [p vs cs]] d [H1 H2] Hd IH]; [constructor|]. cbn [dlines fst snd] in *. inversion H2 as [? ? ? Hp Hv Hc]; subst.
  constructor; [apply iline_clean; [by apply free_contains|by apply no_blank]|]. constructor; [done|].
  apply Forall_app. split; [by apply vlines_clean|]. apply Forall_app. split; [|by constructor].
  destruct cs as [|c cs]; [constructor|]. constructor; [done|by apply kslines_clean].
Qed.
Lemma lines_clean d : listable_doc fmtv d -> clean (lines d).
Proof. intros H. constructor; [done|]. constructor; [done|by apply dlines_clean]. Qed.
Lemma listing_faithful d d' : listable_doc fmtv d -> listable_doc fmtv d' -> pretty_print fmtv d = pretty_print fmtv d' -> like_doc fmtv d d'.
Proof.
  rewrite !lines_text. intros H H' E. apply unlines_inj in E; [|by apply lines_clean..]. apply cons_split in E as [_ E]. apply cons_split in E as [_ E]. by apply dlines_inj.
Qed.
Lemma like_vlines n vs : forall vs' i, Forall2 vlike vs vs' -> vlines n i vs = vlines n i vs'.
Proof.
  induction vs as [|[p d] vs IH]; intros vs' i H; inversion H as [|? [p' d'] ? ? [E1 E2] Hs]; subst; [done|].
  cbn [vlines fst snd] in *. rewrite E1, E2. by erewrite IH.
Qed.
Lemma like_kslines : forall c c' n k, like fmtv c c' -> klines n k c = klines n k c'.
Proof.
  fix IH 1. intros [p vs cs] c' n k H. inversion H as [? ? vs' ? cs' F G]; subst. rewrite !klines_eq. f_equal. f_equal.
  - destruct F as [|v v' vs vs' Hv F]; [done|]. unfold vhead. f_equal. apply like_vlines. by constructor.
  - clear H F vs vs'. assert (K : kslines (n + 4) cs = kslines (n + 4) cs').
    { revert cs cs' G. fix go 1. intros [|[k1 c1] cs] cs' G; inversion G as [|? [k1' c1'] ? ? [E1 E2] Gs]; subst; [done|].
      cbn [kslines fst snd] in *. rewrite E1. rewrite (IH c1 c1' _ _ E2), (go cs _ Gs). done. }
    destruct G as [|c c'' cs cs' Hc G]; [done|]. unfold clines. by rewrite K.
Qed.
Lemma like_lines d : forall d', like_doc fmtv d d' -> dlines d = dlines d'.
Proof.
  induction d as [|[k [p vs cs]] d IH]; intros d' H; inversion H as [|? [k' c'] ? ? [E1 E2] Hs]; subst; [done|]. cbn [fst snd] in *.
  inversion E2 as [? ? vs' ? cs' F G]; subst. cbn [dlines]. rewrite (IH _ Hs), (like_vlines 0 vs vs' 0 F).
  assert (C : forall k, klines 0 k (TItem p [] cs) = klines 0 k (TItem p [] cs')) by (intros; apply like_kslines; by constructor).
  specialize (C ""). rewrite !klines_eq in C. apply cons_split in C as [_ C]. cbn [vhead app] in C. by rewrite C.
Qed.
Lemma listing_same d d' : listable_doc fmtv d -> listable_doc fmtv d' -> pretty_print fmtv d = pretty_print fmtv d' <-> like_doc fmtv d d'.
Proof.
  intros H H'. split; [by apply listing_faithful|]. intros L. rewrite !lines_text. unfold lines. by rewrite (like_lines d d' L).
Qed.

(** ** Every item is listed *)
Definition block (n : nat) (k p : string) (vs : list (string * json)) : list string := iline n k p :: vhead n vs.
Lemma kids_listed cs n k i : entry cs n k i -> forall m, exists a c, kslines m cs = a ++ block (m + 4 * n) k (let 'TItem p _ _ := i in p) (ti_versions i) ++ c.
Proof.
  assert (S : forall m k i cs, (k, i) ∈ cs -> exists a c, kslines m cs = a ++ klines m k i ++ c).
  { clear. intros m k i cs (l1 & l2 & ->)%elem_of_list_split. exists (kslines m l1), (kslines m l2).
    induction l1 as [|[k' c'] l1 IH]; [done|]. cbn [app kslines]. by rewrite IH, <- app_assoc. }
  induction 1 as [d k [p vs cs] Hin|d k p vs cs n k' i Hin He IH]; intros m.
  - destruct (S m _ _ _ Hin) as (a & c & ->). rewrite klines_eq. exists a, (clines m cs ++ c).
    replace (m + 4 * 0)%nat with m by lia. unfold block. cbn [ti_versions app]. by rewrite <- !app_assoc.
  - destruct (S m _ _ _ Hin) as (a & c & ->). rewrite klines_eq. destruct (IH (m + 4)%nat) as (a' & c' & E).
    assert (C : clines m cs = (sp m +++ "  Children:") :: kslines (m + 4) cs) by (destruct He as [d' ? ? H|d' ? ? ? ? ? ? ? H]; destruct d'; [inversion H|done|inversion H|done]).
    rewrite C, E. replace (m + 4 + 4 * n)%nat with (m + 4 * Datatypes.S n)%nat by lia.
    exists (a ++ (iline m k p :: vhead m vs) ++ (sp m +++ "  Children:") :: a'), (c' ++ c). cbn [app]. rewrite <- !app_assoc. cbn [app]. rewrite <- ?app_assoc. done.
Qed.
Lemma docs_listed d n k i : entry d n k i -> exists a c, dlines d = a ++ block (4 * n) k (let 'TItem p _ _ := i in p) (ti_versions i) ++ c.
Proof.
  assert (S : forall k p vs cs d, (k, TItem p vs cs) ∈ d -> exists a c, dlines d = a ++ (iline 0 k p :: "  Versions:" :: vlines 0 0 vs) ++ clines 0 cs ++ c).
  { clear. intros k p vs cs d (l1 & l2 & ->)%elem_of_list_split. exists (dlines l1), ("" :: dlines l2).
    induction l1 as [|[k' [p' vs' cs']] l1 IH]; [done|]. cbn [app dlines]. rewrite IH. cbn [app]. rewrite <- !app_assoc. done. }
  destruct 1 as [d k [p vs cs] Hin|d k p vs cs n k' i Hin He]; destruct (S _ _ _ _ _ Hin) as (a & c & ->).
  - exists a. replace (4 * 0)%nat with O by lia. unfold block. cbn [ti_versions]. destruct vs as [|v vs].
    + exists ("  Versions:" :: clines 0 cs ++ c). done.
    + exists (clines 0 cs ++ c). done.
  - destruct (kids_listed _ _ _ _ He 4) as (a' & c' & E).
    assert (C : clines 0 cs = "  Children:" :: kslines 4 cs) by (destruct He as [d' ? ? H|d' ? ? ? ? ? ? ? H]; destruct d'; [inversion H|done|inversion H|done]).
    rewrite C, E. replace (4 * Datatypes.S n)%nat with (4 + 4 * n)%nat by lia.
    exists (a ++ (iline 0 k p :: "  Versions:" :: vlines 0 0 vs) ++ "  Children:" :: a'), (c' ++ c). cbn [app]. rewrite <- !app_assoc. cbn [app]. rewrite <- ?app_assoc. done.
Qed.
Lemma vlines_rows n vs : forall i, vlines (4 * n) i vs = concat (imap (fun j v =>
  [margin n +++ "    [" +++ pretty (N.of_nat (i + j)) +++ "] Timestamp: " +++ fst v; margin n +++ "        Data: " +++ fmtv (snd v)]) vs).
Proof.
  induction vs as [|[p d] vs IH]; intros i; [done|]. cbn [vlines imap concat fst snd app]. rewrite IH, sp_margin, dec_text_pretty.
  replace (i + 0)%nat with i by lia. do 3 f_equal. apply imap_ext. intros j x _. cbn. by replace (i + Datatypes.S j)%nat with (Datatypes.S i + j)%nat by lia.
Qed.
Lemma listing_rows d n k p vs cs : entry d n k (TItem p vs cs) -> rows (pretty_print fmtv d) (item_rows fmtv n k p vs).
Proof.
  intros (a & c & E)%docs_listed. rewrite lines_text. unfold lines. rewrite E.
  assert (B : block (4 * n) k p vs = item_rows fmtv n k p vs).
  { unfold block, item_rows, iline. rewrite <- sp_margin. f_equal. destruct vs as [|v vs]; [done|]. unfold vhead. rewrite <- sp_margin. f_equal. apply vlines_rows. }
  cbn [ti_versions]. rewrite B. exact (unlines_rows ("TJSON Document:" :: "==============" :: a) _ c).
Qed.

(** ** Nothing else is listed *)
Lemma own_ilines d n k p vs cs : entry d n k (TItem p vs cs) -> entry_line fmtv d (iline (4 * n) k p).
Proof. intros H. left. exists n, k, p, vs, cs. split; [done|]. unfold iline, item_rows. rewrite <- sp_margin. apply elem_of_cons. by left. Qed.
Lemma own_vhead d n k p vs cs : entry d n k (TItem p vs cs) -> Forall (entry_line fmtv d) (vhead (4 * n) vs).
Proof.
  intros H. apply Forall_forall. intros l Hl. left. exists n, k, p, vs, cs. split; [done|]. unfold item_rows. apply elem_of_cons. right.
  destruct vs as [|v vs]; [done|]. unfold vhead in Hl. rewrite <- sp_margin in Hl. apply elem_of_cons in Hl as [->|Hl]; apply elem_of_cons; [by left|right].
  by rewrite vlines_rows in Hl.
Qed.
Lemma own_child d n k p vs cs : entry d n k (TItem p vs cs) -> cs ≠ [] -> entry_line fmtv d (sp (4 * n) +++ "  Children:").
Proof. intros H Hc. right. left. exists n, k, p, vs, cs. by rewrite <- sp_margin. Qed.
Lemma deeper d n k p vs cs k' c' : entry d n k (TItem p vs cs) -> (k', c') ∈ cs -> entry d (S n) k' c'.
Proof.
  intros H. remember (TItem p vs cs) as i eqn:E. revert E. induction H as [d k i Hin|d k p0 vs0 cs0 n k1 i Hin He IH]; intros -> Hc.
  - eapply en_below; [done|]. by constructor.
  - eapply en_below; [done|]. by apply IH.
Qed.
Lemma own_klines d : forall c n k, entry d n k c -> Forall (entry_line fmtv d) (klines (4 * n) k c).
Proof.
  fix IH 1. intros [p vs cs] n k He. rewrite klines_eq. constructor; [by eapply own_ilines|]. apply Forall_app. split; [by eapply own_vhead|].
  assert (K : Forall (entry_line fmtv d) (kslines (4 * n + 4) cs)).
  { assert (D : forall k' c', (k', c') ∈ cs -> entry d (S n) k' c') by (intros; by eapply deeper). clear He. revert cs D. fix go 1.
    intros [|[k' c'] cs] D; [constructor|]. cbn [kslines]. apply Forall_app. split.
    - replace (4 * n + 4)%nat with (4 * S n)%nat by lia. apply IH. apply D, elem_of_cons. by left.
    - apply go. intros k1 c1 Hin. apply D, elem_of_cons. by right. }
  clear IH. destruct cs as [|c cs]; [constructor|]. constructor; [by eapply own_child|done].
Qed.
Lemma own_dlines d0 d : (forall k c, (k, c) ∈ d -> (k, c) ∈ d0) -> Forall (entry_line fmtv d0) (dlines d).
Proof.
  induction d as [|[k [p vs cs]] d IH]; intros D; [constructor|].
  assert (He : entry d0 0 k (TItem p vs cs)) by (constructor; apply D, elem_of_cons; by left).
  pose proof (own_klines d0 _ _ _ He) as K. rewrite klines_eq in K. inversion K as [|? ? K1 K2]; subst. apply Forall_app in K2 as [K2 K3].
  cbn [dlines]. constructor; [done|]. constructor; [right; right; right; by left|]. apply Forall_app. split.
  - destruct vs as [|v vs]; [constructor|]. by inversion K2.
  - apply Forall_app. split; [done|]. constructor; [right; right; by left|]. apply IH. intros k' c' Hin. apply D, elem_of_cons. by right.
Qed.
Lemma listing_only d : exists ls, pretty_print fmtv d = String.concat "" (map (fun l => l +++ String feed "") ls) ∧ Forall (entry_line fmtv d) ls.
Proof.
  exists (lines d). rewrite lines_text, unlines_concat. split; [done|]. unfold lines. constructor; [do 4 right; by left|]. constructor; [do 5 right; done|]. by apply own_dlines.
Qed.
End lines.

(** ** Documents built from patches *)
Lemma range_free a b : free_of [" "%char; feed] (range_text a b).
Proof.
  assert (G : forall s, contains " " s = false -> contains feed s = false -> free_of [" "%char; feed] s).
  { induction s as [|x s IH]; [constructor|]. cbn [contains]. intros [H1 H2]%orb_false_iff [H3 H4]%orb_false_iff.
    apply bool_decide_eq_false in H1, H3. constructor; [|by apply IH]. intros [E|[E|[]]]; done. }
  unfold range_text. apply G; rewrite !contains_app, !VssRunLemmas.z_text_no; done.
Qed.
Section built.
Context (fmtv : json -> string).
Lemma new_ok p : free_of [" "%char; feed] p -> listable fmtv (new_item p).
Proof. intros H. constructor; [done|constructor..]. Qed.
Lemma lookup_ok (P : string * titem -> Prop) k c cs : Forall P cs -> alookup k cs = Some c -> P (k, c).
Proof. intros H E%alookup_Some_in. by eapply Forall_forall in H. Qed.
Lemma below_ok v : free_of [" "%char; feed] (fst v) -> free_of [feed] (fmtv (snd v)) -> forall parts i,
  Forall (free_of [feed]) parts -> listable fmtv i -> listable fmtv (add_below v parts i).
Proof.
  intros H1 H2. induction parts as [|k parts IH]; intros [p vs cs] Hp Hi; [done|]. inversion Hp as [|? ? Hk Hp']; subst.
  inversion Hi as [? ? ? A1 A2 A3]; subst. cbn [add_below]. constructor; [done|done|]. apply Forall_ainsert; [done|]. cbn [fst snd]. split; [done|].
  assert (C : listable fmtv (default (new_item (fst v)) (alookup k cs))).
  { destruct (alookup k cs) as [c|] eqn:E; cbn [default]; [|by apply new_ok]. apply (lookup_ok _ _ _ _ A3 E). }
  destruct parts as [|k' parts]; [|by apply IH]. destruct (default _ _) as [p' vs' cs']. inversion C as [? ? ? B1 B2 B3]; subst.
  cbn [push_version]. constructor; [done| |done]. apply Forall_app. split; [done|]. by constructor; [|constructor].
Qed.
Lemma split_free c s : free_of [feed] s -> Forall (free_of [feed]) (split_on c s).
Proof.
  induction 1 as [|a s H Hs IH]; [repeat constructor|]. cbn [split_on]. case_decide; [by constructor; [constructor|]|].
  destruct (split_on c s) as [|w ws]; [by repeat constructor|]. inversion IH as [|? ? W1 W2]; subst. by repeat constructor.
Qed.
Lemma add_ok d path a b v : listable_doc fmtv d -> free_of [feed] path -> free_of [feed] (fmtv v) -> listable_doc fmtv (add_item d path a b v).
Proof.
  intros Hd Hp Hv. unfold add_item. pose proof (split_free dot path Hp) as S. destruct (split_on dot path) as [|k rest]; [done|].
  inversion S as [|? ? S1 S2]; subst. apply Forall_ainsert; [done|]. split; [done|]. cbn [snd]. apply below_ok; [apply range_free|done|done|].
  destruct (alookup k d) as [c|] eqn:E; cbn [default]; [apply (lookup_ok _ _ _ _ Hd E)|apply new_ok, range_free].
Qed.
Lemma path_free s : free_of [feed] s -> free_of [feed] (tj_path s).
Proof.
  intros H. unfold tj_path. assert (G : free_of [feed] (strip_slash s)).
  { destruct H as [|a s Ha Hs]; [constructor|]. cbn [strip_slash]. case_decide; [done|by constructor]. }
  revert G. generalize (strip_slash s). clear. induction 1 as [|a s Ha Hs IH]; [constructor|]. cbn [slashes_to_dots]. constructor; [|done].
  case_decide; [|done]. intros [E|[]]. discriminate.
Qed.
Notation held := (Forall (fun kv : string * (Z * json) => free_of [feed] (fst kv) ∧ free_of [feed] (fmtv (snd (snd kv))))).
Lemma step_ok d last p d' last' : free_of [feed] (tp_path p) -> free_of [feed] (fmtv (tp_value p)) -> listable_doc fmtv d -> held last ->
  tj_step (d, last) p = (d', last') -> listable_doc fmtv d' ∧ held last'.
Proof.
  intros Hp Hv Hd Hl E. unfold tj_step in E. pose proof (path_free _ Hp) as P.
  assert (L : forall t0 v0, alookup (tj_path (tp_path p)) last = Some (t0, v0) -> free_of [feed] (fmtv v0)).
  { intros t0 v0 E0%alookup_Some_in. eapply Forall_forall in Hl; [|done]. by destruct Hl. }
  destruct (bool_decide _ || bool_decide _).
  - destruct (alookup _ last) as [[t0 v0]|].
    + destruct (json_deep_eq _ _); injection E as <- <-; [done|]. split; [apply add_ok; [done|done|by eapply L]|]. by apply Forall_ainsert.
    + injection E as <- <-. split; [done|]. by apply Forall_ainsert.
  - case_decide; [|by injection E as <- <-]. destruct (alookup _ last) as [[t0 v0]|]; injection E as <- <-; [|done].
    split; [apply add_ok; [done|done|by eapply L]|]. apply Forall_forall. intros kv Hk%Own.adelete_in. by eapply Forall_forall in Hl.
Qed.
Lemma steps_ok ps : Forall (fun p => free_of [feed] (tp_path p) ∧ free_of [feed] (fmtv (tp_value p))) ps -> forall d last d' last', listable_doc fmtv d -> held last ->
  fold_left tj_step ps (d, last) = (d', last') -> listable_doc fmtv d' ∧ held last'.
Proof.
  induction 1 as [|p ps [H1 H2] H IH]; intros d last d' last' Hd Hl E; cbn [fold_left] in E; [by injection E as <- <-|].
  destruct (tj_step (d, last) p) as [d1 l1] eqn:E1. destruct (step_ok _ _ _ _ _ H1 H2 Hd Hl E1) as [G1 G2]. by eapply IH.
Qed.
Lemma built_listable srt ord now ps : (forall l, Permutation (srt l) l) -> (forall m, Permutation (ord m) m) ->
  (forall p, p ∈ ps -> free_of [feed] (tp_path p) ∧ free_of [feed] (fmtv (tp_value p))) -> listable_doc fmtv (from_patches srt ord now ps).
Proof.
  intros Hs Ho H. unfold from_patches. destruct (fold_left tj_step (srt ps) ([], [])) as [d last] eqn:E.
  apply steps_ok in E as [Hd Hl]; [|apply Forall_forall; intros p Hp; apply H; by rewrite <- (Hs ps)|constructor..].
  assert (Hl' : held (ord last)) by (by rewrite (Ho last)). unfold tj_close. clear Hl. revert d Hd. induction Hl' as [|[k [t v]] l [H1 H2] Hl IH]; intros d Hd; [done|].
  cbn [fold_left]. apply IH. by apply add_ok.
Qed.
End built.
