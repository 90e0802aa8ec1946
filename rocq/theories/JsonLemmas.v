(** The JSON reader accepts exactly the grammar. *)
From Verif Require Import Base BaseSpec BaseLemmas BaseSpecLemmas F64 Tson Serial TextSpec ParseComplete MarshalText Heap Patch Json JsonSpec.
From Coq Require Import Lia.

(** ** White space *)
Lemma is_ws_spec a : is_ws a = true <-> In (N_of_ascii a) [32; 9; 10; 13]%N.
Proof.
  unfold is_ws, bv. rewrite !orb_true_iff, !N.eqb_eq. simpl. intuition congruence.
Qed.
Lemma skip_white w s : white w -> skip_ws (w +++ s) = skip_ws s.
Proof.
  induction 1 as [|a w Ha Hw IH]; [done|]. cbn [String.append skip_ws].
  apply is_ws_spec in Ha. by rewrite Ha.
Qed.
Lemma skip_sound s : exists w, white w ∧ s = w +++ skip_ws s.
Proof.
  induction s as [|a s IH]; [exists ""; split; [constructor|done]|]. cbn [skip_ws].
  destruct (is_ws a) eqn:E; [|exists ""; split; [constructor|done]].
  destruct IH as (w & Hw & E'). exists (String a w). split; [constructor; [by apply is_ws_spec|done]|].
  cbn [String.append]. by rewrite <- E'.
Qed.
Lemma skip_stop a s : is_ws a = false -> skip_ws (String a s) = String a s.
Proof. intros H. cbn [skip_ws]. by rewrite H. Qed.
Lemma skip_idem s : skip_ws (skip_ws s) = skip_ws s.
Proof. induction s as [|a s IH]; [done|]. cbn [skip_ws]. destruct (is_ws a) eqn:E; [done|]. by apply skip_stop. Qed.

(** ** Numbers *)
Definition not_digit_first (s : string) : Prop := match s with String a _ => is_digit a = false | _ => True end.
Lemma scan_digits_sound s d r : scan_digits s = (d, r) -> s = d +++ r ∧ all_digits d = true ∧ not_digit_first r.
Proof.
  revert d r. induction s as [|a s IH]; intros d r; cbn [scan_digits].
  - intros [= <- <-]. done.
  - destruct (is_digit a) eqn:E.
    + destruct (scan_digits s) as [d' r'] eqn:Es. intros [= <- <-].
      destruct (IH _ _ eq_refl) as (-> & Hd & Hr). cbn [all_digits]. rewrite E. done.
    + intros [= <- <-]. done.
Qed.
Lemma scan_digits_complete d r : all_digits d = true -> not_digit_first r -> scan_digits (d +++ r) = (d, r).
Proof.
  induction d as [|a d IH]; intros Hd Hr.
  - destruct r as [|a r]; [done|]. cbn [String.append scan_digits]. simpl in Hr. by rewrite Hr.
  - cbn [all_digits] in Hd. apply andb_true_iff in Hd as [Ha Hd]. cbn [String.append scan_digits].
    rewrite Ha, IH by done. done.
Qed.
Lemma some_digits_iff s : some_digits s <-> s ≠ "" ∧ all_digits s = true.
Proof.
  split.
  - intros [n H]. apply digits_model in H as (? & ? & _). done.
  - intros [? ?]. exists (dec_val 0 s). by apply digits_model.
Qed.
Lemma scan_digits1_sound s d r : scan_digits1 s = Some (d, r) -> s = d +++ r ∧ some_digits d ∧ not_digit_first r.
Proof.
  unfold scan_digits1. destruct (scan_digits s) as [d' r'] eqn:E. apply scan_digits_sound in E as (-> & Hd & Hr).
  destruct d' as [|a d']; [done|]. intros [= <- <-]. split; [done|]. split; [|done]. by apply some_digits_iff.
Qed.
Lemma scan_digits1_complete d r : some_digits d -> not_digit_first r -> scan_digits1 (d +++ r) = Some (d, r).
Proof.
  intros [H1 H2]%some_digits_iff Hr. unfold scan_digits1. rewrite scan_digits_complete by done. by destruct d.
Qed.
Lemma digit_zero : is_digit "0" = true. Proof. done. Qed.
(** What may not follow a number of the given end. *)
Definition stops (f : ascii -> bool) (s : string) : Prop := match s with String a _ => f a = false | _ => True end.
Definition num_next (a : ascii) : bool :=
  is_digit a || bool_decide (a = "."%char) || bool_decide (a = "e"%char) || bool_decide (a = "E"%char).
Lemma stops_digit s : stops num_next s -> not_digit_first s.
Proof. destruct s as [|a s]; [done|]. simpl. unfold num_next. rewrite !orb_false_iff. tauto. Qed.

Lemma scan_int_sound s i r : scan_int s = Some (i, r) -> s = i +++ r ∧ int_lit i.
Proof.
  unfold scan_int. destruct s as [|a s]; [done|]. case_decide as Ha.
  - subst. intros [= <- <-]. split; [done|constructor].
  - intros H. apply scan_digits1_sound in H as (E & Hd & Hr). split; [done|]. apply ip_more; [done|].
    intros r' ->. injection E. intros. done.
Qed.
Lemma scan_int_complete i r : int_lit i -> not_digit_first r -> scan_int (i +++ r) = Some (i, r).
Proof.
  intros [|s Hs Hz] Hr; [done|]. unfold scan_int. destruct s as [|a s]; [by apply some_digits_iff in Hs as [? _]|].
  cbn [String.append]. rewrite decide_False by (intros ->; by apply (Hz s)). 
  change (String a (s +++ r)) with (String a s +++ r). by apply scan_digits1_complete.
Qed.
Lemma scan_frac_sound s f r : scan_frac s = Some (f, r) -> s = f +++ r ∧ frac_lit f.
Proof.
  unfold scan_frac. destruct s as [|a s]; [by intros [= <- <-]; split; [|constructor]|]. case_decide as Ha.
  - destruct (scan_digits1 s) as [[d r']|] eqn:E; [|done]. intros [= <- <-].
    apply scan_digits1_sound in E as (-> & Hd & _). subst a. split; [done|]. by apply (fp_some d).
  - intros [= <- <-]. split; [done|constructor].
Qed.
Lemma scan_exp_sound s e r : scan_exp s = Some (e, r) -> s = e +++ r ∧ exp_lit e.
Proof.
  unfold scan_exp. destruct s as [|a s]; [by intros [= <- <-]; split; [|constructor]|]. case_decide as Ha.
  - destruct (scan_sign s) as [g s1] eqn:Eg. destruct (scan_digits1 s1) as [[d r']|] eqn:E; [|done]. intros [= <- <-].
    apply scan_digits1_sound in E as (-> & Hd & _).
    assert (Hg : s = g +++ (d +++ r') ∧ (g = "" ∨ g = "+" ∨ g = "-")).
    { unfold scan_sign in Eg. destruct s as [|b s]; [injection Eg as <- <-; auto|].
      case_decide as Hb; injection Eg as <- Es.
      - subst. destruct Hb as [-> | ->]; auto.
      - rewrite <- Es. auto. }
    destruct Hg as [-> Hg]. split; [by rewrite <- sapp_assoc|].
    change (exp_lit (String a "" +++ g +++ d)). apply ep_some; [|done|done].
    destruct Ha as [-> | ->]; auto.
  - intros [= <- <-]. split; [done|constructor].
Qed.
Lemma scan_number_sound s n r : scan_number s = Some (n, r) -> s = n +++ r ∧ number_text n.
Proof.
  unfold scan_number.
  set (x := match s with String a s' => if decide (a = "-"%char) then ("-", s') else ("", s) | "" => ("", s) end).
  assert (Hx : s = fst x +++ snd x ∧ (fst x = "" ∨ fst x = "-")).
  { subst x. destruct s as [|a s]; [auto|]. case_decide; subst; auto. }
  clearbody x. destruct x as [g s1]. cbn [fst snd] in Hx. destruct Hx as [-> Hg].
  destruct (scan_int s1) as [[i s2]|] eqn:Ei; [|done]. apply scan_int_sound in Ei as [-> Hi].
  destruct (scan_frac s2) as [[f s3]|] eqn:Ef; [|done]. apply scan_frac_sound in Ef as [-> Hf].
  destruct (scan_exp s3) as [[e s4]|] eqn:Ee; [|done]. apply scan_exp_sound in Ee as [-> He].
  intros [= <- <-]. split; [by rewrite !sapp_assoc|by constructor].
Qed.
Lemma digit_not a c : is_digit a = true -> is_digit c = false -> a ≠ c.
Proof. intros H H' ->. congruence. Qed.
Lemma some_digits_head d r : some_digits d -> exists a d', d +++ r = String a d' ∧ is_digit a = true.
Proof.
  intros [H1 H2]%some_digits_iff. destruct d as [|a d]; [done|]. cbn [all_digits] in H2.
  apply andb_true_iff in H2 as [Ha _]. eauto.
Qed.
Lemma scan_number_complete n r : number_text n -> stops num_next r -> scan_number (n +++ r) = Some (n, r).
Proof.
  intros [g i f e Hg Hi Hf He] Hr. rewrite !sapp_assoc. unfold scan_number.
  assert (Hi0 : exists a i', i +++ f +++ e +++ r = String a i' ∧ is_digit a = true).
  { destruct Hi as [|s Hs _]; [by eexists _, _|by apply some_digits_head]. }
  assert (E : match g +++ i +++ f +++ e +++ r with String a s' => if decide (a = "-"%char) then ("-", s')
      else ("", g +++ i +++ f +++ e +++ r) | "" => ("", g +++ i +++ f +++ e +++ r) end = (g, i +++ f +++ e +++ r)).
  { destruct Hg as [-> | ->].
    - cbn [String.append]. destruct Hi0 as (a & i' & -> & Ha). rewrite decide_False; [done|].
      apply (digit_not a); done.
    - cbn [String.append]. by rewrite decide_True. }
  rewrite E. clear E.
  assert (Hee : not_digit_first (e +++ r) ∧ stops (fun a => bool_decide (a = "."%char)) (e +++ r)).
  { destruct He as [|c g' s Hc Hg' Hs].
    - cbn [String.append]. split; [by apply stops_digit|]. destruct r; [done|]. simpl in *. unfold num_next in Hr.
      rewrite !orb_false_iff in Hr. tauto.
    - destruct Hc as [-> | ->]; done. }
  destruct Hee as [He1 He2].
  assert (Hff : not_digit_first (f +++ e +++ r)).
  { destruct Hf as [|s Hs]; [done|]. done. }
  rewrite scan_int_complete by done.
  assert (Ef : scan_frac (f +++ e +++ r) = Some (f, e +++ r)).
  { destruct Hf as [|s Hs].
    - cbn [String.append]. unfold scan_frac. destruct (e +++ r) as [|a s']; [done|]. simpl in He2.
      apply bool_decide_eq_false in He2. by rewrite decide_False.
    - cbn [String.append]. unfold scan_frac. rewrite decide_True by done. by rewrite scan_digits1_complete. }
  rewrite Ef.
  assert (Ee : scan_exp (e +++ r) = Some (e, r)).
  { destruct He as [|c g' s Hc Hg' Hs].
    - cbn [String.append]. unfold scan_exp. destruct r as [|a r]; [done|]. simpl in Hr. unfold num_next in Hr.
      rewrite !orb_false_iff in Hr. destruct Hr as [[_ H1%bool_decide_eq_false] H2%bool_decide_eq_false].
      rewrite decide_False; [done|]. by intros [?|?].
    - rewrite !sapp_assoc. assert (Es : scan_sign (g' +++ s +++ r) = (g', s +++ r)).
      { destruct Hg' as [-> |[-> | ->]]; cbn [String.append]; unfold scan_sign.
        - destruct (some_digits_head s r Hs) as (a & s' & -> & Ha). rewrite decide_False; [done|].
          intros [-> | ->]; done.
        - by rewrite decide_True by auto.
        - by rewrite decide_True by auto. }
      destruct Hc as [-> | ->]; cbn [String.append]; unfold scan_exp; rewrite decide_True by auto;
        rewrite Es, scan_digits1_complete by (done || by apply stops_digit); done. }
  rewrite Ee. done.
Qed.
