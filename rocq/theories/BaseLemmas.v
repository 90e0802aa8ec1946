(** Facts about the helpers of [Base.v]. *)
From Verif Require Import Base.
From Coq Require Import Lia.

(** ** Strings *)
Lemma sapp_nil_r s : s +++ "" = s.
Proof. induction s; simpl; congruence. Qed.
Lemma sapp_assoc a b c : (a +++ b) +++ c = a +++ (b +++ c).
Proof. induction a; simpl; congruence. Qed.
Lemma slength_app a b : slength (a +++ b) = (slength a + slength b)%nat.
Proof. induction a; simpl; congruence. Qed.
Lemma sapp_inv_head a b c : a +++ b = a +++ c -> b = c.
Proof. induction a; simpl; [done|]. intros [=]; auto. Qed.
Lemma sapp_inv_tail a b c : a +++ c = b +++ c -> a = b.
Proof.
  revert b. induction a as [|x a IH]; intros [|y b]; simpl; intros E; auto.
  - apply (f_equal slength) in E. simpl in E. rewrite slength_app in E. lia.
  - apply (f_equal slength) in E. simpl in E. rewrite slength_app in E. lia.
  - injection E as -> E. f_equal. auto.
Qed.

(** ** Key/value lists *)
Section alist.
Context {V : Type}.
Implicit Types (m : list (string * V)).

Lemma alookup_ainsert_eq k v m : alookup k (ainsert k v m) = Some v.
Proof.
  induction m as [|[k' v'] m IH]; simpl; repeat case_decide; simplify_eq; simpl;
    rewrite ?decide_True by done; auto.
  rewrite decide_False by done. done.
Qed.
Lemma alookup_ainsert_ne k k' v m : k ≠ k' -> alookup k (ainsert k' v m) = alookup k m.
Proof.
  intros. induction m as [|[k2 v2] m IH]; simpl; repeat case_decide; simplify_eq; simpl;
    repeat case_decide; congruence.
Qed.
Lemma alookup_ainsert k k' v m :
  alookup k (ainsert k' v m) = if decide (k = k') then Some v else alookup k m.
Proof.
  case_decide; subst; [apply alookup_ainsert_eq|by apply alookup_ainsert_ne].
Qed.
Lemma alookup_adelete_eq k m : alookup k (adelete k m) = None.
Proof.
  induction m as [|[k' v'] m IH]; simpl; repeat case_decide; simplify_eq; simpl; auto.
  rewrite decide_False by done. done.
Qed.
Lemma alookup_adelete_ne k k' m : k ≠ k' -> alookup k (adelete k' m) = alookup k m.
Proof.
  intros. induction m as [|[k2 v2] m IH]; simpl; repeat case_decide; simplify_eq; simpl;
    repeat case_decide; congruence.
Qed.
Lemma adelete_notin k m : alookup k m = None -> adelete k m = m.
Proof.
  induction m as [|[k' v'] m IH]; simpl; auto. case_decide; [done|].
  intros. by rewrite IH.
Qed.
Lemma alookup_None_iff k m : alookup k m = None <-> k ∉ akeys m.
Proof.
  induction m as [|[k' v'] m IH]; simpl.
  - split; [intros _; apply not_elem_of_nil|done].
  - case_decide; subst.
    + split; [done|]. intros H. exfalso. apply H. constructor.
    + rewrite IH, not_elem_of_cons. naive_solver.
Qed.
Lemma alookup_Some_in k v m : alookup k m = Some v -> (k, v) ∈ m.
Proof.
  induction m as [|[k' v'] m IH]; simpl; [done|]. case_decide; intros; simplify_eq.
  - constructor.
  - constructor. auto.
Qed.
Lemma alookup_in k v m : NoDup (akeys m) -> (k, v) ∈ m -> alookup k m = Some v.
Proof.
  induction m as [|[k' v'] m IH]; simpl; intros ND Hin.
  - by apply elem_of_nil in Hin.
  - apply NoDup_cons in ND as [Hn ND]. apply elem_of_cons in Hin as [[=]|Hin]; subst.
    + by rewrite decide_True.
    + rewrite decide_False; [auto|]. intros ->. apply Hn.
      apply elem_of_list_fmap. by exists (k', v).
Qed.
Lemma alookup_iff k v m : NoDup (akeys m) -> alookup k m = Some v <-> (k, v) ∈ m.
Proof. intros. split; [apply alookup_Some_in|by apply alookup_in]. Qed.
Lemma akeys_ainsert_in k v m : k ∈ akeys m -> akeys (ainsert k v m) = akeys m.
Proof.
  induction m as [|[k' v'] m IH]; simpl; intros Hin.
  - by apply elem_of_nil in Hin.
  - case_decide; subst; simpl; auto.
    apply elem_of_cons in Hin as [->|Hin]; [done|]. f_equal. auto.
Qed.
Lemma ainsert_notin k v m : k ∉ akeys m -> ainsert k v m = m ++ [(k, v)].
Proof.
  induction m as [|[k' v'] m IH]; simpl; intros Hn; auto.
  apply not_elem_of_cons in Hn as [? Hn]. rewrite decide_False by done.
  by rewrite IH.
Qed.
Lemma akeys_app m m' : akeys (m ++ m') = akeys m ++ akeys m'.
Proof. apply map_app. Qed.
Lemma akeys_ainsert k v m :
  akeys (ainsert k v m) = if decide (k ∈ akeys m) then akeys m else akeys m ++ [k].
Proof.
  case_decide; [by apply akeys_ainsert_in|]. rewrite ainsert_notin by done. apply akeys_app.
Qed.
Lemma NoDup_ainsert k v m : NoDup (akeys m) -> NoDup (akeys (ainsert k v m)).
Proof.
  intros ND. rewrite akeys_ainsert. case_decide; auto.
  apply NoDup_app. split; [done|]. split; [|apply NoDup_singleton].
  intros x Hx ->%elem_of_list_singleton. done.
Qed.
Lemma akeys_adelete_sub k m x : x ∈ akeys (adelete k m) -> x ∈ akeys m ∧ x ≠ k.
Proof.
  induction m as [|[k' v'] m IH]; simpl; [by intros ?%elem_of_nil|].
  case_decide as D; subst; simpl.
  - intros H. destruct (IH H). split; [by constructor|done].
  - intros [->|H]%elem_of_cons; [split; [constructor|congruence]|].
    destruct (IH H). split; [by constructor|done].
Qed.
Lemma NoDup_adelete k m : NoDup (akeys m) -> NoDup (akeys (adelete k m)).
Proof.
  induction m as [|[k' v'] m IH]; simpl; intros ND; auto.
  apply NoDup_cons in ND as [Hn ND]. case_decide; auto. simpl.
  apply NoDup_cons. split; auto. intros Hx. by apply akeys_adelete_sub in Hx as [? ?].
Qed.
Lemma ainsert_id k v m : alookup k m = Some v -> ainsert k v m = m.
Proof.
  induction m as [|[k' v'] m IH]; simpl; [done|]. case_decide; intros; simplify_eq; auto.
  f_equal. auto.
Qed.
Lemma ainsert_ainsert k v v' m : ainsert k v (ainsert k v' m) = ainsert k v m.
Proof.
  induction m as [|[k2 v2] m IH]; simpl.
  - by rewrite decide_True.
  - case_decide; simpl.
    + by rewrite decide_True.
    + rewrite decide_False by done. by rewrite IH.
Qed.
Lemma alookup_app k m m' :
  alookup k (m ++ m') = match alookup k m with Some v => Some v | None => alookup k m' end.
Proof. induction m as [|[k2 v2] m IH]; simpl; auto. case_decide; auto. Qed.
End alist.

Lemma alookup_map {V W} (f : V -> W) k (m : list (string * V)) :
  alookup k (map (fun kv => (fst kv, f (snd kv))) m) = f <$> alookup k m.
Proof. induction m as [|[k' v'] m IH]; simpl; auto. by case_decide. Qed.
Lemma ainsert_map {V W} (f : V -> W) k v (m : list (string * V)) :
  ainsert k (f v) (map (fun kv => (fst kv, f (snd kv))) m)
  = map (fun kv => (fst kv, f (snd kv))) (ainsert k v m).
Proof. induction m as [|[k' v'] m IH]; simpl; auto. case_decide; simpl; congruence. Qed.
Lemma adelete_map {V W} (f : V -> W) k (m : list (string * V)) :
  adelete k (map (fun kv => (fst kv, f (snd kv))) m)
  = map (fun kv => (fst kv, f (snd kv))) (adelete k m).
Proof. induction m as [|[k' v'] m IH]; simpl; auto. case_decide; simpl; congruence. Qed.
Lemma akeys_map {V W} (f : V -> W) (m : list (string * V)) :
  akeys (map (fun kv => (fst kv, f (snd kv))) m) = akeys m.
Proof. unfold akeys. rewrite map_map. by apply map_ext. Qed.

(** ** Decimal numbers *)
Lemma digit_char_val n : (n < 10)%N -> digit_val (digit_char n) = n.
Proof.
  intros H. unfold digit_val, digit_char. rewrite N_ascii_embedding by lia. lia.
Qed.
Lemma digit_char_digit n : (n < 10)%N -> is_digit (digit_char n) = true.
Proof.
  intros H. unfold is_digit, digit_char. rewrite N_ascii_embedding by lia.
  apply andb_true_intro. split; apply N.leb_le; lia.
Qed.
Lemma dec_val_app a s s' : dec_val a (s +++ s') = dec_val (dec_val a s) s'.
Proof. revert a. induction s; simpl; auto. Qed.
Lemma all_digits_app s s' : all_digits (s +++ s') = all_digits s && all_digits s'.
Proof. induction s; simpl; auto. rewrite IHs. by rewrite andb_assoc. Qed.

Lemma dec_text_fuel_spec fuel n acc :
  (n < 10 ^ N.of_nat fuel)%N -> (0 < fuel)%nat ->
  exists d, dec_text_fuel fuel n acc = d +++ acc ∧ all_digits d = true ∧ d ≠ ""
    ∧ forall a, dec_val a d = (a * 10 ^ N.of_nat (slength d) + n)%N.
Proof.
  revert n acc. induction fuel as [|f IH]; intros n acc Hn Hf; [lia|]. simpl.
  assert (Hm : (n mod 10 < 10)%N) by (apply N.mod_lt; lia).
  destruct (n <? 10)%N eqn:E.
  - apply N.ltb_lt in E. exists (String (digit_char (n mod 10)) ""). simpl.
    rewrite digit_char_digit by done. repeat split; try done.
    intros a. rewrite digit_char_val by done. rewrite N.mod_small by done.
    change (10 ^ N.of_nat 1)%N with 10%N. lia.
  - apply N.ltb_ge in E.
    assert (Hd : (n / 10 < 10 ^ N.of_nat f)%N).
    { apply N.div_lt_upper_bound; [lia|]. rewrite Nat2N.inj_succ, N.pow_succ_r' in Hn. lia. }
    assert (Hf' : (0 < f)%nat).
    { destruct f; [|lia]. simpl in Hd.
      assert (1 <= n / 10)%N by (apply N.div_le_lower_bound; lia). lia. }
    destruct (IH (n / 10)%N (String (digit_char (n mod 10)) acc) Hd Hf') as (d & Ed & Ad & Nd & Vd).
    exists (d +++ String (digit_char (n mod 10)) ""). rewrite Ed.
    repeat split.
    + by rewrite sapp_assoc.
    + rewrite all_digits_app, Ad. simpl. by rewrite digit_char_digit.
    + destruct d; done.
    + intros a. rewrite dec_val_app. simpl. rewrite Vd, digit_char_val by done.
      rewrite slength_app. simpl. rewrite Nat.add_1_r, Nat2N.inj_succ, N.pow_succ_r'.
      pose proof (N.div_mod n 10). lia.
Qed.

Lemma N_size_nat_bound n : (n < 10 ^ N.of_nat (S (N.size_nat n)))%N.
Proof.
  assert (n < 2 ^ N.of_nat (N.size_nat n))%N.
  { assert (N.of_nat (N.size_nat n) = N.size n) as ->; [|apply N.size_gt].
    destruct n as [|p]; [done|]. simpl. induction p; simpl; auto; lia. }
  assert (2 ^ N.of_nat (N.size_nat n) <= 10 ^ N.of_nat (N.size_nat n))%N.
  { apply N.pow_le_mono_l. lia. }
  rewrite Nat2N.inj_succ, N.pow_succ_r'. lia.
Qed.

Lemma dec_text_spec n :
  all_digits (dec_text n) = true ∧ dec_text n ≠ "" ∧ dec_val 0 (dec_text n) = n.
Proof.
  unfold dec_text.
  destruct (dec_text_fuel_spec (S (N.size_nat n)) n "") as (d & -> & A & B & C).
  - apply N_size_nat_bound.
  - lia.
  - rewrite sapp_nil_r. repeat split; auto. rewrite C. lia.
Qed.
Lemma dec_text_inj n n' : dec_text n = dec_text n' -> n = n'.
Proof.
  intros E. destruct (dec_text_spec n) as (_ & _ & <-). rewrite E. apply dec_text_spec.
Qed.

Lemma is_digit_not_sign a : is_digit a = true -> a ≠ "-"%char ∧ a ≠ "+"%char.
Proof. intros H. split; intros ->; vm_compute in H; done. Qed.

Lemma parse_int_digits d :
  all_digits d = true -> d ≠ "" ->
  parse_int d = if in_int64 (Z.of_N (dec_val 0 d)) then Some (Z.of_N (dec_val 0 d)) else None.
Proof.
  intros A B. unfold parse_int. destruct d as [|a d]; [done|].
  simpl in A. apply andb_true_iff in A as [A1 A2].
  destruct (is_digit_not_sign a A1) as [H1 H2].
  rewrite !decide_False by done. cbn [all_digits]. rewrite A1, A2. done.
Qed.
Lemma parse_int_dec_text n :
  Z.of_N n <= int64_max -> parse_int (dec_text n) = Some (Z.of_N n).
Proof.
  intros H. destruct (dec_text_spec n) as (A & B & C).
  rewrite parse_int_digits, C by done. unfold in_int64.
  replace (_ && _) with true; [done|]. symmetry. apply andb_true_iff.
  split; apply Z.leb_le; [|done]. unfold int64_min. lia.
Qed.

(** ** Paths *)
Fixpoint contains (c : ascii) (s : string) : bool :=
  match s with EmptyString => false | String a s' => bool_decide (a = c) || contains c s' end.

Lemma contains_app c s s' : contains c (s +++ s') = contains c s || contains c s'.
Proof. induction s; simpl; auto. rewrite IHs. by rewrite orb_assoc. Qed.
Lemma split_on_none c s : contains c s = false -> split_on c s = [s].
Proof.
  induction s as [|a s IH]; simpl; auto. intros [H1 H2]%orb_false_iff.
  apply bool_decide_eq_false in H1. rewrite decide_False by done. by rewrite IH.
Qed.
Lemma split_on_app c s s' :
  contains c s = false -> split_on c (s +++ String c s') = s :: split_on c s'.
Proof.
  induction s as [|a s IH]; simpl.
  - intros _. by rewrite decide_True.
  - intros [H1 H2]%orb_false_iff. apply bool_decide_eq_false in H1.
    rewrite decide_False by done. by rewrite IH.
Qed.
Lemma split_on_ne c s : split_on c s ≠ [].
Proof. destruct s; simpl; [done|]. case_decide; [done|]. by destruct (split_on c s). Qed.
Lemma rfc_decode_none s : contains tilde s = false -> rfc_decode s = s.
Proof.
  induction s as [|a s IH]; simpl; auto. intros [H1 H2]%orb_false_iff.
  apply bool_decide_eq_false in H1. rewrite decide_False by done. by rewrite IH.
Qed.
Lemma rfc_encode_none s :
  contains tilde s = false -> contains slash s = false -> rfc_encode s = s.
Proof.
  induction s as [|a s IH]; simpl; auto. intros [H1 H2]%orb_false_iff [H3 H4]%orb_false_iff.
  apply bool_decide_eq_false in H1, H3. rewrite !decide_False by done. by rewrite IH.
Qed.
Lemma rfc_decode_encode s : rfc_decode (rfc_encode s) = s.
Proof.
  induction s as [|a s IH]; simpl; auto.
  case_decide as H; [subst; simpl; by rewrite IH|].
  case_decide as H2; [subst; simpl; by rewrite IH|].
  simpl. rewrite decide_False by done. by rewrite IH.
Qed.
Lemma rfc_decode_app s s' : contains tilde s = false -> rfc_decode (s +++ s') = s +++ rfc_decode s'.
Proof.
  induction s as [|a s IH]; simpl; auto. intros [H1 H2]%orb_false_iff.
  apply bool_decide_eq_false in H1. rewrite decide_False by done. by rewrite IH.
Qed.
Lemma dots_none s : contains dot s = false -> dots_to_slashes s = s.
Proof.
  induction s as [|a s IH]; simpl; auto. intros [H1 H2]%orb_false_iff.
  apply bool_decide_eq_false in H1. rewrite decide_False by done. by rewrite IH.
Qed.
Lemma dots_app s s' : dots_to_slashes (s +++ s') = dots_to_slashes s +++ dots_to_slashes s'.
Proof. induction s; simpl; congruence. Qed.
