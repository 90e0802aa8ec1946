(** The directory of the latest run. *)
From Verif Require Import Base BaseSpec BaseLemmas Bytes TextSpec BytesLemmas Temporal TemporalSpec.

Definition width (p : list bool) : nat := length (List.filter (fun d => d) p).
Definition digit_of (a : ascii) : Z := Z.of_N (N_of_ascii a) - 48.
Lemma digit_range a : is_digit a = true -> 0 <= digit_of a <= 9.
Proof.
  unfold is_digit, digit_of, nat_of_ascii. rewrite andb_true_iff, !Nat.leb_le. lia.
Qed.
Lemma digit_back a : is_digit a = true -> ascii_of_N (Z.to_N (48 + digit_of a)) = a.
Proof. intros H%digit_range. unfold digit_of in *. replace (Z.to_N (48 + (Z.of_N (N_of_ascii a) - 48))) with (N_of_ascii a) by lia. apply ascii_N_embedding. Qed.
Lemma digit_made d : 0 <= d <= 9 -> is_digit (ascii_of_N (Z.to_N (48 + d))) = true.
Proof.
  intros H. unfold is_digit, nat_of_ascii. rewrite N_ascii_embedding by lia. rewrite andb_true_iff, !Nat.leb_le. lia.
Qed.
Fixpoint number_of (p : list bool) (s : string) : Z :=
  match p, s with
  | true :: p', String a s' => digit_of a * 10 ^ Z.of_nat (width p') + number_of p' s'
  | false :: p', String _ s' => number_of p' s'
  | _, _ => 0
  end.
Fixpoint text_of (p : list bool) (n : Z) : string :=
  match p with
  | [] => ""
  | true :: p' => String (ascii_of_N (Z.to_N (48 + (n / 10 ^ Z.of_nat (width p')) `mod` 10))) (text_of p' n)
  | false :: p' => String "_" (text_of p' n)
  end.
Lemma width_pow d p : 10 ^ Z.of_nat (width (d :: p)) = (if (d : bool) then 10 else 1) * 10 ^ Z.of_nat (width p).
Proof. unfold width. destruct d; cbn [List.filter length]; [rewrite Nat2Z.inj_succ, Z.pow_succ_r by lia|]; lia. Qed.
Lemma pow_pos p : 0 < 10 ^ Z.of_nat (width p).
Proof. apply Z.pow_pos_nonneg; lia. Qed.
Lemma number_range p s : matches_run p s = true -> 0 <= number_of p s < 10 ^ Z.of_nat (width p).
Proof.
  revert s. induction p as [|[] p IH]; intros [|a s]; cbn [matches_run]; try done.
  - intros [H1%digit_range H2%IH]%andb_true_iff. cbn [number_of]. rewrite width_pow. pose proof (pow_pos p). nia.
  - intros [_ H2%IH]%andb_true_iff. cbn [number_of]. by rewrite width_pow, Z.mul_1_l.
Qed.
Lemma number_text p s c : matches_run p s = true -> text_of p (c * 10 ^ Z.of_nat (width p) + number_of p s) = s.
Proof.
  revert s c. induction p as [|[] p IH]; intros [|a s] c; cbn [matches_run]; try done.
  - intros [H1 H2]%andb_true_iff. cbn [text_of number_of]. rewrite width_pow. pose proof (pow_pos p) as Hp. pose proof (number_range p s H2) as Hr. pose proof (digit_range a H1) as Hd.
    f_equal.
    + replace (c * (10 * 10 ^ Z.of_nat (width p)) + (digit_of a * 10 ^ Z.of_nat (width p) + number_of p s))
        with (number_of p s + (c * 10 + digit_of a) * 10 ^ Z.of_nat (width p)) by lia.
      rewrite Z.div_add by lia. rewrite (Z.div_small (number_of p s)) by lia. rewrite Z.add_0_l, (Z.add_comm (c * 10)), Z.mod_add by lia. rewrite Z.mod_small by lia. by apply digit_back.
    + replace (c * (10 * 10 ^ Z.of_nat (width p)) + (digit_of a * 10 ^ Z.of_nat (width p) + number_of p s))
        with ((c * 10 + digit_of a) * 10 ^ Z.of_nat (width p) + number_of p s) by lia. by apply IH.
  - intros [H1 H2]%andb_true_iff. apply bool_decide_eq_true in H1 as ->. cbn [text_of number_of]. rewrite width_pow, Z.mul_1_l. by rewrite IH.
Qed.
Lemma text_number p n : matches_run p (text_of p n) = true ∧ number_of p (text_of p n) = n `mod` 10 ^ Z.of_nat (width p).
Proof.
  induction p as [|[] p [I1 I2]]; cbn [text_of matches_run number_of].
  - split; [done|]. by rewrite Z.mod_1_r.
  - assert (Hd : 0 <= (n / 10 ^ Z.of_nat (width p)) `mod` 10 <= 9). { pose proof (Z.mod_pos_bound (n / 10 ^ Z.of_nat (width p)) 10). lia. }
    rewrite digit_made by done. split; [done|]. rewrite I2, width_pow. unfold digit_of. rewrite N_ascii_embedding by lia.
    pose proof (pow_pos p). rewrite (Z.mul_comm 10), Z.rem_mul_r by lia. lia.
  - rewrite I1. split; [done|]. by rewrite I2, width_pow, Z.mul_1_l.
Qed.
Lemma ascii_order a b : is_digit a = true -> is_digit b = true -> a <> b -> N.ltb (N_of_ascii a) (N_of_ascii b) = true <-> digit_of a < digit_of b.
Proof. intros _ _ _. unfold digit_of. rewrite N.ltb_lt. lia. Qed.
Lemma digit_inj a b : digit_of a = digit_of b -> a = b.
Proof. unfold digit_of. intros H. rewrite <- (ascii_N_embedding a), <- (ascii_N_embedding b). f_equal. lia. Qed.
Lemma run_order p s t : matches_run p s = true -> matches_run p t = true -> str_lt s t = true <-> number_of p s < number_of p t.
Proof.
  revert s t. induction p as [|[] p IH]; intros [|a s] [|b t]; cbn [matches_run]; try done.
  - intros [H1 H2]%andb_true_iff [H3 H4]%andb_true_iff. cbn [str_lt number_of]. pose proof (number_range _ _ H2). pose proof (number_range _ _ H4).
    pose proof (pow_pos p). destruct (decide (a = b)) as [->|Hn].
    + rewrite (IH _ _ H2 H4). lia.
    + rewrite (ascii_order a b H1 H3 Hn). assert (digit_of a <> digit_of b) by (intros E; by apply digit_inj in E). nia.
  - intros [H1 H2]%andb_true_iff [H3 H4]%andb_true_iff. apply bool_decide_eq_true in H1 as ->, H3 as ->. cbn [str_lt number_of].
    rewrite decide_True by done. by apply IH.
Qed.
Lemma text_run n : text_of run_pattern n = last_digits 8 (n / 10 ^ 6) +++ "_" +++ last_digits 6 n.
Proof.
  cbn -[Z.pow Z.div Z.modulo Z.of_nat]. rewrite !Z.div_div by (try apply Z.pow_nonzero; lia). rewrite <- !Z.pow_add_r by lia. done.
Qed.
Lemma run_iff s : matches_run run_pattern s = true <-> exists n, is_run s n.
Proof.
  split.
  - intros H. exists (number_of run_pattern s). split; [exact (number_range _ _ H)|]. rewrite <- text_run. symmetry.
    exact (number_text run_pattern s 0 H).
  - intros (n & Hn & ->). rewrite <- text_run. apply text_number.
Qed.
Lemma run_number s n : is_run s n -> number_of run_pattern s = n.
Proof. intros [Hn ->]. rewrite <- text_run. rewrite (proj2 (text_number run_pattern n)). by apply Z.mod_small. Qed.

(** ** Sorting *)
Lemma insert_perm s l : Permutation (insert_string s l) (s :: l).
Proof. induction l as [|x l IH]; [done|]. cbn. destruct (str_lt x s); [|done]. rewrite IH. apply perm_swap. Qed.
Lemma sort_perm l : Permutation (sort_strings l) l.
Proof. induction l as [|x l IH]; [done|]. cbn. rewrite insert_perm. by constructor. Qed.
Definition str_le (s t : string) : Prop := str_lt t s = false.
Lemma insert_sorted s l : StronglySorted str_le l -> StronglySorted str_le (insert_string s l).
Proof.
  induction 1 as [|x l HS IH HF]; cbn; [by repeat constructor|]. destruct (str_lt x s) eqn:E.
  - constructor; [done|]. rewrite insert_perm. constructor; [|done]. unfold str_le. destruct (str_lt s x) eqn:E'; [|done].
    pose proof (str_lt_trans _ _ _ E E') as H. by rewrite str_lt_irrefl in H.
  - constructor; [by constructor|]. constructor; [done|]. eapply Forall_impl; [exact HF|]. unfold str_le in *. intros y Hy.
    destruct (str_lt y s) eqn:E'; [|done]. destruct (decide (x = y)) as [->|Hn]; [congruence|].
    pose proof (str_lt_trans _ _ _ (str_lt_total y x ltac:(done) Hy) E'). congruence.
Qed.
Lemma sort_sorted l : StronglySorted str_le (sort_strings l).
Proof. induction l as [|x l IH]; [constructor|]. by apply insert_sorted. Qed.
Lemma last_greatest l s : StronglySorted str_le l -> last l = Some s -> forall x, x ∈ l -> str_le x s.
Proof.
  induction 1 as [|y l HS IH HF]; [done|]. destruct l as [|z l].
  - intros [= <-] x ->%elem_of_list_singleton. apply str_lt_irrefl.
  - intros Hl. change (last (z :: l) = Some s) in Hl. intros x [->|Hx]%elem_of_cons; [|by apply IH]. rewrite Forall_forall in HF. apply HF.
    apply last_Some in Hl as [l' ->]. apply elem_of_app. right. by left.
Qed.
Lemma latest_spec entries s : latest_dir entries = Ok s ->
  (s, true) ∈ entries ∧ exists n, is_run s n ∧ forall s' n', (s', true) ∈ entries -> is_run s' n' -> n' <= n.
Proof.
  unfold latest_dir. set (l := map fst (List.filter (fun e => snd e && matches_run run_pattern (fst e)) entries)).
  destruct (last (sort_strings l)) as [x|] eqn:E; [|done]. intros [= ->].
  assert (Hin : forall x, x ∈ l <-> (x, true) ∈ entries ∧ matches_run run_pattern x = true).
  { intros x. unfold l. rewrite elem_of_list_fmap. split.
    - intros ([y b] & -> & Hy). apply elem_of_list_In, List.filter_In in Hy as [Hy [Hb Hm]%andb_true_iff]. cbn [fst snd] in *. subst b.
      split; [by apply elem_of_list_In|done].
    - intros [Hx Hm]. exists (x, true). split; [done|]. apply elem_of_list_In, List.filter_In. split; [by apply elem_of_list_In|]. cbn [fst snd]. by rewrite Hm. }
  assert (Hs : s ∈ l). { rewrite <- (sort_perm l). apply last_Some in E as [l' ->]. apply elem_of_app. right. by left. }
  apply Hin in Hs as [Hs Hm]. split; [done|]. destruct (proj1 (run_iff s) Hm) as [n Hn]. exists n. split; [done|]. intros s' n' Hs' Hn'.
  assert (Hm' : matches_run run_pattern s' = true) by (apply run_iff; by exists n').
  pose proof (last_greatest _ _ (sort_sorted l) E s' ltac:(rewrite sort_perm; by apply Hin)) as Hle. unfold str_le in Hle.
  destruct (decide (n < n')) as [Hlt|]; [|lia]. rewrite <- (run_number _ _ Hn), <- (run_number _ _ Hn') in Hlt. apply run_order in Hlt; [congruence|done..].
Qed.
Lemma latest_none entries : latest_dir entries = Err <-> forall s n, (s, true) ∈ entries -> ~ is_run s n.
Proof.
  unfold latest_dir. set (l := map fst (List.filter (fun e => snd e && matches_run run_pattern (fst e)) entries)). split.
  - destruct (last (sort_strings l)) as [x|] eqn:E; [done|]. intros _ s n Hs Hn. apply last_None in E.
    assert (Hl : s ∈ l).
    { unfold l. apply elem_of_list_fmap. exists (s, true). split; [done|]. apply elem_of_list_In, List.filter_In. split; [by apply elem_of_list_In|]. cbn [fst snd andb].
      apply run_iff. by exists n. }
    rewrite <- (sort_perm l), E in Hl. by apply elem_of_nil in Hl.
  - intros H. destruct (last (sort_strings l)) as [x|] eqn:E; [|done]. exfalso.
    assert (Hx : x ∈ l). { rewrite <- (sort_perm l). apply last_Some in E as [l' ->]. apply elem_of_app. right. by left. }
    unfold l in Hx. apply elem_of_list_fmap in Hx as ([y b] & -> & Hy). apply elem_of_list_In, List.filter_In in Hy as [Hy [Hb Hm]%andb_true_iff]. cbn [fst snd] in *. subst b.
    destruct (proj1 (run_iff y) Hm) as [n Hn]. by apply (H y n); [apply elem_of_list_In|].
Qed.
Lemma latest_total entries : latest_dir entries <> Panic.
Proof. unfold latest_dir. by destruct (last _). Qed.
