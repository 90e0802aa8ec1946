(** Proofs about the difference of arrays of different length. *)
From Verif Require Import Base F64 Tson TsonInd BaseLemmas F64Lemmas TsonSpec TextSpec ConvLemmas Heap Patch PatchSpec Diff DiffSpec DiffLemmas.
From Coq Require Import Lia.

Definition teq (a b : tson) : Prop := tson_deep_eq a b = true.
#[global] Instance teq_dec a b : Decision (teq a b).
Proof. unfold teq. apply _. Defined.
Lemma teq_same a b : fine a -> fine b -> teq a b <-> same_content a b.
Proof. intros [? _] [? _]. by apply deep_eq_same. Qed.
Lemma teq_refl a : fine a -> teq a a.
Proof. intros H. apply (teq_same a a H H). by apply same_refl, H. Qed.
Lemma teq_sym a b : fine a -> fine b -> teq a b -> teq b a.
Proof. intros Ha Hb H. apply (teq_same b a Hb Ha), same_sym. by apply (teq_same a b Ha Hb). Qed.
Lemma teq_trans a b c : fine a -> fine b -> fine c -> teq a b -> teq b c -> teq a c.
Proof.
  intros Ha Hb Hc H H'. apply (teq_same a c Ha Hc), (same_trans a b c).
  - by apply (teq_same a b Ha Hb).
  - by apply (teq_same b c Hb Hc).
Qed.

(** How many elements equal [v]. *)
Definition cnt (v : tson) (l : list tson) : nat := length (filter (teq v) l).
Lemma cnt_app v l l' : cnt v (l ++ l') = (cnt v l + cnt v l')%nat.
Proof. unfold cnt. by rewrite filter_app, app_length. Qed.
Lemma cnt_cons v x l : cnt v (x :: l) = ((if decide (teq v x) then 1 else 0) + cnt v l)%nat.
Proof. unfold cnt. rewrite filter_cons. by destruct (decide (teq v x)). Qed.
Lemma cnt_one v x : cnt v [x] = (if decide (teq v x) then 1 else 0)%nat.
Proof. rewrite cnt_cons. unfold cnt. cbn. lia. Qed.
Lemma cnt_nil v : cnt v [] = 0%nat.
Proof. done. Qed.
Lemma cnt_teq v w l : fine v -> fine w -> Forall fine l -> teq v w -> cnt v l = cnt w l.
Proof.
  intros Hv Hw HF Hvw. induction HF as [|x l Hx HF IH]; [done|]. rewrite !cnt_cons, IH. f_equal.
  destruct (decide (teq v x)) as [H|H], (decide (teq w x)) as [H'|H']; try done; exfalso.
  - apply H'. by apply (teq_trans w v x), H; try apply teq_sym.
  - apply H. by apply (teq_trans v w x).
Qed.
Lemma cnt_take_S v l j y : l !! j = Some y -> teq v y -> cnt v (take (S j) l) = S (cnt v (take j l)).
Proof.
  intros Hj Hy. rewrite (take_S_r _ _ _ Hj), cnt_app, cnt_one, decide_True by done. lia.
Qed.
Lemma cnt_take_mono v l i j : (i <= j)%nat -> (cnt v (take i l) <= cnt v (take j l))%nat.
Proof.
  intros H. replace (take i l) with (take i (take j l)) by (rewrite take_take; f_equal; lia).
  rewrite <- (take_drop i (take j l)) at 2. rewrite cnt_app. lia.
Qed.
(** The first index with a given rank. *)
Lemma rank_bound v l j c : (forall j' y, (j' < j)%nat -> l !! j' = Some y -> teq v y -> (cnt v (take j' l) < c)%nat) ->
  (cnt v (take j l) <= c)%nat.
Proof.
  induction j as [|j IH]; intros H; [rewrite take_0, cnt_nil; lia|].
  destruct (l !! j) as [y|] eqn:E.
  - rewrite (take_S_r _ _ _ E), cnt_app, cnt_one.
    destruct (decide (teq v y)) as [Hy|Hy].
    + specialize (H j y ltac:(lia) E Hy). lia.
    + assert (cnt v (take j l) <= c)%nat by (apply IH; intros j' y' ?; apply H; lia). lia.
  - apply lookup_ge_None in E. rewrite take_ge by lia.
    rewrite <- (take_ge l j) by lia. apply IH. intros j' y' ?; apply H; lia.
Qed.

Section pairs.
Context (os ms : list tson).
Definition paired (i j : nat) : Prop :=
  exists x y, os !! i = Some x ∧ ms !! j = Some y ∧ teq x y ∧ cnt x (take i os) = cnt x (take j ms).
End pairs.
Definition pairb (os ms : list tson) (ij : nat * nat) : bool :=
  match os !! fst ij, ms !! snd ij with
  | Some x, Some y => bool_decide (teq x y) && Nat.eqb (cnt x (take (fst ij) os)) (cnt x (take (snd ij) ms))
  | _, _ => false
  end.
Lemma pairb_iff os ms i j : pairb os ms (i, j) = true <-> paired os ms i j.
Proof.
  unfold pairb, paired. cbn [fst snd]. destruct (os !! i) as [x|], (ms !! j) as [y|]; split; try done; try (by intros (?&?&?&?&?)).
  - rewrite andb_true_iff, bool_decide_eq_true, Nat.eqb_eq. intros [? ?]. by exists x, y.
  - intros (x' & y' & [= <-] & [= <-] & H1 & H2). rewrite andb_true_iff, bool_decide_eq_true, Nat.eqb_eq. done.
Qed.
Definition pairs (os ms : list tson) : list (nat * nat) :=
  remove_dups (filter (fun ij => pairb os ms ij = true) (list_prod (seq 0 (length os)) (seq 0 (length ms)))).
Lemma pairs_iff os ms i j : (i, j) ∈ pairs os ms <-> paired os ms i j.
Proof.
  unfold pairs. rewrite elem_of_remove_dups, elem_of_list_filter, pairb_iff. split; [by intros [? _]|].
  intros H. split; [done|]. destruct H as (x & y & Hx & Hy & _). apply elem_of_list_In, in_prod; apply elem_of_list_In, elem_of_seq.
  - apply lookup_lt_Some in Hx. lia.
  - apply lookup_lt_Some in Hy. lia.
Qed.
Lemma pairs_fst os ms i : i ∈ map fst (pairs os ms) <-> exists j, paired os ms i j.
Proof.
  rewrite elem_of_list_fmap. split.
  - intros ([i' j] & -> & H%pairs_iff). by exists j.
  - intros [j H%pairs_iff]. by exists (i, j).
Qed.
Lemma pairs_snd os ms j : j ∈ map snd (pairs os ms) <-> exists i, paired os ms i j.
Proof.
  rewrite elem_of_list_fmap. split.
  - intros ([i j'] & -> & H%pairs_iff). by exists i.
  - intros [i H%pairs_iff]. by exists (i, j).
Qed.
Lemma paired_flip os ms i j : Forall fine os -> Forall fine ms -> paired os ms i j -> paired ms os j i.
Proof.
  intros Ho Hm (x & y & Hx & Hy & Heq & Hc).
  assert (fine x) by (eapply Forall_lookup_1; [exact Ho|done]).
  assert (fine y) by (eapply Forall_lookup_1; [exact Hm|done]).
  exists y, x. split; [done|]. split; [done|]. split; [by apply teq_sym|].
  rewrite <- (cnt_teq x y (take j ms)), <- (cnt_teq x y (take i os)); auto using Forall_take.
Qed.
Lemma paired_fun os ms i j j' : Forall fine os -> Forall fine ms -> paired os ms i j -> paired os ms i j' -> j = j'.
Proof.
  intros Ho Hm (x & y & Hx & Hy & Heq & Hc) (x' & y' & Hx' & Hy' & Heq' & Hc').
  rewrite Hx in Hx'. injection Hx' as <-.
  destruct (decide (j < j')%nat) as [H|H].
  - pose proof (cnt_take_mono x ms (S j) j' ltac:(lia)) as HM. rewrite (cnt_take_S _ _ _ _ Hy Heq) in HM. lia.
  - destruct (decide (j' < j)%nat) as [H'|H']; [|lia].
    pose proof (cnt_take_mono x ms (S j') j ltac:(lia)) as HM. rewrite (cnt_take_S _ _ _ _ Hy' Heq') in HM. lia.
Qed.

Lemma find_match_some v ms used i j : find_match v ms used i = Some j ->
  exists n y, j = (i + n)%nat ∧ ms !! n = Some y ∧ teq v y ∧ j ∉ used ∧
    forall n' y', (n' < n)%nat -> ms !! n' = Some y' -> teq v y' -> (i + n')%nat ∈ used.
Proof.
  revert i. induction ms as [|m ms IH]; intros i; [done|]. cbn [find_match].
  case_decide as Hu; [|destruct (tson_deep_eq v m) eqn:Em].
  - intros (n & y & -> & Hn & Hv & Hj & Hf)%IH. exists (S n), y.
    split; [lia|]. split; [done|]. split; [done|]. split; [by replace (i + S n)%nat with (S i + n)%nat by lia|].
    intros [|n'] y' Hlt Hy' Hv'; [by rewrite Nat.add_0_r|].
    replace (i + S n')%nat with (S i + n')%nat by lia. apply (Hf n' y'); [lia|done..].
  - intros [= <-]. exists 0%nat, m. rewrite Nat.add_0_r. split; [done|]. split; [done|]. split; [done|]. split; [done|].
    intros; lia.
  - intros (n & y & -> & Hn & Hv & Hj & Hf)%IH. exists (S n), y.
    split; [lia|]. split; [done|]. split; [done|]. split; [by replace (i + S n)%nat with (S i + n)%nat by lia|].
    intros [|n'] y' Hlt Hy' Hv'; [cbn in Hy'; unfold teq in Hv'; congruence|].
    replace (i + S n')%nat with (S i + n')%nat by lia. apply (Hf n' y'); [lia|done..].
Qed.
Lemma find_match_none v ms used i : find_match v ms used i = None ->
  forall n y, ms !! n = Some y -> teq v y -> (i + n)%nat ∈ used.
Proof.
  revert i. induction ms as [|m ms IH]; intros i; [done|]. cbn [find_match].
  case_decide as Hu; [|destruct (tson_deep_eq v m) eqn:Em; [done|]]; intros E [|n] y Hn Hv.
  - by rewrite Nat.add_0_r.
  - replace (i + S n)%nat with (S i + n)%nat by lia. by apply (IH (S i) E n y).
  - cbn in Hn. unfold teq in Hv. congruence.
  - replace (i + S n)%nat with (S i + n)%nat by lia. by apply (IH (S i) E n y).
Qed.

(** After handling the elements [pre], exactly the elements of rank below their number
    are taken. *)
Definition taken (pre ms : list tson) (used : list nat) : Prop :=
  forall j y, ms !! j = Some y -> j ∈ used <-> (cnt y (take j ms) < cnt y pre)%nat.
Definition elem_at (l : list tson) (i : nat) : nat * tson := (i, default TNil (l !! i)).
Lemma unmatched_spec ms : Forall fine ms -> forall suf pre used, Forall fine (pre ++ suf) -> taken pre ms used ->
  unmatched suf (length pre) ms used =
  map (elem_at (pre ++ suf)) (filter (fun i => i ∉ map fst (pairs (pre ++ suf) ms)) (seq (length pre) (length suf))).
Proof.
  intros Hm. induction suf as [|o suf IH]; intros pre used HF HT; [done|].
  cbn [unmatched length seq]. rewrite filter_cons.
  assert (Ho : (pre ++ o :: suf) !! length pre = Some o).
  { rewrite lookup_app_r by lia. by rewrite Nat.sub_diag. }
  assert (Hfo : fine o) by (exact (Forall_lookup_1 _ _ _ _ HF Ho)).
  assert (Htk : take (length pre) (pre ++ o :: suf) = pre) by (by rewrite take_app).
  assert (Hpre : Forall fine pre) by (by apply Forall_app in HF as [? _]).
  destruct (find_match o ms used 0) as [j|] eqn:Ef.
  - apply find_match_some in Ef as (n & y & -> & Hn & Hv & Hj & Hf). cbn [Nat.add] in *.
    assert (Hfy : fine y) by (eapply Forall_lookup_1; [exact Hm|done]).
    assert (Hrank : cnt o (take n ms) = cnt o pre).
    { apply (Nat.le_antisymm).
      - apply rank_bound. intros j' y' Hlt Hy' Hv'.
        assert (fine y') by (eapply Forall_lookup_1; [exact Hm|done]).
        rewrite (cnt_teq o y') by auto using Forall_take. rewrite (cnt_teq o y' pre) by auto.
        apply (HT j' y' Hy'). by apply (Hf j' y').
      - destruct (decide (cnt o (take n ms) < cnt o pre)%nat) as [H|H]; [|lia]. exfalso. apply Hj.
        apply (HT n y Hn). rewrite <- (cnt_teq o y) by auto using Forall_take. by rewrite <- (cnt_teq o y pre) by auto. }
    rewrite decide_False.
    2:{ intros H. apply H. apply pairs_fst. exists n, o, y. rewrite Htk. done. }
    replace (pre ++ o :: suf) with ((pre ++ [o]) ++ suf) by (by rewrite <- app_assoc).
    replace (S (length pre)) with (length (pre ++ [o])) by (rewrite app_length; cbn; lia).
    apply IH; [by rewrite <- app_assoc|].
    intros j y' Hj'. assert (Hfy' : fine y') by (eapply Forall_lookup_1; [exact Hm|done]).
    rewrite elem_of_cons, cnt_app, (HT _ _ Hj'), cnt_one.
    destruct (decide (teq y' o)) as [Hyo|Hyo].
    + assert (Hoy' : teq o y') by (by apply teq_sym).
      rewrite <- (cnt_teq o y' (take j ms)), <- (cnt_teq o y' pre) by auto using Forall_take.
      split.
      * intros [->|H]; [rewrite Hrank; lia|lia].
      * intros H. destruct (decide (cnt o (take j ms) < cnt o pre)%nat) as [|H']; [by right|]. left.
        assert (E : cnt o (take j ms) = cnt o pre) by lia.
        apply (paired_fun (pre ++ o :: suf) ms (length pre)); [done|done| |].
        -- exists o, y'. rewrite Htk. done.
        -- exists o, y. rewrite Htk. done.
    + split.
      * intros [->|H]; [|lia]. exfalso. apply Hyo. rewrite Hn in Hj'. injection Hj' as <-. by apply teq_sym.
      * intros H. right. lia.
  - rewrite decide_True.
    2:{ intros H. apply pairs_fst in H as (j & x & y & Hx & Hy & Heq & Hc). rewrite Ho in Hx. injection Hx as <-.
        rewrite Htk in Hc.
        pose proof (find_match_none _ _ _ _ Ef j y Hy Heq) as Hu. cbn [Nat.add] in Hu.
        assert (Hfy : fine y) by (eapply Forall_lookup_1; [exact Hm|done]).
        apply (HT j y Hy) in Hu. rewrite <- (cnt_teq o y) in Hu by auto using Forall_take.
        rewrite <- (cnt_teq o y pre) in Hu by auto. lia. }
    cbn [map]. f_equal.
    + unfold elem_at. by rewrite Ho.
    + replace (pre ++ o :: suf) with ((pre ++ [o]) ++ suf) by (by rewrite <- app_assoc).
      replace (S (length pre)) with (length (pre ++ [o])) by (rewrite app_length; cbn; lia).
      apply IH; [by rewrite <- app_assoc|].
      intros j y' Hj'. assert (Hfy' : fine y') by (eapply Forall_lookup_1; [exact Hm|done]).
      rewrite (HT _ _ Hj'), cnt_app, cnt_one.
      destruct (decide (teq y' o)) as [Hyo|Hyo]; [|lia]. split; [lia|]. intros H.
      assert (Hoy' : teq o y') by (by apply teq_sym).
      pose proof (find_match_none _ _ _ _ Ef j y' Hj' Hoy') as Hu. by apply (HT j y' Hj').
Qed.
Lemma process_spec os ms : Forall fine os -> Forall fine ms ->
  process_array os ms = map (elem_at os) (leftover (length os) (map fst (pairs os ms))).
Proof.
  intros Ho Hm. apply (unmatched_spec ms Hm os [] []); [done|].
  intros j y Hj. rewrite cnt_nil. split; [|lia]. by intros H%elem_of_nil.
Qed.
