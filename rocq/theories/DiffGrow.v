(** Proofs about the elements of arrays of different length that are matched. *)
From Verif Require Import Base F64 Tson TsonInd BaseLemmas F64Lemmas TsonSpec TextSpec ConvLemmas Heap Patch PatchSpec Diff DiffSpec DiffLemmas ArrayDiff.
From Coq Require Import Lia.

(** The elements of [os] that are not left over. *)
Fixpoint matched (os ms : list tson) (used : list nat) : list tson :=
  match os with
  | [] => []
  | o :: os' =>
      match find_match o ms used 0 with
      | Some j => o :: matched os' ms (j :: used)
      | None => matched os' ms used
      end
  end.
Lemma find_at v ms used : forall i n y, ms !! n = Some y -> tson_deep_eq v y = true -> (i + n)%nat ∉ used ->
  (forall n' y', (n' < n)%nat -> ms !! n' = Some y' -> (i + n')%nat ∈ used ∨ tson_deep_eq v y' = false) ->
  find_match v ms used i = Some (i + n)%nat.
Proof.
  induction ms as [|m ms IH]; intros i n y Hn Hv Hu H; [done|]. cbn [find_match]. destruct n as [|n].
  - injection Hn as ->. rewrite Nat.add_0_r in *. by rewrite decide_False, Hv.
  - assert (E : find_match v ms used (S i) = Some (i + S n)%nat).
    { replace (i + S n)%nat with (S i + n)%nat by lia. apply (IH (S i) n y); [done|done|by replace (S i + n)%nat with (i + S n)%nat by lia|].
      intros n' y' Hlt Hy'. replace (S i + n')%nat with (i + S n')%nat by lia. apply H; [lia|done]. }
    destruct (H 0%nat m ltac:(lia) eq_refl) as [H0|H0]; rewrite ?Nat.add_0_r in *.
    + by rewrite decide_True.
    + rewrite H0. by destruct (decide _).
Qed.
Lemma find_none v ms used : forall i, (forall n y, ms !! n = Some y -> (i + n)%nat ∈ used ∨ tson_deep_eq v y = false) ->
  find_match v ms used i = None.
Proof.
  induction ms as [|m ms IH]; intros i H; [done|]. cbn [find_match].
  assert (E : find_match v ms used (S i) = None).
  { apply IH. intros n y Hy. replace (S i + n)%nat with (i + S n)%nat by lia. by apply H. }
  destruct (H 0%nat m eq_refl) as [H0|H0]; rewrite ?Nat.add_0_r in *.
  - by rewrite decide_True.
  - rewrite H0. by destruct (decide _).
Qed.
Lemma deep_eq_false a b : wf a -> wf b -> ~ same_content a b -> tson_deep_eq a b = false.
Proof. intros Ha Hb H. destruct (tson_deep_eq a b) eqn:E; [|done]. by apply deep_eq_same in E. Qed.

(** ** Trimmed arrays *)
Definition enum_from (i : nat) (l : list tson) : list (nat * tson) := zip (seq i (length l)) l.
Lemma trimmed_run os ms : trimmed os ms -> Forall wf os -> Forall wf ms -> exists ks tl, ms = ks ++ tl ∧
  (forall pre used, (forall j, j ∈ used <-> (j < length pre)%nat) -> Forall2 same_content (matched os (pre ++ ms) used) ks) ∧
  (forall pre used i, (forall j u, pre !! j = Some u -> j ∈ used ∨ forall v, v ∈ ms -> tson_deep_eq v u = false) ->
     (forall j, (length pre <= j)%nat -> j ∉ used) -> unmatched ms i (pre ++ os) used = enum_from (i + length ks) tl).
Proof.
  induction 1 as [ms|u v os ms Huv HT IH|u os ms Hu HT IH]; intros HFo HFm.
  - exists [], ms. split; [done|]. split; [constructor|]. intros pre used. cbn [length]. rewrite app_nil_r.
    intros i H1 H2. rewrite Nat.add_0_r. clear HFo HFm. revert i H1. induction ms as [|m ms IH]; intros i H1; [done|].
    cbn [unmatched]. rewrite find_none.
    + cbn. unfold enum_from. cbn [length seq zip zip_with]. f_equal. apply IH. intros j u Hj. destruct (H1 j u Hj) as [H|H]; [by left|right].
      intros v Hv. apply H. by constructor.
    + intros n y Hy. destruct (H1 n y Hy) as [H|H]; [by left|right]. apply H. constructor.
  - inversion HFo as [|? ? Hwu HFo']; inversion HFm as [|? ? Hwv HFm']; subst.
    destruct (IH HFo' HFm') as (ks & tl & -> & H1 & H2). exists (v :: ks), tl. split; [done|]. split.
    + intros pre used Hused. cbn [matched]. rewrite (find_at u _ used 0 (length pre) v).
      * cbn [Nat.add]. constructor; [done|]. specialize (H1 (pre ++ [v]) (length pre :: used)).
        rewrite <- app_assoc in H1. apply H1. intros j. rewrite elem_of_cons, Hused, app_length. cbn [length]. lia.
      * rewrite lookup_app_r by lia. by rewrite Nat.sub_diag.
      * by apply deep_eq_same.
      * cbn [Nat.add]. rewrite Hused. lia.
      * intros n' y' Hlt _. left. cbn [Nat.add]. by apply Hused.
    + intros pre used i Hpre Hfree. cbn [unmatched]. rewrite (find_at v _ used 0 (length pre) u).
      * cbn [Nat.add length]. specialize (H2 (pre ++ [u]) (length pre :: used) (S i)). rewrite <- app_assoc in H2. cbn [app] in H2.
        rewrite H2; [by replace (S i + length ks)%nat with (i + S (length ks))%nat by lia| |].
        -- intros j w Hj. destruct (decide (j < length pre)%nat) as [Hlt|Hge].
           ++ rewrite lookup_app_l in Hj by done. destruct (Hpre j w Hj) as [H|H]; [left; by constructor|right]. intros v' Hv'. apply H. by constructor.
           ++ left. apply lookup_lt_Some in Hj. rewrite app_length in Hj. cbn [length] in Hj. replace j with (length pre) by lia. constructor.
        -- intros j. rewrite app_length. cbn [length]. intros Hj. rewrite elem_of_cons. intros [->|H]; [lia|]. apply (Hfree j); [lia|done].
      * rewrite lookup_app_r by lia. by rewrite Nat.sub_diag.
      * apply deep_eq_same; [done|done|by apply same_sym].
      * cbn [Nat.add]. by apply Hfree.
      * intros n' y' Hlt Hy'. rewrite lookup_app_l in Hy' by done. destruct (Hpre _ _ Hy') as [H|H]; [by left|right]. apply H. constructor.
  - inversion HFo as [|? ? Hwu HFo']; subst. destruct (IH HFo' HFm) as (ks & tl & Ems & H1 & H2). exists ks, tl.
    split; [done|]. rewrite Forall_forall in HFm. split.
    + intros pre used Hused. cbn [matched]. rewrite find_none; [by apply H1|]. intros n y Hy. cbn [Nat.add].
      destruct (decide (n < length pre)%nat) as [Hlt|Hge]; [left; by apply Hused|right].
      rewrite lookup_app_r in Hy by lia. apply elem_of_list_lookup_2 in Hy. apply deep_eq_false; auto.
    + intros pre used i Hpre Hfree. specialize (H2 (pre ++ [u]) used i). rewrite <- app_assoc in H2. cbn [app] in H2. apply H2.
      * intros j w Hj. destruct (decide (j < length pre)%nat) as [Hlt|Hge].
        -- rewrite lookup_app_l in Hj by done. by apply (Hpre j w).
        -- right. pose proof Hj as Hj'. apply lookup_lt_Some in Hj'. rewrite app_length in Hj'. cbn [length] in Hj'.
           rewrite lookup_app_r in Hj by lia. replace (j - length pre)%nat with 0%nat in Hj by lia. injection Hj as <-.
           intros v Hv. apply deep_eq_false; [auto|done|]. intros HS. apply (Hu v Hv). by apply same_sym.
      * intros j. rewrite app_length. cbn [length]. intros Hj. apply Hfree. lia.
Qed.

(** ** Parted arrays *)
Lemma matched_length ms : forall os used, NoDup used -> (forall j, j ∈ used -> (j < length ms)%nat) ->
  (length (matched os ms used) + length used <= length ms)%nat.
Proof.
  induction os as [|o os IH]; intros used ND Hu; cbn [matched].
  - cbn [length]. rewrite <- (seq_length (length ms) 0). apply submseteq_length. apply NoDup_submseteq; [done|].
    intros j Hj. apply elem_of_seq. specialize (Hu _ Hj). lia.
  - destruct (find_match o ms used 0) as [j|] eqn:Ef; [|by apply IH].
    apply find_match_lt in Ef as [Hj Hn]. specialize (IH (j :: used)). cbn [length] in *.
    enough (length (matched os ms (j :: used)) + S (length used) <= length ms)%nat by lia. apply IH.
    + by constructor.
    + intros x [->|Hx]%elem_of_cons; [lia|auto].
Qed.
Lemma matched_prefix p p' : Forall2 same_content p p' -> forall r pre r' used, Forall wf p -> Forall wf p' -> NoDup used ->
  (forall j, j ∈ used <-> (j < length pre)%nat) ->
  exists zs, matched (p ++ r) (pre ++ p' ++ r') used = p ++ zs ∧ (length zs <= length r')%nat.
Proof.
  induction 1 as [|u v p p' Huv HF IH]; intros r pre r' used Hp Hp' ND Hused.
  - exists (matched r (pre ++ r') used). split; [done|]. cbn [app].
    assert (E : length used = length pre).
    { rewrite <- (seq_length (length pre) 0). apply Permutation_length, NoDup_Permutation; [done|apply NoDup_seq|].
      intros j. rewrite Hused, elem_of_seq. lia. }
    pose proof (matched_length (pre ++ r') r used ND) as H. rewrite app_length in H.
    enough (length (matched r (pre ++ r') used) + length used <= length pre + length r')%nat by lia.
    apply H. intros j Hj. apply Hused in Hj. lia.
  - inversion Hp; inversion Hp'; subst. cbn [app matched]. rewrite (find_at u _ used 0 (length pre) v).
    + cbn [Nat.add]. destruct (IH r (pre ++ [v]) r' (length pre :: used)) as (zs & E & Hz); [done|done| | |].
      * constructor; [|done]. rewrite Hused. lia.
      * intros j. rewrite elem_of_cons, Hused, app_length. cbn [length]. lia.
      * exists zs. rewrite <- app_assoc in E. cbn [app] in E. by rewrite E.
    + rewrite lookup_app_r by lia. by rewrite Nat.sub_diag.
    + by apply deep_eq_same.
    + cbn [Nat.add]. rewrite Hused. lia.
    + intros n' y' Hlt _. left. cbn [Nat.add]. by apply Hused.
Qed.
Lemma parted_split l l' : parted l l' -> exists p r p' r', l = p ++ r ∧ l' = p' ++ r' ∧ Forall2 same_content p p' ∧
  (forall v, v ∈ r' -> exists x ts, v = TLeaf x ts) ∧ (forall i u v, r !! i = Some u -> r' !! i = Some v -> ~ same_content u v).
Proof.
  induction 1 as [u v l l' Huv _ IH|l l' H1 H2].
  - destruct IH as (p & r & p' & r' & -> & -> & HF & H1 & H2). exists (u :: p), r, (v :: p'), r'.
    split; [done|]. split; [done|]. split; [by constructor|]. by split.
  - by exists [], l, [], l'.
Qed.
(** What is in place after the removals, and what the updates have to write. *)
Definition placed (os ms zs : list tson) : Prop := (length zs <= length ms)%nat ∧
  forall j v, ms !! j = Some v -> (exists z, zs !! j = Some z ∧ same_content z v) ∨
    ((exists x ts, v = TLeaf x ts) ∧ forall u, os !! j = Some u -> ~ same_content u v).
Lemma parted_run os ms : parted os ms -> Forall wf os -> Forall wf ms -> placed os ms (matched os ms []).
Proof.
  intros (p & r & p' & r' & -> & -> & HF & H1 & H2)%parted_split Ho Hm.
  apply Forall_app in Ho as [Ho _]. apply Forall_app in Hm as [Hm _].
  destruct (matched_prefix p p' HF r [] r' [] Ho Hm) as (zs & E & Hz); [constructor| |].
  { intros j. cbn [length]. split; [by intros ?%elem_of_nil|lia]. }
  cbn [app] in E. rewrite E. pose proof (Forall2_length _ _ _ HF) as Hl. split; [rewrite !app_length; lia|].
  intros j v Hj. destruct (decide (j < length p')%nat) as [Hlt|Hge].
  - left. rewrite lookup_app_l in Hj by done. destruct (Forall2_lookup_r _ _ _ _ _ HF Hj) as (z & Hz' & HS).
    exists z. by rewrite lookup_app_l by lia.
  - right. rewrite lookup_app_r in Hj by lia. split; [apply H1; by eapply elem_of_list_lookup_2|].
    intros u Hu. rewrite lookup_app_r in Hu by lia. rewrite Hl in Hu. by apply (H2 _ _ _ Hu Hj).
Qed.
