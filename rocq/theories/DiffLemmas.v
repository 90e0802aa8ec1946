(** Proofs about patch generation: comparing documents, and when the patch is empty. *)
From Verif Require Import Base F64 Tson TsonInd BaseLemmas F64Lemmas TsonSpec TextSpec ConvLemmas Heap Patch PatchSpec Diff DiffSpec.
From Coq Require Import Lia.

(** ** Equations *)
Definition hv_members (wt : bool) (mo : list (string * tson)) (path : string) :=
  fix go (mm : list (string * tson)) : res (list operation) :=
    match mm with
    | [] => Ok []
    | (k, v) :: mm' =>
        let p := make_path path k in
        do here <-
          match alookup k mo with
          | None => emit_leaf OAdd p v
          | Some ov => if same_type ov v then handle_values wt ov v p else emit_leaf OReplace p v
          end;
        do rest <- go mm';
        Ok (here ++ rest)
    end.
Definition hv_elems (wt : bool) (path : string) :=
  fix go (i : nat) (lo lm : list tson) {struct lm} : res (list operation) :=
    match lm, lo with
    | m :: lm', o :: lo' =>
        do here <- handle_values wt o m (idx_path path i);
        do rest <- go (S i) lo' lm';
        Ok (here ++ rest)
    | _, _ => Ok []
    end.
Lemma handle_obj wt mo mm path : handle_values wt (TObj mo) (TObj mm) path =
  do changed <- hv_members wt mo path mm; do removed <- diff_removed path mo mm; Ok (changed ++ removed).
Proof. reflexivity. Qed.
Lemma handle_arr wt lo lm path : handle_values wt (TArr lo) (TArr lm) path =
  if Nat.eqb (length lo) (length lm) then hv_elems wt path 0 lo lm
  else if wt then compare_array_ts lo lm path else compare_array lo lm path.
Proof. reflexivity. Qed.
Lemma hv_members_cons wt mo path k v mm : hv_members wt mo path ((k, v) :: mm) =
  do here <-
    match alookup k mo with
    | None => emit_leaf OAdd (make_path path k) v
    | Some ov => if same_type ov v then handle_values wt ov v (make_path path k) else emit_leaf OReplace (make_path path k) v
    end;
  do rest <- hv_members wt mo path mm; Ok (here ++ rest).
Proof. reflexivity. Qed.
Lemma hv_elems_cons wt path i o lo m lm : hv_elems wt path i (o :: lo) (m :: lm) =
  do here <- handle_values wt o m (idx_path path i); do rest <- hv_elems wt path (S i) lo lm; Ok (here ++ rest).
Proof. reflexivity. Qed.

Lemma bind_ok {A B} (x : res A) (f : A -> res B) y : rbind x f = Ok y -> exists a, x = Ok a ∧ f a = Ok y.
Proof. destruct x; [|done..]. intros E. by eexists. Qed.

(** ** Comparing documents *)
Lemma prim_eq_iff p q : Diff.prim_eq p q = true <-> TsonSpec.prim_eq p q.
Proof.
  destruct p, q; cbn; try done.
  - apply bool_decide_eq_true.
  - apply eqb_true_iff.
Qed.
Lemma prim_eq_type p q ts ts' : TsonSpec.prim_eq p q -> same_type (TLeaf p ts) (TLeaf q ts') = true.
Proof. by destruct p, q. Qed.
Lemma agree_type R a b : agree R a b -> same_type a b = true.
Proof. destruct 1; try done. by apply prim_eq_type. Qed.
Lemma agree_weaken (P Q : Z -> Z -> Prop) a b : (forall x y, P x y -> Q x y) -> agree P a b -> agree Q a b.
Proof.
  intros HPQ. revert b. induction a as [|p ts|m IH|l IH] using tson_ind'; intros b H.
  - inversion H; subst. constructor.
  - inversion H; subst. constructor; auto.
  - inversion H as [| | |? m1 m2 HP HF]; subst. apply (ag_obj _ _ m1); [done|]. rewrite HP in IH. clear HP H.
    induction HF as [|x y m1 m2 [E Hxy] HF IHF]; constructor; inversion IH; subst; auto.
  - inversion H as [| |? l2 HF|]; subst. constructor. clear H.
    induction HF as [|x y m1 m2 Hxy HF IHF]; constructor; inversion IH; subst; auto.
Qed.

(** Objects with distinct keys agree when they have the same keys and agreeing members. *)
Lemma agree_members R m m' : NoDup (akeys m) -> NoDup (akeys m') ->
  (forall k v, alookup k m' = Some v -> exists u, alookup k m = Some u ∧ agree R u v) ->
  (forall k, is_Some (alookup k m) -> is_Some (alookup k m')) ->
  agree R (TObj m) (TObj m').
Proof.
  intros ND ND' H1 H2.
  assert (Hlen : length m = length m').
  { assert (E : akeys m ≡ₚ akeys m').
    { apply NoDup_Permutation; [done..|]. intros k. split.
      - intros Hk. destruct (alookup k m') eqn:E; [apply alookup_Some_in in E; apply elem_of_list_fmap; by exists (k, t)|].
        exfalso. destruct (alookup k m) eqn:E2; [|by apply alookup_None_iff in E2].
        destruct (H2 k) as [? ?]; [by rewrite E2|]. congruence.
      - intros Hk. destruct (alookup k m') eqn:E; [|by apply alookup_None_iff in E].
        destruct (H1 _ _ E) as (u & Eu & _). apply alookup_Some_in in Eu. apply elem_of_list_fmap. by exists (k, u). }
    apply Permutation_length in E. unfold akeys in E. by rewrite !map_length in E. }
  destruct (obj_match (agree R) m m' ND ND' Hlen) as (m1 & HP & HF).
  { intros k u Hin. apply (alookup_in _ _ _ ND) in Hin.
    destruct (H2 k) as [v Ev]; [by rewrite Hin|]. exists v. split; [done|].
    destruct (H1 _ _ Ev) as (u' & Eu & HA). congruence. }
  symmetry in HP. destruct (Forall2_perm_l _ _ _ _ HF HP) as (m2 & HP2 & HF2). by apply (ag_obj _ _ m2).
Qed.
Lemma agree_members_inv R m m' : NoDup (akeys m) -> NoDup (akeys m') -> agree R (TObj m) (TObj m') ->
  (forall k v, alookup k m' = Some v -> exists u, alookup k m = Some u ∧ agree R u v) ∧
  (forall k u, alookup k m = Some u -> exists v, alookup k m' = Some v ∧ agree R u v).
Proof.
  intros ND ND'. inversion 1 as [| | |? m1 ? HP HF]; subst. split.
  - intros k v Hin%alookup_Some_in. apply elem_of_list_lookup in Hin as [i Hi].
    destruct (Forall2_lookup_r _ _ _ _ _ HF Hi) as ([k' u] & Hj & Ek & HR). cbn [fst snd] in *. subst.
    exists u. split; [|done]. apply alookup_in; [done|]. rewrite HP. by eapply elem_of_list_lookup_2.
  - intros k u Hin%alookup_Some_in. by apply (obj_match_inv (agree R) m m1 m' ND' HP HF).
Qed.

Lemma deep_eq_tarr l l' : tson_deep_eq (TArr l) (TArr l') = true <-> Forall2 (fun a b => tson_deep_eq a b = true) l l'.
Proof.
  revert l'. induction l as [|x l IH]; intros [|y l'].
  - split; [constructor|done].
  - split; [done|by inversion 1].
  - split; [done|by inversion 1].
  - change (tson_deep_eq (TArr (x :: l)) (TArr (y :: l'))) with (tson_deep_eq x y && tson_deep_eq (TArr l) (TArr l')).
    rewrite andb_true_iff, IH. split; [intros [? ?]; by constructor|by inversion 1].
Qed.
Lemma deep_eq_same a b : wf a -> wf b -> tson_deep_eq a b = true <-> same_content a b.
Proof.
  unfold same_content. revert b. induction a as [|p ts|m IH|l IH] using tson_ind'; intros b Ha Hb.
  - destruct b; split; try done; try (by inversion 1). constructor.
  - destruct b; split; try done; try (by inversion 1).
    + cbn [tson_deep_eq]. rewrite andb_true_iff, prim_eq_iff. intros [H1 H2%Z.eqb_eq]. by constructor.
    + cbn [tson_deep_eq]. inversion 1; subst. rewrite andb_true_iff, prim_eq_iff. split; [done|]. apply Z.eqb_refl.
  - inversion Ha as [| |? ND HF|]; subst. destruct b as [| |m'|]; split; try done; try (by inversion 1);
      inversion Hb as [| |? ND' HF'|]; subst; rewrite Forall_forall in IH, HF, HF'.
    + cbn [tson_deep_eq]. rewrite andb_true_iff, Nat.eqb_eq, forallb_forall. intros [Hlen H].
      destruct (obj_match (agree eq) m m' ND ND' Hlen) as (m1 & HP & HF1).
      { intros k u Hin. pose proof Hin as Hin0. apply elem_of_list_In in Hin. specialize (H _ Hin). cbn [fst snd] in H.
        destruct (alookup k m') as [v|] eqn:E; [|done]. exists v. split; [done|].
        apply (IH (k, u) Hin0 v); [by apply (HF (k, u))| |done]. apply alookup_Some_in in E. by apply (HF' (k, v)). }
      symmetry in HP. destruct (Forall2_perm_l _ _ _ _ HF1 HP) as (m2 & HP2 & HF2). by apply (ag_obj _ _ m2).
    + intros H. pose proof (agree_members_inv _ _ _ ND ND' H) as [_ H2].
      cbn [tson_deep_eq]. rewrite andb_true_iff, Nat.eqb_eq, forallb_forall. split.
      * inversion H as [| | |? m1 ? HP HF1]; subst. rewrite HP. by apply Forall2_length in HF1.
      * intros [k u] Hin. apply elem_of_list_In in Hin. cbn [fst snd].
        destruct (H2 k u) as (v & E & HA); [by apply alookup_in|]. rewrite E.
        apply (IH (k, u) Hin v); [by apply (HF (k, u))| |done]. apply alookup_Some_in in E. by apply (HF' (k, v)).
  - inversion Ha as [| | |? HF]; subst. destruct b as [| | |l']; split; try done; try (by inversion 1);
      inversion Hb as [| | |? HF']; subst; rewrite deep_eq_tarr.
    + intros H. constructor. clear Ha Hb. induction H; constructor; inversion IH; inversion HF; inversion HF'; subst; naive_solver.
    + inversion 1 as [| |? ? H'|]; subst. clear Ha Hb H. induction H'; constructor; inversion IH; inversion HF; inversion HF'; subst; naive_solver.
Qed.

Lemma f64_eq_sym x y : f64_eq x y = true -> f64_eq y x = true.
Proof. intros H. destruct (f64_eq_true _ _ H) as [->|(s & s' & -> & ->)]; done. Qed.
Lemma f64_eq_trans x y z : f64_eq x y = true -> f64_eq y z = true -> f64_eq x z = true.
Proof.
  intros H H'. destruct (f64_eq_true _ _ H) as [->|(s & s' & -> & ->)]; [done|].
  destruct (f64_eq_true _ _ H') as [<-|(s1 & s2 & E & ->)]; done.
Qed.
Lemma prim_eq_sym p q : TsonSpec.prim_eq p q -> TsonSpec.prim_eq q p.
Proof. destruct p, q; cbn; try done. apply f64_eq_sym. Qed.
Lemma prim_eq_trans p q r : TsonSpec.prim_eq p q -> TsonSpec.prim_eq q r -> TsonSpec.prim_eq p r.
Proof. destruct p, q, r; cbn; try done; try congruence. apply f64_eq_trans. Qed.
Lemma same_refl t : nan_free t -> same_content t t.
Proof.
  unfold same_content. induction t as [|p ts|m IH|l IH] using tson_ind'; intros H.
  - constructor.
  - constructor; [|done]. inversion H; subst; cbn; [done..|]. by apply f64_eq_refl.
  - apply (ag_obj _ _ m); [done|]. inversion H as [| | | |? HF|]; subst. clear H.
    induction IH as [|x m Hx _ IHm]; constructor; inversion HF; subst; auto.
  - constructor. inversion H as [| | | | |? HF]; subst. clear H.
    induction IH as [|x m Hx _ IHm]; constructor; inversion HF; subst; auto.
Qed.
Lemma same_sym t u : same_content t u -> same_content u t.
Proof.
  unfold same_content. revert u. induction t as [|p ts|m IH|l IH] using tson_ind'; intros u H.
  - inversion H. constructor.
  - inversion H; subst. constructor; [by apply prim_eq_sym|done].
  - inversion H as [| | |? m' m'' HP HF]; subst.
    apply Forall2_flip' in HF.
    assert (HF' : Forall2 (fun a b : string * tson => fst a = fst b ∧ agree eq (snd a) (snd b)) m'' m').
    { assert (IH' : Forall (fun kv : string * tson => forall u, agree eq (snd kv) u -> agree eq u (snd kv)) m').
      { by rewrite <- HP. }
      clear -HF IH'. induction HF as [|b a m'' m' [E Hab] HF IHF]; constructor; inversion IH'; subst; auto. }
    symmetry in HP. destruct (Forall2_perm_l _ _ _ _ HF' HP) as (k & Hk & HFk). econstructor; eauto.
  - inversion H as [| |? l' HF|]; subst. constructor. clear H. induction HF; constructor; inversion IH; subst; auto.
Qed.
Lemma same_trans t u v : same_content t u -> same_content u v -> same_content t v.
Proof.
  unfold same_content. revert u v. induction t as [|p ts|m IH|l IH] using tson_ind'; intros u v H H'.
  - by inversion H; subst.
  - inversion H; subst. inversion H'; subst. constructor; [by eapply prim_eq_trans|done].
  - inversion H as [| | |? m' m'' HP HF]; subst. inversion H' as [| | |? m2 m3 HP' HF']; subst.
    destruct (Forall2_perm_l _ _ _ _ HF HP') as (k & Hk & HFk).
    apply (ag_obj _ _ k); [by rewrite HP|].
    assert (IH' : Forall (fun kv : string * tson => forall u v, agree eq (snd kv) u -> agree eq u v -> agree eq (snd kv) v) k).
    { by rewrite <- Hk, <- HP. }
    clear -HFk HF' IH'. revert m3 HF'. induction HFk as [|a b k m2 [E Hab] HFk IHF]; intros m3 HF'.
    + inversion HF'. constructor.
    + inversion HF' as [|? c ? m4 [E' Hbc] Hr]; subst. inversion IH'; subst. constructor; [|auto].
      split; [congruence|eauto].
  - inversion H as [| |? l' HF|]; subst. inversion H' as [| |? l3 HF'|]; subst. constructor. clear H H'.
    revert l3 HF'. induction HF as [|a b l l' Hab HF IHF]; intros l3 HF'.
    + inversion HF'. constructor.
    + inversion HF'; subst. inversion IH; subst. constructor; eauto.
Qed.

(** ** Matching the elements of two arrays *)
Lemma find_match_lt v ms used i j : find_match v ms used i = Some j ->
  (i <= j < i + length ms)%nat ∧ j ∉ used.
Proof.
  revert i. induction ms as [|m ms IH]; intros i; [done|]. cbn [find_match length].
  case_decide as Hu; [intros E%IH; destruct E; split; [lia|done]|].
  destruct (tson_deep_eq v m); [intros [= <-]; split; [lia|done]|].
  intros E%IH. destruct E; split; [lia|done].
Qed.
Lemma unmatched_empty os i ms used : unmatched os i ms used = [] -> NoDup used ->
  (forall j, j ∈ used -> (j < length ms)%nat) -> (length os + length used <= length ms)%nat.
Proof.
  revert i used. induction os as [|o os IH]; intros i used E ND Hu.
  - cbn [length]. rewrite <- (seq_length (length ms) 0). apply submseteq_length. apply NoDup_submseteq; [done|].
    intros j Hj. apply elem_of_seq. specialize (Hu _ Hj). lia.
  - cbn [unmatched] in E. destruct (find_match o ms used 0) as [j|] eqn:Ef; [|done].
    apply find_match_lt in Ef as [Hj Hn]. apply IH in E.
    + cbn [length] in *. lia.
    + by constructor.
    + intros x [->|Hx]%elem_of_cons; [lia|auto].
Qed.
Lemma process_empty os ms : process_array os ms = [] -> (length os <= length ms)%nat.
Proof.
  intros E. apply (unmatched_empty os 0 ms []) in E; [cbn [length] in E; lia|constructor|].
  intros j Hj. by apply elem_of_nil in Hj.
Qed.
Lemma array_adds_empty p l : array_adds p l = Ok [] -> l = [].
Proof.
  destruct l as [|[i t] l]; [done|]. cbn [array_adds]. destruct t; try done.
  intros (r & _ & E)%bind_ok. done.
Qed.
Lemma array_removes_empty os ms p : array_removes os ms p = [] -> process_array os ms = [].
Proof.
  unfold array_removes. intros E. apply (f_equal length) in E. rewrite rev_length, map_length in E.
  by destruct (process_array os ms).
Qed.
Lemma compare_array_empty os ms p : compare_array os ms p = Ok [] -> length os = length ms.
Proof.
  unfold compare_array. intros (adds & Ea & [= E1])%bind_ok. apply app_nil in E1 as [E1 ->].
  apply array_adds_empty, process_empty in Ea. apply array_removes_empty, process_empty in E1. lia.
Qed.
Lemma array_updates_empty p os ms i : array_updates p os ms i = Ok [] -> (length ms <= length os)%nat.
Proof.
  revert os i. induction ms as [|m ms IH]; intros os i; cbn [array_updates length]; [lia|].
  intros (here & Eh & (rest & Er & [= [-> ->]%app_nil])%bind_ok)%bind_ok. apply IH in Er.
  destruct os as [|o os]; [by destruct m|]. cbn [tail length] in *. lia.
Qed.
Lemma compare_array_ts_empty os ms p : compare_array_ts os ms p = Ok [] -> length os = length ms.
Proof.
  unfold compare_array_ts. intros (ups & Eu & [= [E1 ->]%app_nil])%bind_ok.
  apply array_updates_empty in Eu. apply array_removes_empty, process_empty in E1. lia.
Qed.

(** ** When nothing is generated *)
Definition stamps_rel (wt : bool) (i j : Z) : Prop := wt = true -> i = j.
Lemma hv_members_empty wt mo path mm : hv_members wt mo path mm = Ok [] ->
  forall k v, (k, v) ∈ mm -> exists u, alookup k mo = Some u ∧ same_type u v = true ∧ handle_values wt u v (make_path path k) = Ok [].
Proof.
  induction mm as [|[k v] mm IH]; intros E k' v' Hin; [by apply elem_of_nil in Hin|].
  rewrite hv_members_cons in E. apply bind_ok in E as (here & Eh & E). apply bind_ok in E as (rest & Er & E).
  injection E as E. apply app_nil in E as [-> ->].
  apply elem_of_cons in Hin as [[= -> ->]|Hin]; [|by apply IH].
  destruct (alookup k mo) as [u|]; [|by destruct v]. exists u. split; [done|].
  destruct (same_type u v); [done|]. by destruct v.
Qed.
Lemma diff_removed_empty path mo mm : diff_removed path mo mm = Ok [] ->
  forall k, is_Some (alookup k mo) -> is_Some (alookup k mm).
Proof.
  induction mo as [|[k v] mo IH]; intros E k' Hk; [by destruct Hk|]. cbn [diff_removed] in E.
  apply bind_ok in E as (here & Eh & E). apply bind_ok in E as (rest & Er & E). injection E as E.
  apply app_nil in E as [-> ->]. cbn [alookup] in Hk. case_decide as Hd; [|by apply IH]. subst k'.
  destruct (alookup k mm); [done|]. by destruct v.
Qed.
Lemma handle_empty wt a b path : wf a -> wf b -> handle_values wt a b path = Ok [] -> agree (stamps_rel wt) a b.
Proof.
  revert a path. induction b as [|p ts|m' IH|l' IH] using tson_ind'; intros a path Ha Hb E.
  - destruct a; try done. constructor.
  - destruct a as [|q ts'| |]; try done. cbn [handle_values] in E. destruct (same_type _ _); [|done].
    destruct (Diff.prim_eq q p && _) eqn:Ec; [|done]. apply andb_true_iff in Ec as [H1 H2].
    constructor; [by apply prim_eq_iff|]. intros ->. cbn in H2. by apply Z.eqb_eq in H2.
  - destruct a as [| |m|]; try done. rewrite handle_obj in E.
    apply bind_ok in E as (ch & Ec & E). apply bind_ok in E as (rm & Er & E). injection E as E. apply app_nil in E as [-> ->].
    inversion Ha as [| |? ND HF|]; subst. inversion Hb as [| |? ND' HF'|]; subst.
    rewrite Forall_forall in IH, HF, HF'. apply agree_members; [done..| |].
    + intros k v Ev%alookup_Some_in. destruct (hv_members_empty _ _ _ _ Ec k v Ev) as (u & Eu & _ & Eh).
      exists u. split; [done|]. apply alookup_Some_in in Eu.
      apply (IH (k, v) Ev u (make_path path k)); [by apply (HF (k, u))|by apply (HF' (k, v))|done].
    + by apply (diff_removed_empty path).
  - destruct a as [| | |l]; try done. rewrite handle_arr in E.
    destruct (Nat.eqb_spec (length l) (length l')) as [Hl|Hl].
    + inversion Ha as [| | |? HF]; subst. inversion Hb as [| | |? HF']; subst. constructor.
      clear Ha Hb. revert E. generalize 0%nat. revert l Hl HF.
      induction l' as [|v l' IHl]; intros [|u l] Hl HF i E; try done.
      rewrite hv_elems_cons in E. apply bind_ok in E as (here & Eh & E). apply bind_ok in E as (rest & Er & E).
      injection E as E. apply app_nil in E as [-> ->].
      inversion HF; inversion HF'; inversion IH as [|? ? Hv Hr]; subst. constructor.
      * by apply (Hv u (idx_path path i)).
      * apply (IHl Hr ltac:(done) l ltac:(cbn in Hl; lia) ltac:(done) (S i) Er).
    + destruct wt; [apply compare_array_ts_empty in E|apply compare_array_empty in E]; done.
Qed.

Lemma hv_members_none wt mo path mm :
  (forall k v, (k, v) ∈ mm -> exists u, alookup k mo = Some u ∧ same_type u v = true ∧ handle_values wt u v (make_path path k) = Ok []) ->
  hv_members wt mo path mm = Ok [].
Proof.
  induction mm as [|[k v] mm IH]; intros H; [done|]. rewrite hv_members_cons.
  destruct (H k v) as (u & -> & -> & ->); [constructor|]. cbn [rbind].
  rewrite IH; [done|]. intros k' v' Hin. apply H. by constructor.
Qed.
Lemma diff_removed_none path mo mm : (forall k, k ∈ akeys mo -> is_Some (alookup k mm)) -> diff_removed path mo mm = Ok [].
Proof.
  induction mo as [|[k v] mo IH]; intros H; [done|]. cbn [diff_removed].
  destruct (H k) as [w ->]; [constructor|]. cbn [rbind]. rewrite IH; [done|]. intros k' Hin. apply H. by constructor.
Qed.
Lemma handle_none wt a b path : wf a -> wf b -> agree (stamps_rel wt) a b -> handle_values wt a b path = Ok [].
Proof.
  revert a path. induction b as [|p ts|m' IH|l' IH] using tson_ind'; intros a path Ha Hb E.
  - inversion E; subst. done.
  - inversion E as [|q ? ts' ? Hp Ht| |]; subst. cbn [handle_values]. rewrite (prim_eq_type _ _ _ _ Hp).
    apply prim_eq_iff in Hp. rewrite Hp. cbn [andb].
    replace (negb wt || (ts' =? ts)) with true; [done|]. symmetry. destruct wt; [|done]. cbn. apply Z.eqb_eq. by apply Ht.
  - destruct a as [| |m|]; try (by inversion E).
    inversion Ha as [| |? ND HF|]; subst. inversion Hb as [| |? ND' HF'|]; subst.
    destruct (agree_members_inv _ _ _ ND ND' E) as [H1 H2]. rewrite handle_obj, Forall_forall in *.
    rewrite hv_members_none.
    + cbn [rbind]. rewrite diff_removed_none; [done|]. intros k Hk.
      destruct (alookup k m) as [u|] eqn:Eu; [|by apply alookup_None_iff in Eu]. destruct (H2 _ _ Eu) as (v & -> & _). done.
    + intros k v Hin. destruct (H1 k v) as (u & Eu & HA); [by apply alookup_in|]. exists u.
      split; [done|]. split; [by apply agree_type in HA|]. apply alookup_Some_in in Eu.
      apply (IH (k, v) Hin u); [by apply (HF (k, u))|by apply (HF' (k, v))|done].
  - inversion E as [| |l ? HA|]; subst. rewrite handle_arr. pose proof (Forall2_length _ _ _ HA) as Hl.
    apply Nat.eqb_eq in Hl. rewrite Hl. clear Hl.
    inversion Ha as [| | |? HF]; subst. inversion Hb as [| | |? HF']; subst. clear Ha Hb E. generalize 0%nat.
    induction HA as [|u v l l' Huv HA IHl]; intros i; [done|].
    inversion HF; inversion HF'; inversion IH as [|? ? Hv Hr]; subst. rewrite hv_elems_cons.
    rewrite Hv by done. cbn [rbind]. by rewrite IHl.
Qed.
Lemma generate_empty a b : wf a -> wf b -> generate_patch a b = Ok [] <-> same_values a b.
Proof.
  intros Ha Hb. unfold generate_patch, same_values. split.
  - intros E. apply (agree_weaken (stamps_rel false)); [done|]. by apply (handle_empty false a b "").
  - intros E. apply handle_none; [done..|]. apply (agree_weaken (fun _ _ => True)); [|done]. by intros x y _ ?.
Qed.
Lemma generate_ts_empty a b : wf a -> wf b -> generate_patch_with_timestamp a b = Ok [] <-> same_content a b.
Proof.
  intros Ha Hb. unfold generate_patch_with_timestamp, same_content. split.
  - intros E. apply (agree_weaken (stamps_rel true)); [intros x y H; by apply H|]. by apply (handle_empty true a b "").
  - intros E. apply handle_none; [done..|]. apply (agree_weaken eq); [|done]. by intros x y -> ?.
Qed.
