(** The temporal JSON document built from patches gives the values in force over time. *)
From Verif Require Import Base BaseSpec F64 Tson TsonInd BaseLemmas BaseSpecLemmas Tjson TjsonSpec.
From Coq Require Import Lia.

(** ** Deep equality *)
Lemma json_deep_eq_spec a b : json_deep_eq a b = true <-> same_json a b.
Proof.
  revert b. induction a as [|x|x|x|l IH|m IH] using json_ind'; intros b.
  - split; [destruct b; try done; intros; constructor|inversion 1; done].
  - split; [destruct b as [|y| | | |]; try done|inversion 1; subst; simpl].
    + simpl. rewrite Bool.eqb_true_iff. intros ->. constructor.
    + apply Bool.eqb_reflx.
  - split; [destruct b as [| |y| | |]; try done|by inversion 1; subst].
    simpl. intros. by constructor.
  - split; [destruct b as [| | |y| |]; try done|inversion 1; subst; simpl].
    + simpl. intros ->%bool_decide_eq_true. constructor.
    + by apply bool_decide_eq_true_2.
  - assert (E : forall l', json_deep_eq (JArr l) (JArr l') = true <-> Forall2 same_json l l').
    { simpl. clear b. induction IH as [|x l Hx Hl IHl]; intros [|y l'];
        try (split; [done|by inversion 1]).
      rewrite andb_true_iff, Hx, IHl. split; [intros []; by constructor|by inversion 1]. }
    split.
    + destruct b; try done. intros H. constructor. by apply E.
    + inversion 1; subst. by apply E.
  - assert (E : forall m', json_deep_eq (JObj m) (JObj m') = true <->
       length m = length m' ∧
       Forall (fun kv => exists v', alookup (fst kv) m' = Some v' ∧ same_json (snd kv) v') m).
    { intros m'. cbn [json_deep_eq]. rewrite andb_true_iff, Nat.eqb_eq. apply and_iff_compat_l.
      clear b. induction IH as [|[k v] m Hx Hl IHl]; [by split|].
      rewrite andb_true_iff, IHl. rewrite Forall_cons. apply and_iff_compat_r. simpl in *.
      destruct (alookup k m') as [v'|].
      - rewrite Hx. split; [eauto|]. intros (? & [= ->] & ?). done.
      - split; [done|]. intros (? & ? & ?). done. }
    split.
    + destruct b; try done. intros [H1 H2]%E. by constructor.
    + inversion 1; subst. by apply E.
Qed.

(** ** Names and routes *)
Lemma free_contains c s : free_of [c] s <-> contains c s = false.
Proof.
  induction s as [|a s IH]; simpl; [split; [done|constructor]|].
  split.
  - inversion 1 as [|? ? Ha Hs]; subst. apply IH in Hs. rewrite Hs, orb_false_r.
    apply bool_decide_eq_false. intros <-. apply Ha. by left.
  - intros [H1 H2]%orb_false_iff. constructor; [|by apply IH].
    apply bool_decide_eq_false in H1. intros [->|[]]. done.
Qed.
Lemma names_split c s l : names [c] s l <-> split_on c s = l.
Proof.
  split.
  - induction 1 as [s H|s c' r l Hs Hc Hr IH].
    + by apply split_on_none, free_contains.
    + destruct Hc as [<-|[]]. rewrite split_on_app by by apply free_contains. by rewrite IH.
  - intros <-. induction s as [|a s IH]; [simpl; repeat constructor|].
    cbn [split_on]. case_decide as Ha.
    + subst. apply (nm_more [c] ""); [constructor|by left|done].
    + inversion IH as [s' Hf|s' c' r l Hf Hc Hr]; subst; try (rewrite <- H || rewrite <- H0); simpl.
      * constructor. constructor; [|done]. intros [->|[]]. done.
      * apply (nm_more [c] (String a s')); [|done|done]. constructor; [|done]. intros [->|[]]. done.
Qed.

Lemma names_dots s l : names ["/"; "."]%char s l <-> names ["."%char] (slashes_to_dots s) l.
Proof.
  assert (F : forall s, free_of ["/"; "."]%char s -> slashes_to_dots s = s ∧ free_of ["."%char] s).
  { induction 1 as [|a s0 Ha Hs [IH1 IH2]]; [split; [done|constructor]|]. split.
    - simpl. rewrite decide_False; [by rewrite IH1|]. intros ->. apply Ha. by left.
    - constructor; [|done]. intros [<-|[]]. apply Ha. right. by left. }
  assert (A : forall s s', slashes_to_dots (s +++ s') = slashes_to_dots s +++ slashes_to_dots s').
  { induction s0; intros; simpl; congruence. }
  split.
  - induction 1 as [s H|s c r l Hs Hc Hr IH].
    + apply F in H as [-> H]. by constructor.
    + apply F in Hs as [E Hs]. rewrite A, E. simpl.
      replace (if decide (c = slash) then dot else c) with dot.
      { constructor; [done|by left|done]. }
      destruct Hc as [<-|[<-|[]]]; done.
  - assert (G : forall s, names ["/"; "."]%char s (split_on dot (slashes_to_dots s))).
    { clear. induction s as [|a s IH]; [simpl; repeat constructor|].
      cbn [slashes_to_dots split_on]. destruct (decide (a = slash)) as [->|Ha].
      - rewrite decide_True by done. apply (nm_more _ ""); [constructor|by left|done].
      - destruct (decide (a = dot)) as [->|Hd].
        + apply (nm_more _ ""); [constructor|right; by left|done].
        + assert (Hn : ~ In a ["/"; "."]%char) by (intros [<-|[<-|[]]]; done).
          inversion IH as [s' Hf E1 E2|s' c' r l Hf Hc Hr E1 E2]; subst.
          * constructor. by constructor.
          * apply (nm_more _ (String a s')); [|done|done]. by constructor. }
    intros H%names_split. rewrite <- H. apply G.
Qed.
Lemma route_split s l : route s l <-> split_on dot (tj_path s) = l.
Proof.
  unfold tj_path, strip_slash. rewrite <- (names_split dot), <- names_dots. split.
  - destruct 1 as [s l H|s l Hn H].
    + by rewrite decide_True.
    + destruct s as [|a s]; [done|]. rewrite decide_False; [done|]. intros ->. by apply (Hn s).
  - destruct s as [|a s].
    + intros H. apply rt_plain; done.
    + case_decide as Ha.
      * subst. intros H. by apply (rt_slash s).
      * intros H. apply rt_plain; [|done]. intros r [= -> _]. done.
Qed.

(** ** Time ranges *)
Lemma dec_text_plain n : contains "-" (dec_text n) = false ∧ dec_text n ≠ "".
Proof.
  destruct (proj1 (digits_model _ _) (dec_text_digits n)) as (Hne & Hd & _). split; [|done].
  clear Hne. induction (dec_text n) as [|a s IH]; [done|]. simpl in *.
  apply andb_true_iff in Hd as [Ha Hs]. rewrite IH by done. rewrite orb_false_r.
  apply bool_decide_eq_false. intros ->. done.
Qed.
Lemma lax_dec_text n : Z.of_N n < 2 ^ 63 -> parse_int_lax (dec_text n) = Z.of_N n.
Proof.
  intros Hn. destruct (proj1 (digits_model _ _) (dec_text_digits n)) as (Hne & Hd & Hv).
  unfold parse_int_lax. destruct (dec_text n) as [|a s] eqn:E; [done|].
  assert (Ha : is_digit a = true) by (simpl in Hd; by apply andb_true_iff in Hd as [? ?]).
  apply is_digit_not_sign in Ha as [H1 H2]. rewrite !decide_False by done.
  rewrite Hd, Hv. unfold int64_min, int64_max. lia.
Qed.
Lemma split_cons_len c s : (1 <= length (split_on c s))%nat.
Proof. pose proof (split_on_ne c s). destruct (split_on c s); [done|simpl; lia]. Qed.
Lemma split_contains c s : contains c s = true -> (2 <= length (split_on c s))%nat.
Proof.
  induction s as [|a s IH]; [done|]. cbn [contains split_on]. case_decide as Ha.
  - intros _. simpl. pose proof (split_cons_len c s). lia.
  - rewrite bool_decide_eq_false_2 by done. simpl. intros H%IH.
    destruct (split_on c s); simpl in *; lia.
Qed.
Lemma split_app_len c s s' :
  (length (split_on c (s +++ s')) + 1 = length (split_on c s) + length (split_on c s'))%nat.
Proof.
  induction s as [|a s IH]; [simpl; lia|]. rewrite (eq_refl : String a s +++ s' = String a (s +++ s')).
  cbn [split_on]. case_decide; [simpl; lia|].
  pose proof (split_cons_len c (s +++ s')). pose proof (split_cons_len c s).
  destruct (split_on c (s +++ s')), (split_on c s); simpl in *; lia.
Qed.
Lemma parse_range_ok a b : 0 <= a < 2 ^ 63 -> 0 <= b < 2 ^ 63 -> parse_range (range_text a b) = (a, b).
Proof.
  intros Ha Hb. unfold parse_range, range_text, z_text.
  rewrite !(proj2 (Z.ltb_ge _ _)) by lia.
  change ("-" +++ dec_text (Z.to_N b)) with (String "-" (dec_text (Z.to_N b))).
  rewrite split_on_app by apply dec_text_plain. rewrite split_on_none by apply dec_text_plain.
  rewrite !lax_dec_text by lia. f_equal; lia.
Qed.
Lemma parse_range_negative a b : a < 0 ∨ b < 0 -> parse_range (range_text a b) = (0, 0).
Proof.
  intros H. unfold parse_range.
  assert (Hl : (3 <= length (split_on "-" (range_text a b)))%nat).
  { unfold range_text. pose proof (split_app_len "-" (z_text a) ("-" +++ z_text b)) as H1.
    pose proof (split_app_len "-" "-" (z_text b)) as H2.
    change (length (split_on "-" "-")) with 2%nat in H2.
    assert (Hz : forall z, z < 0 -> (2 <= length (split_on "-" (z_text z)))%nat).
    { intros z Hz. apply split_contains. unfold z_text. rewrite (proj2 (Z.ltb_lt z 0)) by done. done. }
    pose proof (split_cons_len "-" (z_text a)). pose proof (split_cons_len "-" (z_text b)).
    destruct H as [H|H]; apply Hz in H; lia. }
  destruct (split_on "-" (range_text a b)) as [|x [|y [|z r]]]; simpl in *; try lia; done.
Qed.
Lemma range_text_period a b : 0 <= a -> 0 <= b -> period (range_text a b) a b.
Proof.
  intros Ha Hb. unfold range_text, z_text. rewrite !(proj2 (Z.ltb_ge _ _)) by lia.
  exists (dec_text (Z.to_N a)), (dec_text (Z.to_N b)). split; [done|].
  rewrite <- (Z2N.id a) at 2 by done. rewrite <- (Z2N.id b) at 2 by done.
  split; constructor; apply dec_text_digits.
Qed.

(** ** The tree of items *)
Definition vers_below (l : list string) (i : titem) : list (string * json) :=
  match find_below l i with Some j => ti_versions j | None => [] end.
Definition vers (d : tdoc) (l : list string) : list (string * json) :=
  match find_item d l with Some j => ti_versions j | None => [] end.

Lemma push_versions v i : ti_versions (push_version v i) = ti_versions i ++ [v].
Proof. by destruct i. Qed.
Lemma push_children v i : ti_children (push_version v i) = ti_children i.
Proof. by destruct i. Qed.
Lemma find_below_new p l : is_Some (find_below l (new_item p)) <-> l = [].
Proof. destruct l; simpl; split; try done; intros []; done. Qed.
Lemma vers_below_new p l : vers_below l (new_item p) = [].
Proof. by destruct l. Qed.

Lemma find_push v l i : l ≠ [] -> find_below l (push_version v i) = find_below l i.
Proof. destruct l; [done|]. intros _. simpl. by rewrite push_children. Qed.

Lemma add_below_spec v parts i : parts ≠ [] -> forall l,
  vers_below l (add_below v parts i)
    = (if decide (l = parts) then vers_below l i ++ [v] else vers_below l i)
  ∧ (is_Some (find_below l (add_below v parts i)) <-> is_Some (find_below l i) ∨ l `prefix_of` parts).
Proof.
  revert i. induction parts as [|k rest IH]; [done|]. intros [p vs cs] _ [|k' l].
  { cbn [add_below]. unfold vers_below. simpl. split; [done|].
    split; [intros _; right; apply prefix_nil|intros _; eauto]. }
  cbn [add_below]. set (c := default (new_item (fst v)) (alookup k cs)).
  assert (Hc : forall l, vers_below l c = match alookup k cs with Some c => vers_below l c | None => [] end).
  { intros l0. unfold c. destruct (alookup k cs); [done|]. apply vers_below_new. }
  assert (Hf : forall l, is_Some (find_below l c)
     <-> match alookup k cs with Some c => is_Some (find_below l c) | None => l = [] end).
  { intros l0. unfold c. destruct (alookup k cs); [done|]. apply find_below_new. }
  set (c' := match rest with [] => push_version v c | _ => add_below v rest c end).
  assert (Hc' : forall l, vers_below l c' = (if decide (l = rest) then vers_below l c ++ [v] else vers_below l c)
     ∧ (is_Some (find_below l c') <-> is_Some (find_below l c) ∨ l `prefix_of` rest)).
  { intros l0. unfold c'. destruct rest as [|r0 rest].
    - unfold vers_below. destruct l0 as [|x l0].
      + rewrite decide_True by done. simpl. rewrite push_versions. split; [done|].
        split; [|eauto]. intros _. left. eauto.
      + rewrite decide_False by done. rewrite find_push by done. split; [done|].
        split; [auto|]. intros [H|H]; [done|]. by apply prefix_nil_inv in H.
    - apply IH. done. }
  clearbody c'. unfold vers_below in *. cbn [find_below ti_children].
  rewrite alookup_ainsert. destruct (decide (k' = k)) as [->|Hk].
  - destruct (Hc' l) as [H1 H2]. specialize (Hc l). specialize (Hf l). split.
    + rewrite H1. destruct (decide (l = rest)) as [->|Hl].
      * rewrite decide_True by done. rewrite Hc. by destruct (alookup k cs).
      * rewrite decide_False by congruence. rewrite Hc. by destruct (alookup k cs).
    + rewrite H2, Hf. destruct (alookup k cs) as [c0|].
      * split; [intros [H|H]; [auto|right; by apply prefix_cons]|].
        intros [H|H]; [auto|right; by apply prefix_cons_inv_2 in H].
      * split; [intros [->|H]; right; apply prefix_cons; [apply prefix_nil|done]|].
        intros [[? ?]|H]; [done|right; by apply prefix_cons_inv_2 in H].
  - rewrite decide_False by congruence. split; [done|].
    split; [auto|]. intros [H|H]; [done|]. apply prefix_cons_inv_1 in H. congruence.
Qed.

Lemma add_item_spec d path a b v l : l ≠ [] ->
  vers (add_item d path a b v) l
    = (if decide (l = split_on dot path ∧ (2 <= length l)%nat)
       then vers d l ++ [(range_text a b, v)] else vers d l)
  ∧ (is_Some (find_item (add_item d path a b v) l)
     <-> is_Some (find_item d l) ∨ l `prefix_of` split_on dot path).
Proof.
  intros Hl. destruct l as [|k' l]; [done|]. unfold add_item, vers.
  destruct (split_on dot path) as [|k rest] eqn:E; [by apply split_on_ne in E|].
  cbn [find_item]. rewrite alookup_ainsert. destruct (decide (k' = k)) as [->|Hk].
  - set (i := default (new_item (range_text a b)) (alookup k d)).
    assert (Hc : vers_below l i = match alookup k d with Some c => vers_below l c | None => [] end).
    { unfold i. destruct (alookup k d); [done|]. apply vers_below_new. }
    assert (Hf : is_Some (find_below l i)
     <-> match alookup k d with Some c => is_Some (find_below l c) | None => l = [] end).
    { unfold i. destruct (alookup k d); [done|]. apply find_below_new. }
    assert (Hi : vers_below l (add_below (range_text a b, v) rest i)
        = (if decide (l = rest ∧ l ≠ []) then vers_below l i ++ [(range_text a b, v)] else vers_below l i)
      ∧ (is_Some (find_below l (add_below (range_text a b, v) rest i))
         <-> is_Some (find_below l i) ∨ l `prefix_of` rest)).
    { destruct rest as [|r0 rest].
      - rewrite decide_False by (intros []; congruence). simpl. split; [done|].
        split; [auto|]. intros [H|H]; [done|]. apply prefix_nil_inv in H as ->. simpl. eauto.
      - destruct (add_below_spec (range_text a b, v) (r0 :: rest) i ltac:(done) l) as [H1 H2].
        split; [|done]. rewrite H1. case_decide; case_decide; try done; [|tauto].
        exfalso. subst. destruct H0; done. }
    destruct Hi as [H1 H2]. unfold vers_below in *. split.
    + rewrite H1. case_decide as D1; case_decide as D2.
      * rewrite Hc. by destruct (alookup k d).
      * exfalso. apply D2. destruct D1 as [-> D1]. split; [done|]. destruct rest; [done|]. simpl. lia.
      * exfalso. apply D1. destruct D2 as [D2 D3]. injection D2 as ->. split; [done|].
        intros ->. simpl in D3. lia.
      * rewrite Hc. by destruct (alookup k d).
    + rewrite H2, Hf. destruct (alookup k d) as [c0|].
      * split; [intros [H|H]; [auto|right; by apply prefix_cons]|].
        intros [H|H]; [auto|right; by apply prefix_cons_inv_2 in H].
      * split; [intros [->|H]; right; apply prefix_cons; [apply prefix_nil|done]|].
        intros [[? ?]|H]; [done|right; by apply prefix_cons_inv_2 in H].
  - rewrite decide_False by (intros []; congruence). split; [done|].
    split; [auto|]. intros [H|H]; [done|]. apply prefix_cons_inv_1 in H. congruence.
Qed.

(** Distinct keys at every level. *)
Inductive twf : titem -> Prop :=
| twf_intro p vs cs : NoDup (akeys cs) -> Forall (fun kv => twf (snd kv)) cs -> twf (TItem p vs cs).
Definition dwf (d : tdoc) : Prop := NoDup (akeys d) ∧ Forall (fun kv => twf (snd kv)) d.

Lemma Forall_ainsert {V} (P : string * V -> Prop) k v m :
  Forall P m -> P (k, v) -> Forall P (ainsert k v m).
Proof.
  intros Hm Hv. induction Hm as [|[k' v'] m Hx Hm IH]; simpl; [by constructor|].
  case_decide; [subst; by constructor|by constructor].
Qed.
Lemma alookup_Forall {V} (P : V -> Prop) k v (m : list (string * V)) :
  Forall (fun kv => P (snd kv)) m -> alookup k m = Some v -> P v.
Proof.
  intros Hm Hk. apply alookup_Some_in in Hk. rewrite Forall_forall in Hm. by apply (Hm (k, v)).
Qed.
Lemma twf_new p : twf (new_item p).
Proof. constructor; constructor. Qed.
Lemma twf_push v i : twf i -> twf (push_version v i).
Proof. destruct 1. by constructor. Qed.
Lemma twf_add v parts i : twf i -> twf (add_below v parts i).
Proof.
  revert i. induction parts as [|k rest IH]; [done|]. intros i H. destruct H as [p vs cs Hn Hc].
  cbn [add_below]. constructor; [by apply NoDup_ainsert|]. apply Forall_ainsert; [done|]. simpl.
  assert (Hd : twf (default (new_item (fst v)) (alookup k cs))).
  { destruct (alookup k cs) eqn:E; simpl; [by eapply alookup_Forall|apply twf_new]. }
  destruct rest; [by apply twf_push|by apply IH].
Qed.
Lemma dwf_add d path a b v : dwf d -> dwf (add_item d path a b v).
Proof.
  intros [Hn Hc]. unfold add_item. destruct (split_on dot path) as [|k rest]; [done|].
  split; [by apply NoDup_ainsert|]. apply Forall_ainsert; [done|]. simpl. apply twf_add.
  destruct (alookup k d) eqn:E; simpl; [by eapply alookup_Forall|apply twf_new].
Qed.

(** ** One path over time *)
Fixpoint join (l : list string) : string :=
  match l with
  | [] => ""
  | [s] => s
  | s :: l' => s +++ String dot (join l')
  end.
Lemma join_split s : join (split_on dot s) = s.
Proof.
  induction s as [|a s IH]; [done|]. cbn [split_on]. case_decide as Ha.
  - subst. pose proof (split_on_ne dot s). destruct (split_on dot s) eqn:E; [done|].
    rewrite <- IH. done.
  - pose proof (split_on_ne dot s). destruct (split_on dot s) as [|w ws] eqn:E; [done|].
    destruct ws; simpl in *; by rewrite <- IH.
Qed.
Lemma split_inj s s' : split_on dot s = split_on dot s' -> s = s'.
Proof. intros H. rewrite <- (join_split s), H. apply join_split. Qed.

Definition is_setp (p : tpatch) : bool := bool_decide (tp_op p = "add") || bool_decide (tp_op p = "replace").
Lemma is_setp_spec p : is_setp p = true <-> tp_op p = "add" ∨ tp_op p = "replace".
Proof. unfold is_setp. by rewrite orb_true_iff, !bool_decide_eq_true. Qed.
Lemma is_setp_false p : is_setp p = false <-> tp_op p ≠ "add" ∧ tp_op p ≠ "replace".
Proof. unfold is_setp. by rewrite orb_false_iff, !bool_decide_eq_false. Qed.

Definition va_step (key : string) (t : Z) (r : option json) (p : tpatch) : option json :=
  if decide (tj_path (tp_path p) = key ∧ tp_ts p <= t) then
    if is_setp p then Some (tp_value p)
    else if decide (tp_op p = "remove") then None else r
  else r.
Definition val_at (key : string) (t : Z) (ps : list tpatch) : option json :=
  fold_left (va_step key t) ps None.
Lemma val_at_snoc key t ps p : val_at key t (ps ++ [p]) = va_step key t (val_at key t ps) p.
Proof. unfold val_at. by rewrite fold_left_app. Qed.

Lemma value_at_fun key t ps r :
  value_at (split_on dot key) t ps r <-> val_at key t ps = r.
Proof.
  set (l := split_on dot key).
  assert (R : forall s, route s l <-> tj_path s = key).
  { intros s. rewrite route_split. split; [apply split_inj|by intros ->]. }
  split.
  - induction 1 as [|ps p r H IH Hr Ht Ho|ps p r H IH Hr Ht Ho|ps p r H IH Ho]; [done|..];
      rewrite val_at_snoc; unfold va_step.
    + apply R in Hr. rewrite decide_True by done. apply is_setp_spec in Ho. by rewrite Ho.
    + apply R in Hr. rewrite decide_True by done.
      assert (E : is_setp p = false) by (apply is_setp_false; rewrite Ho; done).
      rewrite E. by rewrite decide_True.
    + case_decide as Hd; [|done]. destruct Hd as [Hd1 Hd2].
      destruct Ho as [Ho|[Ho|Ho]]; [by rewrite R in Ho|lia|].
      assert (E : is_setp p = false).
      { apply is_setp_false. split; intros E; apply Ho; rewrite E; simpl; auto. }
      rewrite E. rewrite decide_False; [done|]. intros E'. apply Ho. rewrite E'. simpl; auto.
  - revert r. induction ps as [|p ps IH] using rev_ind; intros r.
    + intros <-. constructor.
    + rewrite val_at_snoc. unfold va_step. case_decide as Hd.
      * destruct Hd as [Hd1 Hd2]. apply R in Hd1. destruct (is_setp p) eqn:E.
        { intros <-. eapply va_set; eauto. by apply is_setp_spec. }
        case_decide as Hr.
        { intros <-. eapply va_remove; eauto. }
        intros H. apply va_other; [auto|]. right. right. apply is_setp_false in E as [E1 E2].
        intros [H'|[H'|[H'|[]]]]; congruence.
      * intros H. apply va_other; [auto|].
        destruct (decide (tj_path (tp_path p) = key)) as [Hk|Hk].
        { right. left. apply Z.nle_gt. intros ?. by apply Hd. }
        left. by rewrite R.
Qed.

(** ** The invariant of the patch loop *)
Section loop.
Context (key : string).
Let l := split_on dot key.
Context (Hl : (2 <= length l)%nat).

Definition run : Type := Z * Z * json.
Definition r_text (r : run) : string * json := let '(a, b, v) := r in (range_text a b, v).
Definition time_ok (a : Z) : Prop := 0 <= a < 2 ^ 63.
Definition covers (t : Z) (r : run) : Prop := let '(a, b, _) := r in a <= t <= b.
Definition r_val (r : run) : json := let '(_, _, v) := r in v.

Record inv (ps : list tpatch) (M : Z) (st : tdoc * list (string * (Z * json))) (rs : list run) : Prop := {
  inv_vers : vers (fst st) l = map r_text rs;
  inv_rng : Forall (fun r => let '(a, b, v) := r in time_ok a ∧ time_ok b ∧ b < M) rs;
  inv_sound : forall r t, r ∈ rs -> covers t r -> exists w, val_at key t ps = Some w ∧ alike (r_val r) w;
  inv_src : forall a b v, (a, b, v) ∈ rs ->
    exists p, p ∈ ps ∧ is_setp p = true ∧ tj_path (tp_path p) = key ∧ tp_ts p = a ∧ tp_value p = v;
  inv_cur : match alookup key (snd st) with
    | Some (a, v) => time_ok a ∧ a <= M ∧ (exists p, p ∈ ps ∧ is_setp p = true ∧
          tj_path (tp_path p) = key ∧ tp_ts p = a ∧ tp_value p = v) ∧
        (forall t, a <= t -> exists w, val_at key t ps = Some w ∧ alike v w) ∧
        (forall t w, t < a -> val_at key t ps = Some w ->
           exists r, r ∈ rs ∧ covers t r ∧ alike (r_val r) w)
    | None => forall t w, val_at key t ps = Some w -> exists r, r ∈ rs ∧ covers t r ∧ alike (r_val r) w
    end
}.

Lemma val_at_lt t ps p : t < tp_ts p -> val_at key t (ps ++ [p]) = val_at key t ps.
Proof. intros H. rewrite val_at_snoc. unfold va_step. rewrite decide_False; [done|]. intros []. lia. Qed.
Lemma val_at_ne t ps p : tj_path (tp_path p) ≠ key -> val_at key t (ps ++ [p]) = val_at key t ps.
Proof. intros H. rewrite val_at_snoc. unfold va_step. rewrite decide_False; [done|]. intros []. done. Qed.

Lemma vers_add_ne d path a b v : path ≠ key -> vers (add_item d path a b v) l = vers d l.
Proof.
  intros H. assert (Hn : l ≠ []) by (intros E; rewrite E in Hl; simpl in Hl; lia).
  rewrite (proj1 (add_item_spec d path a b v l Hn)). rewrite decide_False; [done|].
  intros [E _]. apply H. symmetry. by apply split_inj.
Qed.
Lemma vers_add_eq d a b v : vers (add_item d key a b v) l = vers d l ++ [(range_text a b, v)].
Proof.
  assert (Hn : l ≠ []) by (intros E; rewrite E in Hl; simpl in Hl; lia).
  rewrite (proj1 (add_item_spec d key a b v l Hn)). by rewrite decide_True.
Qed.

Lemma inv_mono ps M M' st rs : M <= M' -> inv ps M st rs -> inv ps M' st rs.
Proof.
  intros HM [H1 H2 H3 H4 H5]. split; auto.
  - eapply Forall_impl; [exact H2|]. intros [[a b] v] (?&?&?). unfold time_ok in *. lia.
  - destruct (alookup key (snd st)) as [[a v]|]; [|done]. destruct H5 as (A&B&C&D&F).
    split; [done|]. split; [lia|]. by split.
Qed.

Lemma inv_step ps M st rs p :
  inv ps M st rs -> M <= tp_ts p -> (tj_path (tp_path p) = key -> 0 <= tp_ts p < 2 ^ 63) ->
  (forall p', p' ∈ ps -> tj_path (tp_path p) = key -> tj_path (tp_path p') = key ->
     tp_ts p' = 0 -> tp_ts p = 0 -> is_setp p = true ∧ same_json (tp_value p') (tp_value p)) ->
  exists rs', inv (ps ++ [p]) (tp_ts p) (tj_step st p) rs'.
Proof.
  intros H0 HM Hts Hz. assert (H := inv_mono _ _ _ _ _ HM H0). clear H0.
  destruct st as [d last]. destruct (decide (tj_path (tp_path p) = key)) as [Hk|Hk].
  2:{ exists rs. destruct H as [H1 H2 H3 H4 H5]. unfold tj_step.
      assert (Hd : forall t0 v0, vers (add_item d (tj_path (tp_path p)) t0 (tp_ts p - 1) v0) l = vers d l).
      { intros. by apply vers_add_ne. }
      assert (He : forall st', vers (fst st') l = vers d l -> alookup key (snd st') = alookup key last ->
         inv (ps ++ [p]) (tp_ts p) st' rs).
      { intros st' E1 E2. split.
        - by rewrite E1.
        - done.
        - intros r t Hr Ht. rewrite val_at_ne by done. eauto.
        - intros a b v Hr. apply H4 in Hr as (q & Hq & Hq'). exists q. split; [set_solver|done].
        - rewrite E2. simpl in H5. destruct (alookup key last) as [[a v]|].
          + destruct H5 as (A & B & (q & Hq & Hq') & C & D). split; [done|]. split; [done|].
            split; [exists q; split; [set_solver|done]|]. split.
            * intros t Ht. rewrite val_at_ne by done. auto.
            * intros t w Ht. rewrite val_at_ne by done. auto.
          + intros t w. rewrite val_at_ne by done. auto. }
      destruct (_ || _).
      - destruct (alookup (tj_path (tp_path p)) last) as [[t0 v0]|] eqn:E.
        + destruct (json_deep_eq _ _); apply He; simpl; auto. by rewrite alookup_ainsert_ne.
        + apply He; simpl; auto. by rewrite alookup_ainsert_ne.
      - case_decide; [|by apply He].
        destruct (alookup (tj_path (tp_path p)) last) as [[t0 v0]|] eqn:E; apply He; simpl; auto.
        by rewrite alookup_adelete_ne. }
  specialize (Hts Hk). destruct H as [H1 H2 H3 H4 H5]. simpl in *.
  unfold tj_step. rewrite Hk.
  change (bool_decide (tp_op p = "add") || bool_decide (tp_op p = "replace")) with (is_setp p).
  assert (Hval : forall t, tp_ts p <= t -> val_at key t (ps ++ [p]) =
     if is_setp p then Some (tp_value p) else if decide (tp_op p = "remove") then None else val_at key t ps).
  { intros t Ht. rewrite val_at_snoc. unfold va_step. by rewrite decide_True. }
  assert (Hsrc : forall a v, (exists q, q ∈ ps ∧ is_setp q = true ∧ tj_path (tp_path q) = key ∧ tp_ts q = a ∧ tp_value q = v) ->
    exists q, q ∈ ps ++ [p] ∧ is_setp q = true ∧ tj_path (tp_path q) = key ∧ tp_ts q = a ∧ tp_value q = v).
  { intros a v (q & Hq & Hq'). exists q. split; [set_solver|done]. }
  assert (Hrs : forall r t, r ∈ rs -> covers t r ->
     exists w, val_at key t (ps ++ [p]) = Some w ∧ alike (r_val r) w).
  { intros r t Hr Ht. rewrite val_at_lt; [eauto|].
    rewrite Forall_forall in H2. apply H2 in Hr. destruct r as [[a b] v]. simpl in Ht. lia. }
  (* closing the current run *)
  assert (Hclose : forall a v, alookup key last = Some (a, v) -> 1 <= tp_ts p -> forall st',
     vers (fst st') l = vers (add_item d key a (tp_ts p - 1) v) l ->
     match alookup key (snd st') with
     | Some (a', v') => a' = tp_ts p ∧ v' = tp_value p ∧ is_setp p = true
     | None => is_setp p = false ∧ tp_op p = "remove"
     end -> inv (ps ++ [p]) (tp_ts p) st' (rs ++ [(a, tp_ts p - 1, v)])).
  { intros a v E Hpos st' E1 E2. rewrite E in H5. destruct H5 as (A & B & C & D & F). unfold time_ok in *.
    assert (Hcover : forall t w, t < tp_ts p -> val_at key t ps = Some w ->
      exists r, r ∈ rs ++ [(a, tp_ts p - 1, v)] ∧ covers t r ∧ alike (r_val r) w).
    { intros t w Ht Hw. destruct (decide (t < a)) as [Hlt|Hge].
      - destruct (F t w Hlt Hw) as (r & Hr & Hr'). exists r. split; [set_solver|done].
      - destruct (D t) as (w' & Hw' & Ha); [lia|]. rewrite Hw in Hw'. injection Hw' as <-.
        exists (a, tp_ts p - 1, v). split; [set_solver|]. split; [simpl; lia|done]. }
    split.
    - rewrite E1, vers_add_eq, H1, map_app. done.
    - apply Forall_app. split; [done|]. constructor; [|constructor]. unfold time_ok. lia.
    - intros r t [Hr|Hr]%elem_of_app Ht; [eauto|]. apply elem_of_list_singleton in Hr as ->.
      simpl in Ht. rewrite val_at_lt by lia. simpl. apply D. lia.
    - intros a' b' v' [Hr|Hr]%elem_of_app; [eauto|]. apply elem_of_list_singleton in Hr.
      injection Hr as -> -> ->. auto.
    - destruct (alookup key (snd st')) as [[a' v']|].
      + destruct E2 as (-> & -> & Hs). unfold time_ok. split; [lia|]. split; [lia|]. split; [|split].
        * exists p. split; [set_solver|done].
        * intros t Ht. rewrite Hval, Hs by done. exists (tp_value p). split; [done|by left].
        * intros t w Ht. rewrite val_at_lt by lia. eauto.
      + destruct E2 as [E2 E3]. intros t w Hw. destruct (decide (t < tp_ts p)) as [Hlt|Hge].
        * rewrite val_at_lt in Hw by lia. eauto.
        * rewrite Hval, E2, decide_True in Hw by (done || lia). done. }
  assert (Hpos : forall a v, alookup key last = Some (a, v) ->
     is_setp p = false ∨ json_deep_eq v (tp_value p) = false -> 1 <= tp_ts p).
  { intros a v E Hno. rewrite E in H5. destruct H5 as (A & B & (p' & Hp' & _ & Hk' & Ha & Hv) & _).
    destruct (decide (tp_ts p = 0)) as [H0|H0]; [|unfold time_ok in *; lia]. exfalso.
    destruct (Hz p' Hp' Hk Hk') as [Hs1 Hs2]; [unfold time_ok in *; lia|done|].
    rewrite Hv in Hs2. apply json_deep_eq_spec in Hs2. destruct Hno; congruence. }
  destruct (is_setp p) eqn:Hset.
  - destruct (alookup key last) as [[a v]|] eqn:E.
    + destruct (json_deep_eq v (tp_value p)) eqn:Heq.
      * (* suppressed *)
        apply json_deep_eq_spec in Heq. destruct H5 as (A & B & C & D & F).
        exists rs. split; simpl; try done.
        { intros a' b' v' Hr. apply Hsrc. eauto. }
        rewrite E. split; [done|]. split; [done|]. split; [auto|]. split.
        { intros t Ht. destruct (decide (t < tp_ts p)).
          - rewrite val_at_lt by done. auto.
          - rewrite Hval by lia. exists (tp_value p). split; [done|by right]. }
        { intros t w Ht. rewrite val_at_lt by lia. auto. }
      * exists (rs ++ [(a, tp_ts p - 1, v)]). apply Hclose; [done|eauto|done|].
        simpl. rewrite alookup_ainsert_eq. done.
    + exists rs. split; simpl; try done.
      { intros a' b' v' Hr. apply Hsrc. eauto. }
      rewrite alookup_ainsert_eq. unfold time_ok. split; [lia|]. split; [lia|]. split; [|split].
      * exists p. split; [set_solver|done].
      * intros t Ht. rewrite Hval by done. exists (tp_value p). split; [done|by left].
      * intros t w Ht. rewrite val_at_lt by lia. auto.
  - destruct (decide (tp_op p = "remove")) as [Hrm|Hrm].
    + destruct (alookup key last) as [[a v]|] eqn:E.
      * exists (rs ++ [(a, tp_ts p - 1, v)]). apply Hclose; [done|eauto|done|].
        simpl. rewrite alookup_adelete_eq. done.
      * exists rs. split; simpl; try done.
        { intros a' b' v' Hr. apply Hsrc. eauto. }
        rewrite E. intros t w Hw. destruct (decide (t < tp_ts p)) as [Hlt|Hge].
        { rewrite val_at_lt in Hw by lia. eauto. }
        rewrite Hval in Hw by lia. done.
    + assert (Hv : forall t, val_at key t (ps ++ [p]) = val_at key t ps).
      { intros t. rewrite val_at_snoc. unfold va_step. rewrite Hset.
        case_decide; [|done]. by rewrite decide_False. }
      exists rs. split; simpl; try done.
      { intros a' b' v' Hr. apply Hsrc. eauto. }
      destruct (alookup key last) as [[a v]|].
      * destruct H5 as (A & B & C & D & F). repeat (split; [by auto|]). split.
        { intros t Ht. rewrite Hv. auto. }
        { intros t w Ht. rewrite Hv. auto. }
      * intros t w. rewrite Hv. auto.
Qed.

Lemma inv_fold ps : forall pre M st rs,
  inv pre M st rs -> Forall (fun p => M <= tp_ts p) ps ->
  StronglySorted (fun p q => tp_ts p <= tp_ts q) ps ->
  (forall p, p ∈ ps -> tj_path (tp_path p) = key -> 0 <= tp_ts p < 2 ^ 63) ->
  (forall a p b p', pre ++ ps = a ++ p :: b -> p' ∈ a -> tj_path (tp_path p) = key ->
     tj_path (tp_path p') = key -> tp_ts p' = 0 -> tp_ts p = 0 ->
     is_setp p = true ∧ same_json (tp_value p') (tp_value p)) ->
  exists M' rs', inv (pre ++ ps) M' (fold_left tj_step ps st) rs'.
Proof.
  induction ps as [|p ps IH]; intros pre M st rs H HM Hs Ht Hz.
  - exists M, rs. by rewrite app_nil_r.
  - inversion Hs as [|? ? Hs' Hf]; subst. inversion HM; subst.
    destruct (inv_step pre M st rs p H) as [rs' H']; [done|apply Ht; set_solver|intros p1 Hp1; exact (Hz pre p ps p1 eq_refl Hp1)|].
    destruct (IH (pre ++ [p]) (tp_ts p) (tj_step st p) rs' H') as (M1 & rs2 & HH); auto.
    { intros q Hq. apply Ht. set_solver. }
    { intros a q b q' Hab. apply (Hz a q b). by rewrite <- app_assoc in Hab. }
    exists M1, rs2. by rewrite <- app_assoc in HH.
Qed.

Lemma inv_start M : inv [] M ([], []) [].
Proof.
  split; simpl.
  - unfold vers. destruct l; done.
  - constructor.
  - intros r t Hr. by apply elem_of_nil in Hr.
  - intros a b v Hr. by apply elem_of_nil in Hr.
  - done.
Qed.

Lemma close_vers now last : NoDup (akeys last) -> forall d,
  vers (tj_close now d last) l
  = vers d l ++ match alookup key last with Some (a, v) => [(range_text a now, v)] | None => [] end.
Proof.
  induction last as [|[k [a v]] last IH]; intros Hn d.
  - simpl. by rewrite app_nil_r.
  - inversion Hn as [|? ? Hk Hn']; subst. unfold tj_close in *. cbn [fold_left fst snd].
    rewrite IH by done. cbn [alookup]. case_decide as Hd.
    + subst k. rewrite vers_add_eq.
      assert (E : alookup key last = None) by by apply alookup_None_iff. rewrite E.
      by rewrite app_nil_r.
    + rewrite vers_add_ne by done. done.
Qed.
End loop.

Lemma last_nodup ps : forall st, NoDup (akeys (snd st)) -> NoDup (akeys (snd (fold_left tj_step ps st))).
Proof.
  induction ps as [|p ps IH]; intros [d last] H; [done|]. simpl fold_left. apply IH.
  unfold tj_step. destruct (_ || _).
  - destruct (alookup _ last) as [[a v]|]; [destruct (json_deep_eq _ _)|]; simpl; auto;
      by apply NoDup_ainsert.
  - case_decide; [|done]. destruct (alookup _ last) as [[a v]|]; simpl; auto. by apply NoDup_adelete.
Qed.
Lemma doc_wf ps : forall st, dwf (fst st) -> dwf (fst (fold_left tj_step ps st)).
Proof.
  induction ps as [|p ps IH]; intros [d last] H; [done|]. simpl fold_left. apply IH.
  unfold tj_step. destruct (_ || _).
  - destruct (alookup _ last) as [[a v]|]; [destruct (json_deep_eq _ _)|]; simpl; auto. by apply dwf_add.
  - case_decide; [|done]. destruct (alookup _ last) as [[a v]|]; simpl; auto. by apply dwf_add.
Qed.
Lemma close_wf now last : forall d, dwf d -> dwf (tj_close now d last).
Proof.
  induction last as [|[k [a v]] last IH]; intros d H; [done|]. apply IH. by apply dwf_add.
Qed.
Lemma alookup_perm {V} (m m' : list (string * V)) k :
  NoDup (akeys m) -> Permutation m' m -> alookup k m' = alookup k m.
Proof.
  intros Hn Hp. assert (Hn' : NoDup (akeys m')).
  { unfold akeys in *. by rewrite Hp. }
  apply option_eq. intros v. rewrite !alookup_iff by done. by rewrite Hp.
Qed.

(** ** The document built from all patches *)
Lemma sorted_all (srt : list tpatch -> list tpatch) ps p : sorting tp_ts srt -> p ∈ srt ps <-> p ∈ ps.
Proof. intros H. destruct (H ps) as [E _]. by rewrite E. Qed.

Definition at_zero (key : string) (p : tpatch) : bool :=
  bool_decide (tj_path (tp_path p) = key) && (tp_ts p =? 0).
Lemma at_most_one {A} (f : A -> bool) (m : list A) :
  (length (List.filter f m) <= 1)%nat <->
  (forall a x b y c, m = a ++ x :: b ++ y :: c -> f x = true -> f y = true -> False).
Proof.
  split.
  - intros H a x b y c -> Hx Hy. rewrite List.filter_app in H. cbn [List.filter] in H. rewrite Hx in H.
    rewrite List.filter_app in H. cbn [List.filter] in H. rewrite Hy in H.
    rewrite app_length in H. simpl in H. rewrite app_length in H. simpl in H. lia.
  - induction m as [|x m IH]; intros H; [simpl; lia|]. cbn [List.filter]. destruct (f x) eqn:Hx.
    + assert (E : List.filter f m = []).
      { destruct (List.filter f m) as [|y r] eqn:E; [done|]. exfalso.
        assert (Hy : In y (List.filter f m)) by (rewrite E; left; done).
        apply filter_In in Hy as [Hy Hfy]. apply in_split in Hy as (b & c & ->).
        by apply (H [] x b y c). }
      rewrite E. simpl. lia.
    + apply IH. intros a y b z c ->. apply (H (x :: a) y b z c). done.
Qed.
Lemma times_first key ps qs a p b p' : times_ok (split_on dot key) ps -> Permutation qs ps ->
  qs = a ++ p :: b -> p' ∈ a -> tj_path (tp_path p) = key -> tj_path (tp_path p') = key ->
  tp_ts p' = 0 -> tp_ts p = 0 -> is_setp p = true ∧ same_json (tp_value p') (tp_value p).
Proof.
  intros [_ Hz] HP -> Hp' Hk Hk' H0 H0'.
  destruct Hz as [Hz|Hz].
  2:{ assert (R : forall x, tj_path (tp_path x) = key -> route (tp_path x) (split_on dot key)).
      { intros x Hx. apply route_split. by rewrite Hx. }
      assert (I1 : p ∈ ps) by (rewrite <- HP; set_solver).
      assert (I2 : p' ∈ ps) by (rewrite <- HP; set_solver).
      destruct (Hz p p' I1 I2 (R p Hk) (R p' Hk') H0' H0) as [[Hs _] _].
      destruct (Hz p' p I2 I1 (R p' Hk') (R p Hk) H0 H0') as [_ Hj].
      split; [by apply is_setp_spec|done]. }
  exfalso.
  assert (H1 : (length (List.filter (at_zero key) ps) <= 1)%nat).
  { apply at_most_one. intros a0 x b0 y c -> Hx Hy. unfold at_zero in Hx, Hy.
    apply andb_true_iff in Hx as [Hx1 Hx2]. apply andb_true_iff in Hy as [Hy1 Hy2].
    apply bool_decide_eq_true in Hx1, Hy1. apply Z.eqb_eq in Hx2, Hy2.
    by apply (Hz a0 x b0 y c); [done|apply route_split; rewrite Hx1|apply route_split; rewrite Hy1|..]. }
  assert (H2 : (length (List.filter (at_zero key) (a ++ p :: b)) <= 1)%nat).
  { assert (E : Permutation (List.filter (at_zero key) (a ++ p :: b)) (List.filter (at_zero key) ps)).
    { clear -HP. induction HP as [|x l l' _ IH|x y l|l l' l'' _ IH1 _ IH2]; simpl; auto.
      - destruct (at_zero key x); auto.
      - destruct (at_zero key x), (at_zero key y); auto. constructor.
      - by rewrite IH1. }
    by rewrite E. }
  apply elem_of_list_split in Hp' as (a1 & a2 & ->).
  eapply (proj1 (at_most_one (at_zero key) _) H2 a1 p' a2 p b).
  - by rewrite <- app_assoc.
  - unfold at_zero. rewrite bool_decide_eq_true_2 by done. by apply Z.eqb_eq.
  - unfold at_zero. rewrite bool_decide_eq_true_2 by done. by apply Z.eqb_eq.
Qed.
Lemma timeline srt ord now ps key :
  sorting tp_ts srt -> (forall m, Permutation (ord m) m) -> (2 <= length (split_on dot key))%nat ->
  0 <= now < 2 ^ 63 ->
  times_ok (split_on dot key) ps ->
  exists rs : list run,
    vers (from_patches srt ord now ps) (split_on dot key) = map r_text rs ∧
    Forall (fun r => let '(a, b, v) := r in time_ok a ∧ time_ok b) rs ∧
    (forall r t, r ∈ rs -> covers t r -> exists w, val_at key t (srt ps) = Some w ∧ alike (r_val r) w) ∧
    (forall a b v, (a, b, v) ∈ rs -> exists p, p ∈ ps ∧ is_setp p = true ∧
       tj_path (tp_path p) = key ∧ tp_ts p = a ∧ tp_value p = v) ∧
    (forall t w, t <= now -> val_at key t (srt ps) = Some w ->
       exists r, r ∈ rs ∧ covers t r ∧ alike (r_val r) w).
Proof.
  intros Hs Ho Hl Hnow Ht. unfold from_patches.
  assert (Hb : exists M, Forall (fun p => M <= tp_ts p) (srt ps)).
  { destruct (Hs ps) as [_ HS]. destruct HS as [|p l' _ Hf]; [by exists 0|].
    exists (tp_ts p). constructor; [lia|done]. }
  destruct Hb as [M HM].
  destruct (inv_fold key Hl (srt ps) [] M ([], []) [] (inv_start key Hl M)) as (M' & rs & H).
  { done. } { apply Hs. }
  { intros p Hp Hk. apply Ht; [by apply (sorted_all srt ps p Hs)|]. apply route_split. by rewrite Hk. }
  { intros a p b p' Hab Hp' Hk Hk'. destruct (Hs ps) as [HP _].
    eapply (times_first key ps (srt ps)); eauto. }
  simpl in H. pose proof (last_nodup (srt ps) ([], []) ltac:(constructor)) as Hn.
  destruct (fold_left tj_step (srt ps) ([], [])) as [d last]. simpl in Hn.
  destruct H as [H1 H2 H3 H4 H5]. simpl in *.
  assert (Hsrc : forall a v, (exists p, p ∈ srt ps ∧ is_setp p = true ∧
       tj_path (tp_path p) = key ∧ tp_ts p = a ∧ tp_value p = v) ->
     exists p, p ∈ ps ∧ is_setp p = true ∧ tj_path (tp_path p) = key ∧ tp_ts p = a ∧ tp_value p = v).
  { intros a v (p & Hp & Hp'). exists p. split; [by apply (sorted_all srt ps p Hs)|done]. }
  assert (Hno : NoDup (akeys (ord last))) by (unfold akeys; by rewrite (Ho last)).
  rewrite (close_vers key Hl now (ord last) Hno d), H1.
  rewrite (alookup_perm last (ord last) key Hn (Ho last)).
  destruct (alookup key last) as [[a v]|].
  - destruct H5 as (A & B & C & D & F). exists (rs ++ [(a, now, v)]). split; [by rewrite map_app|].
    split; [|split; [|split]].
    + apply Forall_app. split; [|by constructor].
      eapply Forall_impl; [exact H2|]. by intros [[? ?] ?] (?&?&?).
    + intros r t [Hr|Hr]%elem_of_app Hc; [eauto|]. apply elem_of_list_singleton in Hr as ->.
      simpl in *. apply D. lia.
    + intros a' b' v' [Hr|Hr]%elem_of_app; apply Hsrc; [eauto|].
      apply elem_of_list_singleton in Hr. injection Hr as -> -> ->. done.
    + intros t w Htn Hw. destruct (decide (t < a)) as [Hlt|Hge].
      * destruct (F t w Hlt Hw) as (r & Hr & Hr'). exists r. split; [set_solver|done].
      * destruct (D t) as (w' & Hw' & Ha); [lia|]. rewrite Hw in Hw'. injection Hw' as <-.
        exists (a, now, v). split; [set_solver|]. split; [simpl; lia|done].
  - exists rs. rewrite app_nil_r. split; [done|]. split; [|split; [done|split]].
    + eapply Forall_impl; [exact H2|]. by intros [[? ?] ?] (?&?&?).
    + intros a' b' v' Hr. apply Hsrc. eauto.
    + intros t w _ Hw. eauto.
Qed.

(** Which items exist. *)
Lemma close_found now l : l ≠ [] -> forall last d,
  is_Some (find_item (tj_close now d last) l) <->
  is_Some (find_item d l) ∨ exists k v, (k, v) ∈ last ∧ l `prefix_of` split_on dot k.
Proof.
  intros Hl. induction last as [|[k [a v]] last IH]; intros d.
  - simpl. split; [auto|]. intros [H|(k & v & H & _)]; [done|]. by apply elem_of_nil in H.
  - unfold tj_close in *. cbn [fold_left fst snd]. rewrite IH.
    rewrite (proj2 (add_item_spec d k a now v l Hl)). split.
    + intros [[H|H]|(k' & v' & H & H')]; [auto|right; exists k, (a, v); set_solver|].
      right. exists k', v'. set_solver.
    + intros [H|(k' & v' & H & H')]; [auto|]. apply elem_of_cons in H as [[= -> ->]|H]; [auto|].
      right. eauto.
Qed.
Lemma fold_found l ps : l ≠ [] -> 
  let st := fold_left tj_step ps ([], []) in
  (is_Some (find_item (fst st) l) ∨ exists k v, alookup k (snd st) = Some v ∧ l `prefix_of` split_on dot k)
  <-> exists p, p ∈ ps ∧ is_setp p = true ∧ l `prefix_of` split_on dot (tj_path (tp_path p)).
Proof.
  intros Hl. induction ps as [|p ps IH] using rev_ind.
  - simpl. split.
    + intros [[x Hx]|(k & v & H & _)]; [|done]. destruct l; done.
    + intros (p & H & _). by apply elem_of_nil in H.
  - rewrite fold_left_app. cbv zeta in *. cbn [fold_left].
    destruct (fold_left tj_step ps ([], [])) as [d last]. cbn [fst snd] in IH.
    assert (Hold : (exists q, q ∈ ps ++ [p] ∧ is_setp q = true ∧ l `prefix_of` split_on dot (tj_path (tp_path q)))
      <-> (is_Some (find_item d l) ∨ (exists k v, alookup k last = Some v ∧ l `prefix_of` split_on dot k))
          ∨ (is_setp p = true ∧ l `prefix_of` split_on dot (tj_path (tp_path p)))).
    { rewrite IH. split.
      - intros (q & [Hq|Hq]%elem_of_app & Hq'); [eauto|]. apply elem_of_list_singleton in Hq as ->. auto.
      - intros [(q & Hq & Hq')|Hp]; [exists q|exists p]; (split; [set_solver|done]). }
    rewrite Hold. clear Hold IH. unfold tj_step.
    change (bool_decide (tp_op p = "add") || bool_decide (tp_op p = "replace")) with (is_setp p).
    set (k0 := tj_path (tp_path p)). destruct (is_setp p) eqn:Hs.
    + destruct (alookup k0 last) as [[a v]|] eqn:E.
      * assert (Hc : l `prefix_of` split_on dot k0 -> exists k v, alookup k last = Some v ∧ l `prefix_of` split_on dot k) by eauto.
        destruct (json_deep_eq v (tp_value p)); cbn [fst snd].
        { split; [auto|]. intros [H|[_ H]]; [done|]. right. auto. }
        rewrite (proj2 (add_item_spec d k0 a (tp_ts p - 1) v l Hl)). split.
        { intros [[H|H]|(k & w & H & H')]; [auto|auto|]. rewrite alookup_ainsert in H.
          case_decide; [subst; auto|]. left. right. eauto. }
        { intros [[H|(k & w & H & H')]|[_ H]]; [auto|right|auto].
          destruct (decide (k = k0)) as [->|Hk].
          - exists k0. rewrite alookup_ainsert_eq. eauto.
          - exists k, w. by rewrite alookup_ainsert_ne. }
      * cbn [fst snd]. split.
        { intros [H|(k & w & H & H')]; [auto|]. rewrite alookup_ainsert in H.
          case_decide; [subst; auto|]. left. right. eauto. }
        { intros [[H|(k & w & H & H')]|[_ H]]; [auto|right|right].
          - destruct (decide (k = k0)) as [->|Hk].
            + exists k0. rewrite alookup_ainsert_eq. eauto.
            + exists k, w. by rewrite alookup_ainsert_ne.
          - exists k0. rewrite alookup_ainsert_eq. eauto. }
    + assert (Hf : forall A : Prop, A ∨ (false = true ∧ l `prefix_of` split_on dot k0) <-> A).
      { intros A. split; [intros [?|[? ?]]; done|auto]. }
      rewrite Hf. case_decide; [|done]. destruct (alookup k0 last) as [[a v]|] eqn:E; [|done].
      cbn [fst snd]. rewrite (proj2 (add_item_spec d k0 a (tp_ts p - 1) v l Hl)). split.
      * intros [[H1|H1]|(k & w & H1 & H')]; [auto|right; eauto|].
        destruct (decide (k = k0)) as [->|Hk]; [by rewrite alookup_adelete_eq in H1|].
        rewrite alookup_adelete_ne in H1 by done. right. eauto.
      * intros [H1|(k & w & H1 & H')]; [auto|].
        destruct (decide (k = k0)) as [->|Hk]; [auto|].
        right. exists k, w. by rewrite alookup_adelete_ne.
Qed.
Lemma found_iff srt ord now ps l : sorting tp_ts srt -> (forall m, Permutation (ord m) m) -> l ≠ [] ->
  is_Some (find_item (from_patches srt ord now ps) l) <->
  exists p, p ∈ ps ∧ is_setp p = true ∧ l `prefix_of` split_on dot (tj_path (tp_path p)).
Proof.
  intros Hs Ho Hl. unfold from_patches. pose proof (fold_found l (srt ps) Hl) as H. cbv zeta in H.
  pose proof (last_nodup (srt ps) ([], []) ltac:(constructor)) as Hn.
  destruct (fold_left tj_step (srt ps) ([], [])) as [d last]. cbn [fst snd] in *.
  rewrite (close_found now l Hl).
  assert (E : (exists k v, (k, v) ∈ ord last ∧ l `prefix_of` split_on dot k) <->
     exists k v, alookup k last = Some v ∧ l `prefix_of` split_on dot k).
  { split; intros (k & v & H1 & H2); exists k, v; (split; [|done]).
    - rewrite (Ho last) in H1. by apply alookup_in.
    - rewrite (Ho last). by apply alookup_Some_in. }
  rewrite E, H. split; intros (p & H1 & H2); exists p; (split; [|done]);
    by apply (sorted_all srt ps p Hs).
Qed.

(** Every version was set by a patch of its path. *)
Lemma vers_src srt ord now ps l x v : sorting tp_ts srt -> (forall m, Permutation (ord m) m) ->
  l ≠ [] -> (x, v) ∈ vers (from_patches srt ord now ps) l ->
  exists p, p ∈ ps ∧ is_setp p = true ∧ split_on dot (tj_path (tp_path p)) = l ∧ tp_value p = v.
Proof.
  intros Hs Ho Hl. unfold from_patches.
  assert (H : forall ps, let st := fold_left tj_step ps ([], []) in
     (forall x v, (x, v) ∈ vers (fst st) l ->
        exists p, p ∈ ps ∧ is_setp p = true ∧ split_on dot (tj_path (tp_path p)) = l ∧ tp_value p = v) ∧
     (forall k a v, alookup k (snd st) = Some (a, v) ->
        exists p, p ∈ ps ∧ is_setp p = true ∧ tj_path (tp_path p) = k ∧ tp_value p = v)).
  { clear. induction ps as [|p ps IH] using rev_ind.
    - simpl. split; [|done]. intros x v H. unfold vers in H. destruct l; by apply elem_of_nil in H.
    - rewrite fold_left_app. cbv zeta in *. cbn [fold_left].
      destruct (fold_left tj_step ps ([], [])) as [d last]. cbn [fst snd] in IH. destruct IH as [IH1 IH2].
      assert (W : forall Q : tpatch -> Prop, (exists q, q ∈ ps ∧ Q q) -> exists q, q ∈ ps ++ [p] ∧ Q q).
      { intros Q (q & Hq & Hq'). exists q. split; [set_solver|done]. }
      assert (Hadd : forall a b v x w, alookup (tj_path (tp_path p)) last = Some (a, v) ->
         (x, w) ∈ vers (add_item d (tj_path (tp_path p)) a b v) l ->
         exists q, q ∈ ps ++ [p] ∧ is_setp q = true ∧ split_on dot (tj_path (tp_path q)) = l ∧ tp_value q = w).
      { intros a b v x w E H. destruct (decide (l = [])) as [->|Hl].
        { unfold vers in H. simpl in H. by apply elem_of_nil in H. }
        rewrite (proj1 (add_item_spec d _ a b v l Hl)) in H. case_decide as Hd; [|eauto].
        apply elem_of_app in H as [H|H]; [eauto|]. apply elem_of_list_singleton in H as [= -> ->].
        destruct Hd as [-> _]. apply IH2 in E as (q & Hq & Hq1 & Hq2 & Hq3). exists q.
        split; [set_solver|]. by rewrite Hq2. }
      unfold tj_step.
      change (bool_decide (tp_op p = "add") || bool_decide (tp_op p = "replace")) with (is_setp p).
      destruct (is_setp p) eqn:Hsp.
      + assert (Hins : forall k a v, alookup k (ainsert (tj_path (tp_path p)) (tp_ts p, tp_value p) last) = Some (a, v) ->
          exists q, q ∈ ps ++ [p] ∧ is_setp q = true ∧ tj_path (tp_path q) = k ∧ tp_value q = v).
        { intros k a v H. rewrite alookup_ainsert in H. case_decide as Hk.
          - injection H as <- <-. exists p. subst k. split; [set_solver|done].
          - apply IH2 in H as (q & Hq & Hq'). exists q. split; [set_solver|done]. }
        destruct (alookup (tj_path (tp_path p)) last) as [[a v]|] eqn:E;
          [destruct (json_deep_eq v (tp_value p))|]; cbn [fst snd]; split; eauto.
      + case_decide.
        * destruct (alookup (tj_path (tp_path p)) last) as [[a v]|] eqn:E; cbn [fst snd]; split; eauto.
          intros k a' v' H1. destruct (decide (k = tj_path (tp_path p))) as [->|Hk].
          { by rewrite alookup_adelete_eq in H1. }
          rewrite alookup_adelete_ne in H1 by done.
          apply IH2 in H1 as (q & Hq & Hq'). exists q. split; [set_solver|done].
        * cbn [fst snd]; split; eauto. }
  destruct (H (srt ps)) as [H1 H2]. clear H.
  pose proof (last_nodup (srt ps) ([], []) ltac:(constructor)) as Hn.
  destruct (fold_left tj_step (srt ps) ([], [])) as [d last]. cbn [fst snd] in *.
  assert (B : forall Q : tpatch -> Prop, (exists q, q ∈ srt ps ∧ Q q) -> exists q, q ∈ ps ∧ Q q).
  { intros Q (q & Hq & Hq'). exists q. split; [by apply (sorted_all srt ps q Hs)|done]. }
  assert (Hcl : forall m d, (forall k a v, (k, (a, v)) ∈ m -> alookup k last = Some (a, v)) ->
     (forall x v, (x, v) ∈ vers d l -> exists p, p ∈ srt ps ∧ is_setp p = true ∧
        split_on dot (tj_path (tp_path p)) = l ∧ tp_value p = v) ->
     (x, v) ∈ vers (tj_close now d m) l -> exists p, p ∈ srt ps ∧ is_setp p = true ∧
        split_on dot (tj_path (tp_path p)) = l ∧ tp_value p = v).
  { induction m as [|[k [a w]] m IH]; intros d0 Hm Hd; [exact (Hd x v)|].
        unfold tj_close. cbn [fold_left fst snd]. apply IH.
    { intros k' a' v' Hk. apply Hm. set_solver. }
    intros x' v' Hx. rewrite (proj1 (add_item_spec d0 k a now w l Hl)) in Hx.
    case_decide as Hdd; [|eauto]. apply elem_of_app in Hx as [Hx|Hx]; [eauto|].
    apply elem_of_list_singleton in Hx as [= -> ->]. destruct Hdd as [-> _].
    destruct (H2 k a w) as (q & Hq & Hq1 & Hq2 & Hq3); [apply Hm; set_solver|].
    exists q. by rewrite Hq2. }
  intros Hx. apply B. eapply Hcl; [| |exact Hx]; [|done].
  intros k a w Hk. rewrite (Ho last) in Hk. by apply alookup_in.
Qed.
Lemma from_patches_wf srt ord now ps : dwf (from_patches srt ord now ps).
Proof.
  unfold from_patches. pose proof (doc_wf (srt ps) ([], []) ltac:(split; constructor)) as H.
  destruct (fold_left tj_step (srt ps) ([], [])) as [d last]. by apply close_wf.
Qed.

(** ** Reading the document *)
Lemma digits_no_dash s n : digits s n -> contains "-" s = false.
Proof.
  intros (_ & Hd & _)%digits_model. induction s as [|a s IH]; [done|]. simpl in *.
  apply andb_true_iff in Hd as [Ha Hs]. rewrite IH by done. rewrite orb_false_r.
  apply bool_decide_eq_false. intros ->. done.
Qed.
Lemma digits_fun s n m : digits s n -> digits s m -> n = m.
Proof. intros (_&_&H)%digits_model (_&_&H')%digits_model. congruence. Qed.
Lemma period_fun s a b a' b' : period s a b -> period s a' b' -> a = a' ∧ b = b'.
Proof.
  intros (x & y & -> & Hx & Hy) (x' & y' & E & Hx' & Hy').
  assert (Hno : forall z k, nat_text z k -> contains "-" z = false).
  { intros z k [z0 n Hz]. by eapply digits_no_dash. }
  assert (Hfun : forall z k k', nat_text z k -> nat_text z k' -> k = k').
  { intros z k k' [z0 n Hz] Hz'. inversion Hz'; subst. f_equal. by eapply digits_fun. }
  apply (f_equal (split_on "-")) in E.
  change ("-" +++ y) with (String "-" y) in E. change ("-" +++ y') with (String "-" y') in E.
  rewrite !split_on_app, !split_on_none in E by eauto.
  injection E as -> ->. split; eauto.
Qed.
Lemma names_key q l : names ["."%char] q l -> split_on dot q = l.
Proof. intros H. by apply names_split. Qed.
Lemma route_key q l s : names ["."%char] q l -> route s l <-> tj_path s = q.
Proof.
  intros <-%names_key. rewrite route_split. split; [apply split_inj|by intros ->].
Qed.
Lemma sets_setp p l : sets p l <-> is_setp p = true ∧ route (tp_path p) l.
Proof. unfold sets. by rewrite is_setp_spec. Qed.

Lemma period_text a b : time_ok a -> time_ok b -> period (range_text a b) a b.
Proof. intros [? _] [? _]. by apply range_text_period. Qed.

Lemma track_err srt ord tsrt now ps q l s e :
  sorting tp_ts srt -> (forall m, Permutation (ord m) m) -> names ["."%char] q l ->
  tj_track tsrt (from_patches srt ord now ps) q s e = Err <->
  ~ exists p l', p ∈ ps ∧ sets p (l ++ l').
Proof.
  intros Hs Ho Hq%names_key. unfold tj_track. rewrite Hq.
  assert (Hl : l ≠ []) by (subst l; apply split_on_ne).
  pose proof (found_iff srt ord now ps l Hs Ho Hl) as H.
  assert (E : (exists p l', p ∈ ps ∧ sets p (l ++ l')) <->
    exists p, p ∈ ps ∧ is_setp p = true ∧ l `prefix_of` split_on dot (tj_path (tp_path p))).
  { split.
    - intros (p & l' & Hp & [H1 H2]%sets_setp). exists p. split; [done|]. split; [done|].
      apply route_split in H2. exists l'. done.
    - intros (p & Hp & H1 & l' & H2). exists p, l'. split; [done|]. apply sets_setp. split; [done|].
      by apply route_split. }
  rewrite E, <- H. destruct (find_item _ l); [|split; [intros _ []|]; done].
  split; [done|]. intros []. eauto.
Qed.

Lemma one_name_vers srt ord now ps n : vers (from_patches srt ord now ps) [n] = [].
Proof.
  unfold from_patches.
  assert (H1 : forall k a b v d, vers (add_item d k a b v) [n] = vers d [n]).
  { intros k a b v d. rewrite (proj1 (add_item_spec d k a b v [n] ltac:(done))).
    rewrite decide_False; [done|]. simpl. lia. }
  assert (H2 : forall ps st, vers (fst (fold_left tj_step ps st)) [n] = vers (fst st) [n]).
  { intros ps0. induction ps0 as [|p ps0 IH]; intros [d last]; [done|].
    cbn [fold_left]. rewrite IH. unfold tj_step. destruct (_ || _).
    - destruct (alookup _ last) as [[a v]|]; [destruct (json_deep_eq _ _)|]; simpl; auto.
    - case_decide; [|done]. destruct (alookup _ last) as [[a v]|]; simpl; auto. }
  assert (H3 : forall m d, vers (tj_close now d m) [n] = vers d [n]).
  { unfold tj_close. induction m as [|kv m IH]; intros d; [done|]. cbn [fold_left].
    rewrite IH. apply H1. }
  specialize (H2 (srt ps) ([], [])). destruct (fold_left tj_step (srt ps) ([], [])) as [d last].
  rewrite H3. done.
Qed.
Lemma track_one srt ord tsrt now ps q n s e rs :
  sorting tp_ts srt -> (forall m, Permutation (ord m) m) -> (forall m, Permutation (tsrt m) m) ->
  names ["."%char] q [n] ->
  tj_track tsrt (from_patches srt ord now ps) q s e = Ok rs -> rs = [].
Proof.
  intros Hs Ho Hts Hq%names_key. unfold tj_track. rewrite Hq.
  assert (Hv := one_name_vers srt ord now ps n).
  unfold vers in Hv. destruct (find_item _ [n]) as [i|]; [|done]. rewrite Hv. intros [= <-].
  apply Permutation_nil. symmetry. apply Hts.
Qed.

(** The runs of a path, in the words of the specification. *)
Lemma timeline' srt ord now ps q l :
  sorting tp_ts srt -> (forall m, Permutation (ord m) m) -> names ["."%char] q l -> (2 <= length l)%nat ->
  0 <= now < 2 ^ 63 ->
  times_ok l ps ->
  exists rs : list run,
    vers (from_patches srt ord now ps) l = map r_text rs ∧
    Forall (fun r => let '(a, b, v) := r in time_ok a ∧ time_ok b) rs ∧
    (forall r t, r ∈ rs -> covers t r -> exists w, value_at l t (srt ps) (Some w) ∧ alike (r_val r) w) ∧
    (forall a b v, (a, b, v) ∈ rs -> exists p, p ∈ ps ∧ sets p l ∧ tp_ts p = a ∧ tp_value p = v) ∧
    (forall t w, t <= now -> value_at l t (srt ps) (Some w) ->
       exists r, r ∈ rs ∧ covers t r ∧ alike (r_val r) w).
Proof.
  intros Hs Ho Hq Hl Hnow Ht. assert (E := names_key _ _ Hq). subst l.
  destruct (timeline srt ord now ps q Hs Ho Hl Hnow) as (rs & H1 & H2 & H3 & H4 & H5).
  { done. }
  exists rs. split; [done|]. split; [done|]. split; [|split].
  - intros r t Hr Hc. destruct (H3 r t Hr Hc) as (w & Hw & Ha). exists w. split; [|done].
    by apply value_at_fun.
  - intros a b v Hr. destruct (H4 a b v Hr) as (p & Hp & A & B & C). exists p. split; [done|].
    split; [|done]. apply sets_setp. split; [done|]. by apply (route_key q).
  - intros t w Htn Hw. apply value_at_fun in Hw. eauto.
Qed.

Lemma in_map_text rs x v : (x, v) ∈ map r_text rs <-> exists a b, (a, b, v) ∈ rs ∧ x = range_text a b.
Proof.
  rewrite elem_of_list_fmap. split.
  - intros ([[a b] w] & [= -> ->] & H). eauto.
  - intros (a & b & H & ->). by exists (a, b, v).
Qed.
Lemma elem_filter_b {A} (f : A -> bool) (m : list A) x : x ∈ List.filter f m <-> x ∈ m ∧ f x = true.
Proof. by rewrite !elem_of_list_In, filter_In. Qed.

Lemma track_runs srt ord tsrt now ps q l s e res0 :
  sorting tp_ts srt -> (forall m, Permutation (ord m) m) -> by_start tsrt ->
  names ["."%char] q l -> (2 <= length l)%nat -> 0 <= now < 2 ^ 63 ->
  times_ok l ps ->
  tj_track tsrt (from_patches srt ord now ps) q s e = Ok res0 ->
  exists rs : list run,
    Forall (fun r => let '(a, b, v) := r in time_ok a ∧ time_ok b) rs ∧
    (forall r t, r ∈ rs -> covers t r -> exists w, value_at l t (srt ps) (Some w) ∧ alike (r_val r) w) ∧
    (forall a b v, (a, b, v) ∈ rs -> exists p, p ∈ ps ∧ sets p l ∧ tp_ts p = a ∧ tp_value p = v) ∧
    (forall t w, t <= now -> value_at l t (srt ps) (Some w) ->
       exists r, r ∈ rs ∧ covers t r ∧ alike (r_val r) w) ∧
    (forall x v, (x, v) ∈ res0 <->
       exists a b, x = range_text a b ∧ (a, b, v) ∈ rs ∧ a <= e ∧ s <= b) ∧
    StronglySorted (fun x y => forall a b a' b',
      period (fst x) a b -> period (fst y) a' b' -> a <= a') res0.
Proof.
  intros Hs Ho Hts Hq Hl Hnow Ht Htr.
  destruct (timeline' srt ord now ps q l Hs Ho Hq Hl Hnow Ht) as (rs & H1 & H2 & H3 & H4 & H5).
  exists rs. do 4 (split; [done|]). unfold tj_track in Htr. rewrite (names_key _ _ Hq) in Htr.
  unfold vers in H1. destruct (find_item _ l) as [i|]; [|done]. injection Htr as <-. rewrite H1.
  set (f := fun v : string * json => let '(a, b) := parse_range (fst v) in (a <=? e) && (s <=? b)).
  assert (Hin : forall x v, (x, v) ∈ List.filter f (map r_text rs) <->
       exists a b, x = range_text a b ∧ (a, b, v) ∈ rs ∧ a <= e ∧ s <= b).
  { intros x v. rewrite elem_filter_b, in_map_text. unfold f. cbn [fst]. split.
    - intros [(a & b & Hr & ->) Hf]. rewrite Forall_forall in H2. destruct (H2 _ Hr) as [Ha Hb].
      rewrite parse_range_ok in Hf by done. apply andb_true_iff in Hf as [Hf1 Hf2].
      exists a, b. split; [done|]. split; [done|]. lia.
    - intros (a & b & -> & Hr & Hae & Hsb). split; [eauto|].
      rewrite Forall_forall in H2. destruct (H2 _ Hr) as [Ha Hb].
      rewrite parse_range_ok by done. apply andb_true_iff. lia. }
  destruct (Hts (List.filter f (map r_text rs))) as [Hp Hss].
  { intros x v Hx. apply Hin in Hx as (a & b & -> & Hr & _). rewrite Forall_forall in H2.
    destruct (H2 _ Hr) as [Ha Hb]. exists a, b. split; [by apply period_text|]. unfold time_ok in *. lia. }
  split; [|done]. intros x v. by rewrite Hp.
Qed.

Lemma track_spec srt ord tsrt now ps q l s e res0 :
  sorting tp_ts srt -> (forall m, Permutation (ord m) m) -> by_start tsrt ->
  names ["."%char] q l -> (2 <= length l)%nat -> 0 <= now < 2 ^ 63 ->
  times_ok l ps ->
  tj_track tsrt (from_patches srt ord now ps) q s e = Ok res0 ->
  (forall x v, (x, v) ∈ res0 -> exists a b, period x a b ∧ a <= e ∧ s <= b ∧
     (exists p, p ∈ ps ∧ sets p l ∧ tp_ts p = a ∧ tp_value p = v) ∧
     forall t, a <= t <= b -> exists w, value_at l t (srt ps) (Some w) ∧ alike v w) ∧
  (forall t w, s <= t <= e -> t <= now -> value_at l t (srt ps) (Some w) ->
     exists x v a b, (x, v) ∈ res0 ∧ period x a b ∧ a <= t <= b ∧ alike v w) ∧
  StronglySorted (fun x y => forall a b a' b',
    period (fst x) a b -> period (fst y) a' b' -> a <= a') res0.
Proof.
  intros Hs Ho Hts Hq Hl Hnow Ht Htr.
  destruct (track_runs srt ord tsrt now ps q l s e res0 Hs Ho Hts Hq Hl Hnow Ht Htr)
    as (rs & H2 & H3 & H4 & H5 & H6 & H7). rewrite Forall_forall in H2.
  split; [|split; [|done]].
  - intros x v Hx. apply H6 in Hx as (a & b & -> & Hr & Hae & Hsb). destruct (H2 _ Hr) as [Ha Hb].
    exists a, b. split; [by apply period_text|]. split; [done|]. split; [done|]. split; [by eapply H4|].
    intros t Htt. exact (H3 (a, b, v) t Hr Htt).
  - intros t w Htse Htn Hw. destruct (H5 t w Htn Hw) as ([[a b] v] & Hr & Hc & Ha).
    destruct (H2 _ Hr) as [Ha' Hb]. exists (range_text a b), v, a, b.
    split; [|split; [by apply period_text|done]]. simpl in Hc.
    apply H6. exists a, b. split; [done|]. split; [done|]. lia.
Qed.

Lemma events_spec srt ord tsrt now ps q l s e pred xs :
  sorting tp_ts srt -> (forall m, Permutation (ord m) m) -> by_start tsrt ->
  names ["."%char] q l -> (2 <= length l)%nat -> 0 <= now < 2 ^ 63 ->
  times_ok l ps ->
  (forall v w, alike v w -> pred v = pred w) ->
  tj_events tsrt (from_patches srt ord now ps) q s e pred = Ok xs ->
  (forall x, x ∈ xs -> x <= e ∧
     exists p, p ∈ ps ∧ sets p l ∧ tp_ts p = x ∧ pred (tp_value p) = true) ∧
  (forall t w, s <= t <= e -> t <= now -> value_at l t (srt ps) (Some w) -> pred w = true ->
     exists x, x ∈ xs ∧ x <= t ∧
       forall u, x <= u <= t -> exists w', value_at l u (srt ps) (Some w') ∧ pred w' = true) ∧
  StronglySorted Z.le xs.
Proof.
  intros Hs Ho Hts Hq Hl Hnow Ht Hpr Hev. unfold tj_events in Hev.
  destruct (tj_track tsrt (from_patches srt ord now ps) q s e) as [res0| |] eqn:Htr; [|done|done].
  injection Hev as <-.
  destruct (track_runs srt ord tsrt now ps q l s e res0 Hs Ho Hts Hq Hl Hnow Ht Htr)
    as (rs & H2 & H3 & H4 & H5 & H6 & H7). rewrite Forall_forall in H2.
  split; [|split].
  - intros x Hx. apply elem_of_list_fmap in Hx as ([y v] & -> & Hy). apply elem_filter_b in Hy as [Hy Hv].
    apply H6 in Hy as (a & b & -> & Hr & Hae & Hsb). destruct (H2 _ Hr) as [Ha Hb]. simpl in *.
    rewrite parse_range_ok by done. split; [done|].
    destruct (H4 a b v Hr) as (p & Hp & Hset & Hts' & Hval). exists p. by rewrite Hval.
  - intros t w Htse Htn Hw Hpw. destruct (H5 t w Htn Hw) as ([[a b] v] & Hr & Hc & Ha).
    destruct (H2 _ Hr) as [Ha' Hb]. simpl in Hc, Ha. exists a. split; [|split; [lia|]].
    + apply elem_of_list_fmap. exists (range_text a b, v). cbn [fst]. rewrite parse_range_ok by done.
      split; [done|]. apply elem_filter_b. split.
      * apply H6. exists a, b. split; [done|]. split; [done|]. lia.
      * simpl. by rewrite (Hpr v w).
    + intros u Hu. destruct (H3 (a, b, v) u Hr) as (w' & Hw' & Ha2); [simpl; lia|].
      exists w'. split; [done|]. simpl in Ha2. rewrite <- (Hpr v w') by done. by rewrite (Hpr v w).
  - assert (Hper : forall y, y ∈ res0 -> period (fst y) (fst (parse_range (fst y))) (snd (parse_range (fst y)))).
    { intros [y v] Hy. apply H6 in Hy as (a & b & -> & Hr & _). destruct (H2 _ Hr) as [Ha Hb].
      cbn [fst]. rewrite parse_range_ok by done. by apply period_text. }
    clear H6 Htr. revert Hper. induction H7 as [|y res0 Hss IH Hf]; intros Hper; [constructor|].
    assert (IH' := IH ltac:(intros z Hz; apply Hper; set_solver)). simpl.
    destruct (pred (snd y)); [|done]. simpl. constructor; [done|].
    apply Forall_forall. intros x Hx. apply elem_of_list_fmap in Hx as (z' & -> & Hz').
    apply elem_filter_b in Hz' as [Hz' _]. rewrite Forall_forall in Hf.
    eapply (Hf z'); [done|apply Hper; set_solver|apply Hper; set_solver].
Qed.

(** ** Snapshots *)
Definition kids (t : Z) : list (string * titem) -> list (string * json) :=
  fix go (cs : list (string * titem)) : list (string * json) :=
    match cs with
    | [] => []
    | (k, c) :: cs' => let s := snapshot_item t c in if is_null s then go cs' else (k, s) :: go cs'
    end.
Lemma snapshot_item_eq t p vs cs : snapshot_item t (TItem p vs cs) =
  match cs, vs with
  | [], [] => JNull
  | _, _ => match choose_version t vs None with
            | Some (JObj m) => JObj (merge_into (merge_into [] m) (kids t cs))
            | Some d => d
            | None => match kids t cs with [] => JNull | _ => JObj (kids t cs) end
            end
  end.
Proof. done. Qed.
Lemma kids_keys t cs k : k ∈ akeys (kids t cs) -> k ∈ akeys cs.
Proof.
  induction cs as [|[k' c] cs IH]; [done|]. simpl. destruct (is_null _); simpl; set_solver.
Qed.
Lemma kids_nodup t cs : NoDup (akeys cs) -> NoDup (akeys (kids t cs)).
Proof.
  induction cs as [|[k' c] cs IH]; [done|]. inversion 1 as [|? ? Hk Hn]; subst. simpl.
  destruct (is_null _); [auto|]. simpl. constructor; [|auto]. intros H'. by apply Hk, (kids_keys t).
Qed.
Lemma kids_lookup t cs k c : NoDup (akeys cs) -> alookup k cs = Some c -> snapshot_item t c ≠ JNull ->
  alookup k (kids t cs) = Some (snapshot_item t c).
Proof.
  induction cs as [|[k' c'] cs IH]; [done|]. inversion 1 as [|? ? Hk Hn]; subst.
  cbn [alookup kids]. case_decide as Hd.
  - subst k'. intros [= ->] Hc. destruct (snapshot_item t c) eqn:E; try done; simpl; by rewrite decide_True.
  - intros Hc Hnn. destruct (is_null _); [auto|]. cbn [alookup]. rewrite decide_False by done. auto.
Qed.
Lemma merge_lookup new : forall m k, NoDup (akeys new) ->
  alookup k (merge_into m new) = match alookup k new with Some v => Some v | None => alookup k m end.
Proof.
  induction new as [|[k' v] new IH]; intros m k Hn; [done|].
  inversion Hn as [|? ? Hk Hn']; subst. unfold merge_into in *. cbn [fold_left fst snd].
  rewrite IH by done. cbn [alookup]. case_decide as Hd.
  - subst k'. assert (E : alookup k new = None) by by apply alookup_None_iff.
    rewrite E. apply alookup_ainsert_eq.
  - destruct (alookup k new); [done|]. by apply alookup_ainsert_ne.
Qed.
Lemma merge_nil_app m : forall acc, NoDup (akeys (acc ++ m)) -> merge_into acc m = acc ++ m.
Proof.
  induction m as [|[k v] m IH]; intros acc Hn; [by rewrite app_nil_r|].
  unfold merge_into in *. cbn [fold_left fst snd].
  rewrite ainsert_notin.
  2:{ rewrite akeys_app in Hn. apply NoDup_app in Hn as (_ & Hn & _). intros Hk.
      apply (Hn k Hk). simpl. set_solver. }
  rewrite IH; by rewrite <- app_assoc.
Qed.
Lemma choose_in t vs : forall acc v, choose_version t vs acc = Some v ->
  acc = Some v ∨ exists x, (x, v) ∈ vs.
Proof.
  induction vs as [|[x d] vs IH]; intros acc v H; [by left|]. simpl in H. destruct (in_range t x).
  - injection H as ->. right. exists x. set_solver.
  - apply IH in H as [[= ->]|[y Hy]]; right; [exists x|exists y]; set_solver.
Qed.
Lemma choose_covers t vs : (exists x v, (x, v) ∈ vs ∧ in_range t x = true) -> forall acc,
  exists x v, choose_version t vs acc = Some v ∧ (x, v) ∈ vs ∧ in_range t x = true.
Proof.
  induction vs as [|[x d] vs IH]; intros H acc.
  - destruct H as (x & v & H & _). by apply elem_of_nil in H.
  - simpl. destruct (in_range t x) eqn:E; [exists x, d; set_solver|].
    destruct IH with (acc := Some d) as (y & v & H1 & H2 & H3).
    { destruct H as (y & v & [[= -> ->]|Hy]%elem_of_cons & Hr); [congruence|eauto]. }
    exists y, v. set_solver.
Qed.

Lemma twf_children p vs cs : twf (TItem p vs cs) -> NoDup (akeys cs) ∧ forall k c, alookup k cs = Some c -> twf c.
Proof.
  inversion 1 as [? ? ? Hn Hf]; subst. split; [done|]. intros k c Hc.
  exact (alookup_Forall (fun c => twf c) k c cs Hf Hc).
Qed.

Lemma snap_below t l : forall i j, twf i -> find_below l i = Some j -> snapshot_item t j ≠ JNull ->
  (forall pre k r x v, l = pre ++ k :: r -> (x, v) ∈ vers_below pre i -> exists m, v = JObj m) ->
  below l (snapshot_item t i) = Some (snapshot_item t j).
Proof.
  induction l as [|k l IH]; intros i j Hi Hf Hn Hobj; [by injection Hf as ->|].
  destruct i as [p vs cs]. apply twf_children in Hi as [Hnd Hcs]. cbn [find_below ti_children] in Hf.
  destruct (alookup k cs) as [c|] eqn:Hc; [|done].
  assert (Hb : below l (snapshot_item t c) = Some (snapshot_item t j)).
  { apply IH; eauto. intros pre k' r x v -> Hx. apply (Hobj (k :: pre) k' r x v); [done|].
    unfold vers_below in *. cbn [find_below ti_children]. by rewrite Hc. }
  assert (Hcn : snapshot_item t c ≠ JNull).
  { intros E. rewrite E in Hb. destruct l; [|done]. simpl in Hb. congruence. }
  assert (Hk := kids_lookup t cs k c Hnd Hc Hcn).
  assert (Hch : choose_version t vs None = None ∨ exists m, choose_version t vs None = Some (JObj m)).
  { destruct (choose_version t vs None) as [v|] eqn:E; [|by left]. right.
    apply choose_in in E as [E|[x Hx]]; [done|].
    destruct (Hobj [] k l x v) as [m ->]; [done|done|eauto]. }
  rewrite snapshot_item_eq. destruct cs as [|c0 cs]; [done|].
  destruct Hch as [E|[m E]]; rewrite E.
  - destruct (kids t (c0 :: cs)) as [|k0 ks] eqn:Ek; [done|]. rewrite <- Ek in *.
    cbn [below]. by rewrite Hk.
  - cbn [below]. rewrite merge_lookup by by apply kids_nodup. by rewrite Hk.
Qed.

Lemma tj_snapshot_lookup d t k i : NoDup (akeys d) -> alookup k d = Some i ->
  snapshot_item t i ≠ JNull -> alookup k (tj_snapshot d t) = Some (snapshot_item t i).
Proof.
  unfold tj_snapshot. induction d as [|[k' c'] d IH]; [done|]. inversion 1 as [|? ? Hk Hn]; subst.
  cbn [alookup map List.filter fst snd]. case_decide as Hd.
  - subst k'. intros [= ->] Hc. destruct (snapshot_item t i) eqn:E; try done; simpl; by rewrite decide_True.
  - intros Hc Hnn. destruct (negb _); [|auto]. cbn [alookup]. rewrite decide_False by done. auto.
Qed.

Lemma doc_below t d l j : dwf d -> l ≠ [] -> find_item d l = Some j -> snapshot_item t j ≠ JNull ->
  (forall pre k r x v, pre ≠ [] -> l = pre ++ k :: r -> (x, v) ∈ vers d pre -> exists m, v = JObj m) ->
  below l (JObj (tj_snapshot d t)) = Some (snapshot_item t j).
Proof.
  intros [Hnd Hd] Hl Hf Hn Hobj. destruct l as [|k l]; [done|]. cbn [find_item] in Hf.
  destruct (alookup k d) as [i|] eqn:Hk; [|done].
  assert (Hb : below l (snapshot_item t i) = Some (snapshot_item t j)).
  { apply snap_below; [|done|done|].
    - exact (alookup_Forall (fun c => twf c) k i d Hd Hk).
    - intros pre k' r x v -> Hx. apply (Hobj (k :: pre) k' r x v); [done|done|].
      unfold vers, vers_below in *. cbn [find_item]. by rewrite Hk. }
  cbn [below]. rewrite (tj_snapshot_lookup d t k i); [done|done|done|].
  intros E. rewrite E in Hb. destruct l; [|done]. simpl in Hb. congruence.
Qed.

Lemma alike_null v w : alike v w -> v = JNull <-> w = JNull.
Proof. intros [->|H]; [done|]. inversion H; subst; done. Qed.
Lemma alike_obj v w : alike v w -> (exists m, v = JObj m) <-> (exists m, w = JObj m).
Proof. intros [->|H]; [done|]. inversion H; subst; split; intros [m0 E]; try done; eauto. Qed.

Lemma find_item_app d l l' i j : l ≠ [] -> find_item d l = Some i -> find_below l' i = Some j ->
  find_item d (l ++ l') = Some j.
Proof.
  destruct l as [|k l]; [done|]. intros _. cbn [find_item app]. destruct (alookup k d) as [i0|]; [|done].
  revert i0. induction l as [|k' l IH]; intros i0; cbn [find_below app].
  - by intros [= ->].
  - destruct (alookup k' (ti_children i0)); [apply IH|done].
Qed.

Lemma snapshot_spec srt ord now ps q l t w :
  sorting tp_ts srt -> (forall m, Permutation (ord m) m) -> names ["."%char] q l -> (2 <= length l)%nat ->
  0 <= now < 2 ^ 63 ->
  times_ok l ps ->
  t <= now -> value_at l t (srt ps) (Some w) -> w ≠ JNull ->
  (forall m, w ≠ JObj m) ∨
    (forall p k r, p ∈ ps -> ~ sets p (l ++ k :: r)) ∧
    (forall p m, p ∈ ps -> sets p l -> tp_value p = JObj m -> NoDup (map fst m)) ->
  (forall p pre k r, p ∈ ps -> l = pre ++ k :: r -> (2 <= length pre)%nat -> sets p pre ->
     exists m, tp_value p = JObj m) ->
  exists w', below l (JObj (tj_snapshot (from_patches srt ord now ps) t)) = Some w' ∧ alike w' w.
Proof.
  intros Hs Ho Hq Hl Hnow Ht Htn Hw Hnn Hkind Hanc.
  destruct (timeline' srt ord now ps q l Hs Ho Hq Hl Hnow Ht) as (rs & H1 & H2 & H3 & H4 & H5).
  assert (Hne : l ≠ []) by (intros ->; simpl in Hl; lia).
  set (d := from_patches srt ord now ps) in *.
  assert (Hr : forall a b v, (a, b, v) ∈ rs -> in_range t (range_text a b) = true <-> a <= t <= b).
  { intros a b v Hr. rewrite Forall_forall in H2. destruct (H2 _ Hr) as [Ha Hb].
    unfold in_range. rewrite parse_range_ok by done. rewrite andb_true_iff. lia. }
  unfold vers in H1. destruct (find_item d l) as [j|] eqn:Hj.
  2:{ symmetry in H1. apply map_eq_nil in H1. subst rs.
      destruct (H5 t w Htn Hw) as (r & Hr' & _). by apply elem_of_nil in Hr'. }
  destruct (choose_covers t (ti_versions j)) with (acc := @None json) as (x & v & Hc & Hx & Hxr).
  { destruct (H5 t w Htn Hw) as ([[a b] v] & Hin & Hcov & _). exists (range_text a b), v.
    rewrite H1. split; [|by apply (Hr a b v)]. apply in_map_text. eauto. }
  rewrite H1 in Hx. apply in_map_text in Hx as (a & b & Hin & ->). apply (Hr a b v) in Hxr; [|done].
  destruct (H3 (a, b, v) t Hin Hxr) as (w' & Hw' & Ha). cbn [r_val] in Ha.
  assert (w' = w) as ->.
  { rewrite <- (names_key _ _ Hq) in Hw, Hw'. apply value_at_fun in Hw. apply value_at_fun in Hw'. congruence. }
  assert (Hsnap : snapshot_item t j = v).
  { destruct j as [p vs cs]. rewrite snapshot_item_eq. cbn [ti_versions] in *.
    assert (Hvs : vs ≠ []). { intros ->. done. }
    destruct vs as [|v0 vs]; [done|]. rewrite Hc.
    assert (Hm : v = match v with JObj m => JObj (merge_into (merge_into [] m) (kids t cs)) | d => d end).
    { destruct v as [| | | | |m]; try done. destruct Hkind as [Hk|[Hk1 Hk2]].
      { exfalso. destruct (proj1 (alike_obj _ _ Ha)) as [m' ->]; [eauto|]. by apply (Hk m'). }
      destruct (H4 a b _ Hin) as (pp & Hpp & Hset & _ & Hval).
      assert (cs = []) as ->.
      { destruct cs as [|[k c] cs]; [done|]. exfalso.
        assert (Hfi : find_item d (l ++ [k]) = Some c).
        { eapply find_item_app; [done|exact Hj|]. cbn [find_below ti_children alookup].
          by rewrite decide_True. }
        destruct (proj1 (found_iff srt ord now ps (l ++ [k]) Hs Ho ltac:(by destruct l))) as (p' & Hp' & Hs' & r & Hpre).
        { fold d. rewrite Hfi. eauto. }
        apply (Hk1 p' k r Hp'). apply sets_setp. split; [done|]. apply route_split.
        rewrite Hpre. by rewrite <- app_assoc. }
      assert (Hnd := Hk2 _ _ Hpp Hset Hval).
      rewrite (merge_nil_app m [] Hnd). done. }
    by destruct cs; rewrite <- Hm. }
  exists v. split; [|done]. rewrite <- Hsnap. apply doc_below; [apply from_patches_wf|done|done| |].
  - rewrite Hsnap. intros E. by apply (alike_null _ _ Ha) in E.
  - intros pre k r x v' Hpre E Hx. unfold d in Hx.
    destruct (vers_src srt ord now ps pre x v' Hs Ho Hpre Hx) as (p & Hp & Hsp & Hsr & Hpv).
    destruct (Hanc p pre k r Hp E) as [m Hm].
    + destruct pre as [|n0 [|n1 pre]]; [done| |simpl; lia]. rewrite one_name_vers in Hx.
      by apply elem_of_nil in Hx.
    + apply sets_setp. split; [done|]. by apply route_split.
    + exists m. congruence.
Qed.

Lemma range_ok a b : 0 <= a < 2 ^ 63 -> 0 <= b < 2 ^ 63 ->
  period (range_text a b) a b ∧ parse_range (range_text a b) = (a, b) ∧
  forall t, in_range t (range_text a b) = true <-> a <= t <= b.
Proof.
  intros Ha Hb. split; [by apply period_text|]. split; [by apply parse_range_ok|].
  intros t. unfold in_range. rewrite parse_range_ok by done. rewrite andb_true_iff. lia.
Qed.
Lemma range_negative a b : a < 0 ∨ b < 0 -> forall t, in_range t (range_text a b) = true <-> t = 0.
Proof.
  intros H t. unfold in_range. rewrite parse_range_negative by done. rewrite andb_true_iff. lia.
Qed.
