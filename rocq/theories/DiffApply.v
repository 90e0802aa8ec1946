(** Proofs about applying generated patches. *)
From stdpp Require Import pretty.
From Verif Require Import Base BaseSpec BaseSpecLemmas F64 Tson TsonInd BaseLemmas F64Lemmas TsonSpec TextSpec TsonLemmas ConvLemmas Heap HeapSpec Patch Own TreePatch PatchSpec PatchLemmas
  Diff DiffSpec DiffLemmas ArrayDiff DiffPaths DiffGrow.
From Coq Require Import Lia.

(** ** Generated paths start with a slash *)
Lemma written_slash q : q <> [] -> exists rest, written q = String slash rest.
Proof.
  intros Hq. change (written q) with (text (map step_name q)). unfold text.
  destruct (nonempty (map step_name q)) as [|k ks] eqn:E; [|by eexists].
  rewrite decide_True; [by exists ""|]. destruct q as [|s q _] using rev_ind; [done|]. rewrite map_app in *. cbn [map] in *.
  rewrite last_snoc. rewrite nonempty_app in E. apply app_nil in E as [_ E].
  destruct (decide (step_name s = "")) as [->|H]; [done|]. by rewrite (nonempty_one _ H) in E.
Qed.
Lemma generated_slash wt m m' ops p : wf (TObj m) -> wf (TObj m') -> handle_values wt (TObj m) (TObj m') "" = Ok ops -> p ∈ ops ->
  exists rest, op_path p = String slash rest.
Proof.
  intros Ha Hb E Hin. change "" with (written []) in E.
  destruct (generated_ok _ _ _ _ _ _ Hb Ha E Hin) as (q & -> & H). apply written_slash. cbn [app]. intros ->.
  destruct H as [(_ & _ & [(q1 & k & ? & ? & E1 & _)|(q1 & k & ? & ? & E1 & _)])|(x & ts & E1 & _)]; try done; by destruct q1.
Qed.
Lemma papply_slash ops : forall m, (forall p, p ∈ ops -> exists rest, op_path p = String slash rest) ->
  exists m', fst (papply (TObj m) ops) = TObj m' ∧ forall k, k <> "" -> alookup k m' = alookup k m.
Proof.
  induction ops as [|p ops IH]; intros m H; [by exists m|]. cbn [papply].
  destruct (H p) as [rest Ep]; [constructor|]. rewrite Ep, op_parts_slash.
  destruct (ptrav_frame p "" (op_parts rest) m) as (m1 & E1 & H1).
  destruct (ptrav p ("" :: op_parts rest) (TObj m)) as [t r]. cbn [fst] in E1. subst t.
  destruct r as [[]| |]; cbn [fst]; try (by exists m1).
  destruct (IH m1) as (m2 & E2 & H2); [intros q Hq; apply H; by constructor|].
  exists m2. split; [done|]. intros k Hk. by rewrite H2, H1.
Qed.
Lemma apply_generated wt m m' ops h l h' r : wf (TObj m) -> wf (TObj m') -> handle_values wt (TObj m) (TObj m') "" = Ok ops ->
  doc_of h (VObj l) (TObj m) -> apply_patch h (VObj l) ops = (h', r) ->
  exists m1, doc_of h' (VObj l) (TObj m1) ∧ forall k, k <> "" -> alookup k m1 = alookup k m.
Proof.
  intros Ha Hb E HD Ea. destruct (papply_slash ops m) as (m1 & E1 & H1).
  { intros p Hp. by apply (generated_slash wt m m' ops). }
  exists m1. split; [|done]. pose proof (apply_patch_doc _ _ _ _ _ _ HD Ea) as HX.
  destruct (papply (TObj m) ops) as [t1 r1]. cbn [fst] in E1. subst t1.
  destruct r as [v| |], r1 as [[]| |]; try done. by destruct HX.
Qed.
Lemma same_values_member m m' k : NoDup (akeys m') -> same_values (TObj m) (TObj m') -> member_same m m' k.
Proof.
  intros ND. unfold same_values, member_same. inversion 1 as [| | |? m1 ? HP HF]; subst.
  destruct (alookup k m) as [u|] eqn:Eu.
  - apply alookup_Some_in in Eu. rewrite HP in Eu. apply elem_of_list_lookup in Eu as [i Hi].
    destruct (Forall2_lookup_l _ _ _ _ _ HF Hi) as ([k' v] & Hj & Ek & HR). cbn [fst snd] in *. subst k'.
    apply elem_of_list_lookup_2, (alookup_in _ _ _ ND) in Hj. by rewrite Hj.
  - destruct (alookup k m') as [v|] eqn:Ev; [|done]. apply alookup_Some_in, elem_of_list_lookup in Ev as [i Hi].
    destruct (Forall2_lookup_r _ _ _ _ _ HF Hi) as ([k' u] & Hj & Ek & HR). cbn [fst snd] in *. subst k'.
    apply elem_of_list_lookup_2 in Hj. rewrite <- HP in Hj. apply alookup_None_iff in Eu. apply Eu.
    apply elem_of_list_fmap. by exists (k, u).
Qed.

(** ** The parts of generated paths *)
Definition named (s : step) : Prop := step_name s <> "" ∧ plain (step_name s).
Lemma digits_no c d : is_digit c = false -> all_digits d = true -> contains c d = false.
Proof.
  intros Hc. induction d as [|a d IH]; [done|]. cbn [all_digits contains]. intros [H1 H2]%andb_true_iff.
  apply orb_false_iff. split; [|by apply IH]. apply bool_decide_eq_false. intros ->. congruence.
Qed.
Lemma pretty_elem (i : nat) : pretty i = dec_text (N.of_nat i).
Proof. by rewrite dec_text_pretty. Qed.
Lemma named_elem i : named (Elem i).
Proof.
  unfold named. cbn [step_name]. rewrite pretty_elem. destruct (dec_text_spec (N.of_nat i)) as (A & B & _). split; [done|].
  split; apply contains_has_char; by apply digits_no.
Qed.
Lemma parts_pointer ns : ns <> [] -> Forall plain ns -> exists rest, pointer ns = String slash rest ∧ op_parts rest = ns.
Proof.
  destruct ns as [|n ns]; [done|]. intros _. revert n. induction ns as [|n2 ns IH]; intros n HF.
  - inversion HF; subst. exists (escaped n). cbn [pointer]. rewrite sapp_nil_r. split; [done|]. by apply op_parts_last.
  - inversion HF; subst. destruct (IH n2) as (rest & E & Ep); [done|]. exists (escaped n +++ String slash rest).
    split; [|rewrite op_parts_more, Ep; [done|done|by left]]. cbn [pointer] in *. by rewrite E.
Qed.
Definition parts (p : operation) : list string := op_parts (op_path (unslash p)).
Lemma parts_written p q : op_path p = written q -> q <> [] -> Forall named q -> parts p = map step_name q.
Proof.
  intros E Hq HN. rewrite written_plain in E by (eapply Forall_impl; [exact HN|]; by intros s [? _]).
  destruct (parts_pointer (map step_name q)) as (rest & Ep & Eq).
  - by destruct q.
  - apply Forall_map. eapply Forall_impl; [exact HN|]. by intros s [_ ?].
  - unfold parts, unslash. cbn [op_path]. by rewrite E, Ep.
Qed.

(** Applying operations to a node [n] names below the root. *)
Fixpoint papply_at (n : nat) (t : tson) (ops : list operation) : tson * res unit :=
  match ops with
  | [] => (t, Ok tt)
  | p :: ops' =>
      match ptrav (unslash p) (drop n (parts p)) t with
      | (t', Ok _) => papply_at n t' ops'
      | r => r
      end
  end.
Lemma papply_at_root t ops : papply_at 0 t ops = papply t (map unslash ops).
Proof.
  revert t. induction ops as [|p ops IH]; intros t; [done|]. cbn [papply_at papply map].
  change (drop 0 (parts p)) with (op_parts (op_path (unslash p))).
  destruct (ptrav _ _ t) as [t' [[]| |]]; auto.
Qed.
Lemma papply_at_app n t p q : papply_at n t (p ++ q) =
  match papply_at n t p with (t', Ok _) => papply_at n t' q | r => r end.
Proof.
  revert t. induction p as [|o p IH]; intros t; [done|]. cbn [app papply_at].
  destruct (ptrav _ _ t) as [t' [[]| |]]; auto.
Qed.
Lemma papply_at_member n k ops : forall c m c', (forall p, p ∈ ops -> exists n2 rest, drop n (parts p) = k :: n2 :: rest) ->
  alookup k m = Some (TObj c) -> papply_at (S n) (TObj c) ops = (c', Ok tt) ->
  papply_at n (TObj m) ops = (TObj (ainsert k c' m), Ok tt).
Proof.
  induction ops as [|p ops IH]; intros c m c' H Hk E.
  - injection E as <-. cbn [papply_at]. by rewrite ainsert_id.
  - cbn [papply_at] in *. destruct (H p) as (n2 & rest & Ep); [constructor|]. rewrite Ep.
    assert (Es : drop (S n) (parts p) = n2 :: rest).
    { change (S n) with (1 + n)%nat. rewrite Nat.add_comm, <- drop_drop, Ep. done. }
    rewrite Es in E. rewrite ptrav_cons. cbv beta iota. rewrite Hk.
    destruct (ptrav_frame (unslash p) n2 rest c) as (c1 & E1 & _).
    destruct (ptrav (unslash p) (n2 :: rest) (TObj c)) as [t1 [[]| |]]; try done. cbn [fst] in E1. subst t1.
    cbn [put_back]. rewrite (IH c1 _ c').
    + by rewrite ainsert_ainsert.
    + intros q Hq. apply H. by constructor.
    + by rewrite alookup_ainsert_eq.
    + done.
Qed.
Lemma papply_at_set n p m k x ts : drop n (parts p) = [k] -> carries p x ts ->
  papply_at n (TObj m) [p] = (TObj (ainsert k (TLeaf x ts) m), Ok tt).
Proof.
  intros Ep (Hw & Hp & <-). cbn [papply_at]. rewrite Ep, ptrav_cons. cbv beta iota.
  change (op_kind (unslash p)) with (op_kind p). change (op_value (unslash p)) with (op_value p). change (op_ts (unslash p)) with (op_ts p).
  rewrite (payload_scalar _ _ Hp). by destruct Hw as [-> | ->].
Qed.
Lemma papply_at_elem n p m k ys zs x ts : drop n (parts p) = [k; pretty (length ys)] -> carries p x ts ->
  alookup k m = Some (TArr (ys ++ zs)) -> Z.of_nat (length ys) <= int64_max ->
  papply_at n (TObj m) [p] = (TObj (ainsert k (TArr (ys ++ TLeaf x ts :: tail zs)) m), Ok tt).
Proof.
  intros Ep (Hw & Hp & <-) Hk Hmax. set (i := length ys) in *. cbn [papply_at]. rewrite Ep, ptrav_cons. cbv beta iota. rewrite Hk.
  change (op_kind (unslash p)) with (op_kind p). change (op_value (unslash p)) with (op_value p). change (op_ts (unslash p)) with (op_ts p).
  rewrite pretty_elem, parse_int_dec_text by lia. rewrite (payload_scalar _ _ Hp).
  replace (Z.of_N (N.of_nat i)) with (Z.of_nat i) by lia.
  assert (E : (Z.of_nat i <? 0) = false) by lia. rewrite E, Nat2Z.id.
  assert (E2 : <[i := TLeaf x (op_ts p)]> (pad (ys ++ zs) (Z.of_nat i)) = ys ++ TLeaf x (op_ts p) :: tail zs).
  { unfold pad. rewrite app_length. fold i. destruct (Z.leb_spec (Z.of_nat (i + length zs)) (Z.of_nat i)).
    - destruct zs as [|z zs]; [|cbn [length] in *; lia]. cbn [length tail]. rewrite Nat2Z.id, app_nil_r.
      replace (i + 1 - (i + 0))%nat with 1%nat by lia. unfold i. by rewrite insert_app_r_alt, Nat.sub_diag by lia.
    - destruct zs as [|z zs]; [cbn [length] in *; lia|]. unfold i. by rewrite insert_app_r_alt, Nat.sub_diag by lia. }
  rewrite E2. by destruct Hw as [-> | ->].
Qed.
Lemma papply_at_drop n p m k ys z zs : drop n (parts p) = [k; pretty (length ys)] -> op_kind p = ORemove ->
  alookup k m = Some (TArr (ys ++ z :: zs)) -> Z.of_nat (length ys) <= int64_max ->
  papply_at n (TObj m) [p] = (TObj (ainsert k (TArr (ys ++ zs)) m), Ok tt).
Proof.
  intros Ep Hw Hk Hmax. cbn [papply_at]. rewrite Ep, ptrav_cons. cbv beta iota. rewrite Hk.
  change (op_kind (unslash p)) with (op_kind p). rewrite pretty_elem, parse_int_dec_text by lia. rewrite Hw.
  replace (Z.of_N (N.of_nat (length ys))) with (Z.of_nat (length ys)) by lia. rewrite app_length. cbn [length].
  assert (E : ((Z.of_nat (length ys) <? 0) || (Z.of_nat (length ys + S (length zs)) <=? Z.of_nat (length ys))) = false).
  { apply orb_false_iff. split; [apply Z.ltb_ge|apply Z.leb_gt]; lia. }
  rewrite E, Nat2Z.id, delete_middle. done.
Qed.

(** ** Bridged documents *)
Section bridged.
Context (wt : bool).
Definition stamps (a b : Z) : Prop := if wt then a = b else True.
Definition same_v : tson -> tson -> Prop := agree stamps.
Lemma stamps_skip a b : negb wt || (a =? b) = true -> stamps a b.
Proof. unfold stamps. destruct wt; [|done]. intros H. by apply Z.eqb_eq in H. Qed.
Lemma carries_any kd path x ts : kd = OAdd ∨ kd = OReplace -> carries (Op kd path (any_of_prim x) ts) x ts.
Proof. intros H. split; [done|]. split; [apply payload_any|done]. Qed.
Lemma drop_names q0 q : drop (length q0) (map step_name (q0 ++ q)) = map step_name q.
Proof. rewrite map_app. apply drop_app_alt. by rewrite map_length. Qed.
Lemma named_key k : k <> "" -> plain k -> named (Key k).
Proof. by split. Qed.
Lemma same_v_rel a b : same_v a b <-> agree (stamps_rel wt) a b.
Proof. split; apply agree_weaken; intros x y; unfold stamps, stamps_rel; destruct wt; naive_solver. Qed.
Lemma same_content_v a b : same_content a b -> same_v a b.
Proof. apply agree_weaken. intros x y ->. unfold stamps. by destruct wt. Qed.
Lemma nan_free_same_v t : nan_free t -> same_v t t.
Proof. intros H. apply (agree_weaken eq); [|by apply same_refl]. intros a b ->. unfold stamps. by destruct wt. Qed.

(** The result of applying operations to [TObj m]: only member [k] differs, and it is [u]. *)
Definition only (k : string) (m m1 : list (string * tson)) : Prop :=
  (forall k', k' <> k -> alookup k' m1 = alookup k' m) ∧ (NoDup (akeys m) -> NoDup (akeys m1)).
Lemma only_insert k u m : only k m (ainsert k u m).
Proof.
  split; [intros k' H; by apply alookup_ainsert_ne|]. apply NoDup_ainsert.
Qed.
Lemma only_refl k m : only k m m.
Proof. by split. Qed.

Lemma elems_apply q0 k : Forall named q0 -> named (Key k) -> forall lm lo pre ops m,
  Forall2 (fun u v => ~ container v ∨ same_v u v) lo lm -> Forall wf lo -> Forall wf lm -> Forall nan_free lm ->
  Z.of_nat (length pre + length lm) <= int64_max ->
  hv_elems wt (written (q0 ++ [Key k])) (length pre) lo lm = Ok ops -> alookup k m = Some (TArr (pre ++ lo)) ->
  exists ys, papply_at (length q0) (TObj m) ops = (TObj (ainsert k (TArr (pre ++ ys)) m), Ok tt) ∧ Forall2 same_v ys lm.
Proof.
  intros HN0 HNk. induction lm as [|v lm IH]; intros lo pre ops m HC Hwo Hwm HF Hmax E Hk.
  - apply Forall2_nil_inv_r in HC as ->. injection E as <-. exists []. split; [cbn [papply_at]; by rewrite ainsert_id|constructor].
  - inversion HC as [|o ? lo' ? Hov HC']; subst. rename lo' into lo.
    rewrite hv_elems_cons in E. apply bind_ok in E as (here & Eh & E). apply bind_ok in E as (rest & Er & [= <-]).
    cbn [length] in *. inversion HF; inversion Hwo; inversion Hwm; subst.
    assert (Hnext : forall u m1, papply_at (length q0) (TObj m) here = (TObj m1, Ok tt) ->
       alookup k m1 = Some (TArr (pre ++ u :: lo)) -> ainsert k (TArr (pre ++ u :: lo)) m = m1 -> same_v u v ->
       exists ys, papply_at (length q0) (TObj m) (here ++ rest) = (TObj (ainsert k (TArr (pre ++ ys)) m), Ok tt) ∧ Forall2 same_v ys (v :: lm)).
    { intros u m1 E1 HkM Em Huv. rewrite papply_at_app, E1.
      destruct (IH lo (pre ++ [u]) rest m1) as (ys & Ey & HY); [done|done|done|done|rewrite app_length; cbn [length]; lia| | |].
      - rewrite app_length. cbn [length]. by replace (length pre + 1)%nat with (S (length pre)) by lia.
      - rewrite HkM. by rewrite <- app_assoc.
      - exists (u :: ys). rewrite Ey, <- app_assoc, <- Em, ainsert_ainsert. split; [done|by constructor]. }
    assert (Hset : forall kd x ts, kd = OAdd ∨ kd = OReplace -> v = TLeaf x ts ->
       here = [Op kd (idx_path (written (q0 ++ [Key k])) (length pre)) (any_of_prim x) ts] ->
       exists ys, papply_at (length q0) (TObj m) (here ++ rest) = (TObj (ainsert k (TArr (pre ++ ys)) m), Ok tt) ∧ Forall2 same_v ys (v :: lm)).
    { intros kd x ts Hkd -> ->. rewrite written_elem, <- app_assoc in *.
      set (p := Op kd (written (q0 ++ [Key k] ++ [Elem (length pre)])) (any_of_prim x) ts) in *.
      apply (Hnext (TLeaf x ts) (ainsert k (TArr (pre ++ TLeaf x ts :: lo)) m)).
      - rewrite (papply_at_elem _ p m k pre (o :: lo) x ts).
        + done.
        + rewrite (parts_written p (q0 ++ [Key k] ++ [Elem (length pre)])); [by rewrite drop_names|done|by destruct q0|].
          apply Forall_app. split; [done|]. repeat constructor; try apply named_elem; apply HNk.
        + by apply carries_any.
        + done.
        + lia.
      - by rewrite alookup_ainsert_eq.
      - done.
      - by apply nan_free_same_v. }
    assert (Hskip : here = [] -> same_v o v ->
       exists ys, papply_at (length q0) (TObj m) (here ++ rest) = (TObj (ainsert k (TArr (pre ++ ys)) m), Ok tt) ∧ Forall2 same_v ys (v :: lm)).
    { intros -> Hs. apply (Hnext o m); [done|done|by apply ainsert_id|done]. }
    destruct Hov as [Hov|Hov]; [|apply Hskip; [|done]; rewrite same_v_rel in Hov; rewrite handle_none in Eh by done; by injection Eh].
    destruct v as [|x ts|mv|lv].
    + destruct o; try done. injection Eh as <-. apply Hskip; [done|constructor].
    + destruct o as [|z ts'| |l]; try done; cbn [handle_values] in Eh.
      * injection Eh as <-. apply (Hset OAdd x ts); [by left|done|done].
      * destruct (same_type _ _); [|done]. destruct (Diff.prim_eq z x && _) eqn:Ec; injection Eh as <-.
        -- apply Hskip; [done|]. apply andb_true_iff in Ec as [H0%prim_eq_iff Hst%stamps_skip]. by constructor.
        -- apply (Hset OReplace x ts); [by right|done|done].
      * injection Eh as <-. apply (Hset OReplace x ts); [by right|done|done].
    + exfalso. apply Hov. left. by exists mv.
    + exfalso. apply Hov. right. by exists lv.
Qed.

(** *** Arrays of different length *)
Lemma elem_parts q0 k i p : Forall named q0 -> named (Key k) -> op_path p = idx_path (written (q0 ++ [Key k])) i ->
  drop (length q0) (parts p) = [k; pretty i].
Proof.
  intros HN0 HNk Ep. rewrite written_elem, <- app_assoc in Ep.
  rewrite (parts_written p (q0 ++ [Key k] ++ [Elem i])); [by rewrite drop_names|done|by destruct q0|].
  apply Forall_app. split; [done|]. repeat constructor; try apply named_elem; apply HNk.
Qed.
Lemma removes_apply q0 k : Forall named q0 -> named (Key k) -> forall suf pre ms used m,
  Z.of_nat (length pre + length suf) <= int64_max -> alookup k m = Some (TArr (pre ++ suf)) ->
  papply_at (length q0) (TObj m) (rev (map (fun iv => Op ORemove (idx_path (written (q0 ++ [Key k])) (fst iv)) ANil 0)
    (unmatched suf (length pre) ms used))) = (TObj (ainsert k (TArr (pre ++ matched suf ms used)) m), Ok tt).
Proof.
  intros HN0 HNk. induction suf as [|o suf IH]; intros pre ms used m Hmax Hk.
  - cbn [unmatched matched map rev papply_at]. by rewrite ainsert_id.
  - cbn [unmatched matched length] in *. assert (El : S (length pre) = length (pre ++ [o])) by (rewrite app_length; cbn [length]; lia).
    assert (Hk' : alookup k m = Some (TArr ((pre ++ [o]) ++ suf))) by (by rewrite <- app_assoc).
    destruct (find_match o ms used 0) as [j|].
    + rewrite El, IH; [by rewrite <- app_assoc|rewrite <- El; lia|done].
    + cbn [map rev]. rewrite papply_at_app, El, IH; [|rewrite <- El; lia|done].
      rewrite (papply_at_drop _ _ _ k pre o (matched suf ms used)).
      * by rewrite ainsert_ainsert.
      * by apply elem_parts.
      * done.
      * by rewrite alookup_ainsert_eq, <- app_assoc.
      * lia.
Qed.
Lemma adds_apply q0 k : Forall named q0 -> named (Key k) -> forall tl ys m adds, Forall nan_free tl ->
  Z.of_nat (length ys + length tl) <= int64_max -> alookup k m = Some (TArr ys) ->
  array_adds (written (q0 ++ [Key k])) (enum_from (length ys) tl) = Ok adds ->
  papply_at (length q0) (TObj m) adds = (TObj (ainsert k (TArr (ys ++ tl)) m), Ok tt).
Proof.
  intros HN0 HNk. induction tl as [|v tl IH]; intros ys m adds Hnf Hmax Hk E.
  - injection E as <-. cbn [papply_at]. by rewrite app_nil_r, ainsert_id.
  - unfold enum_from in E. cbn [length seq zip zip_with array_adds] in E, Hmax. destruct v as [|x ts| |]; try done.
    apply bind_ok in E as (r & Er & [= <-]). inversion Hnf; subst.
    match goal with |- papply_at _ _ (?p :: r) = _ => change (p :: r) with ([p] ++ r) end. rewrite papply_at_app.
    rewrite (papply_at_elem _ _ m k ys [] x ts).
    + cbn [tail]. rewrite (IH (ys ++ [TLeaf x ts])); [by rewrite ainsert_ainsert, <- app_assoc|done| | |].
      * rewrite app_length. cbn [length]. lia.
      * by rewrite alookup_ainsert_eq.
      * rewrite app_length. cbn [length]. rewrite Nat.add_1_r. exact Er.
    + by apply elem_parts.
    + apply carries_any. by left.
    + by rewrite app_nil_r.
    + lia.
Qed.
Lemma updates_apply q0 k : Forall named q0 -> named (Key k) -> forall ms os zs ys m ups, Forall nan_free ms -> Forall wf os -> Forall wf ms ->
  Z.of_nat (length ys + length ms) <= int64_max -> alookup k m = Some (TArr (ys ++ zs)) -> placed os ms zs ->
  array_updates (written (q0 ++ [Key k])) os ms (length ys) = Ok ups ->
  exists ws, papply_at (length q0) (TObj m) ups = (TObj (ainsert k (TArr (ys ++ ws)) m), Ok tt) ∧ Forall2 same_content ws ms.
Proof.
  intros HN0 HNk. induction ms as [|v ms IH]; intros os zs ys m ups Hnf Hwo Hwm Hmax Hk [Hlen HP] E.
  - injection E as <-. destruct zs; [|cbn [length] in Hlen; lia]. exists []. cbn [papply_at]. split; [by rewrite ainsert_id|constructor].
  - cbn [array_updates] in E. apply bind_ok in E as (here & Eh & E). apply bind_ok in E as (rest & Er & [= <-]).
    inversion Hnf; inversion Hwm; subst. cbn [length] in *.
    assert (HP' : placed (tail os) ms (tail zs)).
    { split; [destruct zs; cbn [length tail] in *; lia|]. intros j w Hj. destruct (HP (S j) w Hj) as [(z & Hz & HS)|[Hl Hu]].
      - left. exists z. by destruct zs.
      - right. split; [done|]. intros u Hj'. apply Hu. by destruct os. }
    assert (Hwo' : Forall wf (tail os)) by (destruct os; [done|by inversion Hwo]).
    assert (Hnext : forall w m1, papply_at (length q0) (TObj m) here = (TObj m1, Ok tt) ->
       m1 = ainsert k (TArr (ys ++ w :: tail zs)) m -> same_content w v ->
       exists ws, papply_at (length q0) (TObj m) (here ++ rest) = (TObj (ainsert k (TArr (ys ++ ws)) m), Ok tt) ∧ Forall2 same_content ws (v :: ms)).
    { intros w m1 E1 -> HS. rewrite papply_at_app, E1.
      destruct (IH (tail os) (tail zs) (ys ++ [w]) (ainsert k (TArr (ys ++ w :: tail zs)) m) rest) as (ws & Ew & HW); [done|done|done| | |done| |].
      - rewrite app_length. cbn [length]. lia.
      - by rewrite alookup_ainsert_eq, <- app_assoc.
      - rewrite app_length. cbn [length]. by rewrite Nat.add_1_r.
      - exists (w :: ws). rewrite Ew, ainsert_ainsert, <- app_assoc. split; [done|by constructor]. }
    assert (Hset : forall kd x ts, kd = OAdd ∨ kd = OReplace -> v = TLeaf x ts ->
       here = [Op kd (idx_path (written (q0 ++ [Key k])) (length ys)) (any_of_prim x) ts] ->
       exists ws, papply_at (length q0) (TObj m) (here ++ rest) = (TObj (ainsert k (TArr (ys ++ ws)) m), Ok tt) ∧ Forall2 same_content ws (v :: ms)).
    { intros kd x ts Hkd -> ->. eapply (Hnext (TLeaf x ts)); [|done|by apply same_refl].
      apply papply_at_elem; [by apply elem_parts|by apply carries_any|done|lia]. }
    assert (Hskip : here = [] -> (exists z, zs !! 0%nat = Some z ∧ same_content z v) ->
       exists ws, papply_at (length q0) (TObj m) (here ++ rest) = (TObj (ainsert k (TArr (ys ++ ws)) m), Ok tt) ∧ Forall2 same_content ws (v :: ms)).
    { intros -> (z & Hz & HS). destruct zs as [|z' zs]; [done|]. injection Hz as ->. eapply (Hnext z m); [done| |done].
      cbn [tail]. by rewrite ainsert_id. }
    destruct os as [|o os].
    + destruct v as [|x ts| |]; try done. injection Eh as <-. apply (Hset OAdd x ts); [by left|done|done].
    + destruct (matches_value o v && matches_timestamp o v) eqn:Em.
      * injection Eh as <-. apply Hskip; [done|]. destruct (HP 0%nat v eq_refl) as [H|[_ H]]; [done|]. exfalso.
        apply andb_true_iff in Em as [M1 M2]. inversion Hwo; subst. apply (H o eq_refl). by apply matches_same.
      * destruct v as [|x ts| |]; injection Eh as <-.
        2:{ apply (Hset OReplace x ts); [by right|done|done]. }
        all: apply Hskip; [done|]; destruct (HP 0%nat _ eq_refl) as [H|[(? & ? & ?) _]]; done.
Qed.
Lemma uneven_content q0 k os ms m ops : Forall named q0 -> named (Key k) -> Forall wf os -> Forall wf ms -> Forall nan_free ms ->
  (if wt then parted os ms else trimmed os ms) -> Z.of_nat (length os) <= int64_max -> Z.of_nat (length ms) <= int64_max ->
  (if wt then compare_array_ts os ms (written (q0 ++ [Key k])) else compare_array os ms (written (q0 ++ [Key k]))) = Ok ops ->
  alookup k m = Some (TArr os) ->
  exists ws, papply_at (length q0) (TObj m) ops = (TObj (ainsert k (TArr ws) m), Ok tt) ∧ Forall2 same_content ws ms.
Proof.
  intros HN0 HNk Hwo Hwm Hnf HT Ho Hm E Hk.
  pose proof (removes_apply q0 k HN0 HNk os [] ms [] m ltac:(cbn [length]; lia) Hk) as HR. cbn [length app] in HR.
  destruct wt.
  - unfold compare_array_ts in E. apply bind_ok in E as (ups & Eu & [= <-]). unfold array_removes, process_array. rewrite papply_at_app, HR.
    destruct (updates_apply q0 k HN0 HNk ms os (matched os ms []) [] (ainsert k (TArr (matched os ms [])) m) ups) as (ws & Ew & HW);
      [done|done|done|cbn [length]; lia|by rewrite alookup_ainsert_eq|by apply parted_run|done|].
    exists ws. by rewrite Ew, ainsert_ainsert.
  - unfold compare_array in E. apply bind_ok in E as (adds & Ea & [= <-]). unfold array_removes, process_array. rewrite papply_at_app, HR.
    destruct (trimmed_run os ms HT Hwo Hwm) as (ks & tl & -> & H1 & H2).
    specialize (H1 [] []). cbn [app] in H1. specialize (H2 [] [] 0%nat). cbn [app Nat.add] in H2.
    assert (HK : Forall2 same_content (matched os (ks ++ tl) []) ks).
    { apply H1. intros j. cbn [length]. split; [by intros ?%elem_of_nil|lia]. }
    unfold process_array in Ea. rewrite H2 in Ea; [|done|intros j _; apply not_elem_of_nil].
    pose proof (Forall2_length _ _ _ HK) as Hl. rewrite <- Hl in Ea. rewrite app_length in Hm.
    apply Forall_app in Hnf as [_ Hnf].
    exists (matched os (ks ++ tl) [] ++ tl). erewrite (adds_apply q0 k HN0 HNk tl (matched os (ks ++ tl) [])); [|done| | |exact Ea].
    + rewrite ainsert_ainsert. split; [done|]. apply Forall2_app; [done|].
      clear -Hnf. induction Hnf; constructor; [by apply same_refl|done].
    + lia.
    + by rewrite alookup_ainsert_eq.
Qed.
Lemma uneven_apply q0 k os ms m ops : Forall named q0 -> named (Key k) -> Forall wf os -> Forall wf ms -> Forall nan_free ms ->
  (if wt then parted os ms else trimmed os ms) -> Z.of_nat (length os) <= int64_max -> Z.of_nat (length ms) <= int64_max ->
  (if wt then compare_array_ts os ms (written (q0 ++ [Key k])) else compare_array os ms (written (q0 ++ [Key k]))) = Ok ops ->
  alookup k m = Some (TArr os) ->
  exists ws, papply_at (length q0) (TObj m) ops = (TObj (ainsert k (TArr ws) m), Ok tt) ∧ Forall2 same_v ws ms.
Proof.
  intros. destruct (uneven_content q0 k os ms m ops) as (ws & Ew & HW); [done..|].
  exists ws. split; [done|]. eapply Forall2_impl; [exact HW|]. intros. by apply same_content_v.
Qed.

Lemma removed_apply q0 mm : Forall named q0 -> forall mo m ops,
  (forall k, k ∈ akeys mo -> named (Key k)) -> diff_removed (written q0) mo mm = Ok ops ->
  exists m1, papply_at (length q0) (TObj m) ops = (TObj m1, Ok tt) ∧
    (forall k, alookup k m1 = if decide (k ∈ akeys mo ∧ alookup k mm = None) then None else alookup k m) ∧
    (NoDup (akeys m) -> NoDup (akeys m1)).
Proof.
  intros HN0. induction mo as [|[k v] mo IH]; intros m ops HN E.
  - injection E as <-. exists m. split; [done|]. split; [|done]. intros k. rewrite decide_False; [done|].
    intros [H _]. by apply elem_of_nil in H.
  - cbn [diff_removed] in E. apply bind_ok in E as (here & Eh & E). apply bind_ok in E as (rest & Er & [= <-]).
    destruct (alookup k mm) as [w|] eqn:Ek.
    + injection Eh as <-. destruct (IH m rest) as (m1 & E1 & H1 & H2); [intros k' H; apply HN; by constructor|done|].
      exists m1. split; [done|]. split; [|done]. intros k'. rewrite H1.
      destruct (decide (k' ∈ akeys mo ∧ alookup k' mm = None)) as [H|H].
      * rewrite decide_True; [done|]. destruct H. split; [by constructor|done].
      * rewrite decide_False; [done|]. intros [[->|H']%elem_of_cons H'']; [cbn [fst] in H''; congruence|]. by apply H.
    + assert (Hh : exists p, here = [p] ∧ op_kind p = ORemove ∧ op_path p = written (q0 ++ [Key k])).
      { destruct v; try done; injection Eh as <-; (eexists; split; [done|]; split; [done|]; by rewrite <- written_key). }
      destruct Hh as (p & -> & Hp1 & Hp2).
      destruct (IH (adelete k m) rest) as (m1 & E1 & H1 & H2); [intros k' H; apply HN; by constructor|done|].
      exists m1. split; [|split].
      * cbn [papply_at app]. rewrite (parts_written p _ Hp2); [|by destruct q0|].
        -- rewrite drop_names. cbn [map step_name]. rewrite ptrav_cons. cbv beta iota.
           change (op_kind (unslash p)) with (op_kind p). rewrite Hp1. done.
        -- apply Forall_app. split; [done|]. constructor; [|done]. apply HN. constructor.
      * intros k'. rewrite H1. destruct (decide (k' = k)) as [->|Hne].
        -- rewrite alookup_adelete_eq. rewrite (decide_True (P := k ∈ akeys ((k, v) :: mo) ∧ _)); [by destruct (decide _)|].
           split; [constructor|done].
        -- rewrite alookup_adelete_ne by done.
           destruct (decide (k' ∈ akeys mo ∧ alookup k' mm = None)) as [H|H].
           ++ rewrite decide_True; [done|]. destruct H. split; [by constructor|done].
           ++ rewrite decide_False; [done|]. intros [[->|H']%elem_of_cons H'']; [done|]. by apply H.
      * intros ND. apply H2. by apply NoDup_adelete.
Qed.

(** *** Names along a path *)
Lemma named_at q : forall t u, well_named t -> at_path t q = Some u -> Forall named q ∧ well_named u.
Proof.
  induction q as [|s q IH]; intros t u Ht E; [injection E as <-; by split|].
  destruct s as [k|i]; destruct t as [| |m|l]; try done; cbn [at_path] in E.
  - inversion Ht as [| |? HF|]; subst. destruct (alookup k m) as [c|] eqn:Ec; [|done]. apply alookup_Some_in in Ec.
    rewrite Forall_forall in HF. destruct (HF _ Ec) as [[H1 H2] H3]. destruct (IH c u H3 E) as [H4 H5].
    split; [|done]. by constructor.
  - inversion Ht as [| | |? HF]; subst. destruct (l !! i) as [c|] eqn:Ec; [|done].
    destruct (IH c u (Forall_lookup_1 _ _ _ _ HF Ec) E) as [H4 H5]. split; [|done]. constructor; [apply named_elem|done].
Qed.
Lemma meets_at a b q x y : meets a b q x y -> at_path a q = Some x.
Proof. induction 1; [done|..]; cbn [at_path]; by match goal with H : _ = Some _ |- _ => rewrite H end. Qed.
Lemma op_named a b q0 p : well_named a -> well_named b -> op_ok a b q0 p -> container b -> 
  exists s q, op_path p = written (q0 ++ s :: q) ∧ Forall named (s :: q).
Proof.
  intros Ha Hb (q & Ep & Hq) Hc.
  assert (HN : Forall named q).
  { destruct Hq as [(_ & _ & [(q1 & k & m & m' & -> & HM & [u Hu] & _)|(q1 & i & l & l' & -> & HM & _ & Hi)])|(x & ts & E & _)].
    - apply meets_at in HM. apply (named_at _ a u Ha). rewrite at_path_app, HM. cbn. by rewrite Hu.
    - apply meets_at in HM. apply lookup_lt_is_Some in Hi as [u Hu]. apply (named_at _ a u Ha). rewrite at_path_app, HM. cbn. by rewrite Hu.
    - by apply (named_at _ b _ Hb E). }
  destruct q as [|s q]; [|by exists s, q]. exfalso.
  destruct Hq as [(_ & _ & [(q1 & k & ? & ? & E1 & _)|(q1 & k & ? & ? & E1 & _)])|(x & ts & E1 & _)]; try (by destruct q1).
  injection E1 as ->. destruct Hc as [[? ?]|[? ?]]; done.
Qed.

Definition applies (b : tson) : Prop := match b with
  | TObj mm => forall mo q0 ops, wf (TObj mm) -> wf (TObj mo) -> nan_free (TObj mm) -> bridged wt (TObj mo) (TObj mm) ->
      well_named (TObj mo) -> well_named (TObj mm) -> Forall named q0 ->
      handle_values wt (TObj mo) (TObj mm) (written q0) = Ok ops ->
      exists t', papply_at (length q0) (TObj mo) ops = (t', Ok tt) ∧ same_v t' (TObj mm)
  | _ => True
  end.
Lemma member_apply mo q0 k v here m : applies v -> wf v -> nan_free v -> well_named v -> Forall named q0 -> named (Key k) ->
  (forall u, alookup k mo = Some u -> wf u ∧ well_named u ∧ bridged wt u v) -> alookup k m = alookup k mo ->
  member_ops wt mo (written q0) k v = Ok here ->
  exists m1 u, papply_at (length q0) (TObj m) here = (TObj m1, Ok tt) ∧ alookup k m1 = Some u ∧ same_v u v ∧ only k m m1.
Proof.
  intros Hv Hw Hnf Hwn HN0 HNk Hev Hm E. unfold member_ops in E. rewrite written_key in E.
  assert (Hset : forall kd x ts, kd = OAdd ∨ kd = OReplace -> v = TLeaf x ts ->
     here = [Op kd (written (q0 ++ [Key k])) (any_of_prim x) ts] ->
     exists m1 u, papply_at (length q0) (TObj m) here = (TObj m1, Ok tt) ∧ alookup k m1 = Some u ∧ same_v u v ∧ only k m m1).
  { intros kd x ts Hkd -> ->. exists (ainsert k (TLeaf x ts) m), (TLeaf x ts). split.
    - apply papply_at_set; [|by apply carries_any].
      rewrite (parts_written _ (q0 ++ [Key k])); [by rewrite drop_names|done|by destruct q0|].
      apply Forall_app. split; [done|]. by constructor.
    - split; [by rewrite alookup_ainsert_eq|]. split; [by apply nan_free_same_v|apply only_insert]. }
  assert (Hemit : forall kd, kd = OAdd ∨ kd = OReplace -> emit_leaf kd (written (q0 ++ [Key k])) v = Ok here ->
     exists m1 u, papply_at (length q0) (TObj m) here = (TObj m1, Ok tt) ∧ alookup k m1 = Some u ∧ same_v u v ∧ only k m m1).
  { intros kd Hkd El. destruct v as [|x ts| |]; try done. injection El as <-. by apply (Hset kd x ts). }
  destruct (alookup k mo) as [u|] eqn:Eu; [|apply (Hemit OAdd); [by left|done]].
  destruct (same_type u v) eqn:Et; [|apply (Hemit OReplace); [by right|done]].
  destruct (Hev u eq_refl) as (Hwu & Hnu & He).
  assert (Hskip : here = [] -> same_v u v ->
     exists m1 u, papply_at (length q0) (TObj m) here = (TObj m1, Ok tt) ∧ alookup k m1 = Some u ∧ same_v u v ∧ only k m m1).
  { intros -> Hs. exists m, u. split; [done|]. split; [done|]. split; [done|apply only_refl]. }
  destruct v as [|x ts|mv|lv].
  - destruct u; try done. injection E as <-. apply Hskip; [done|constructor].
  - destruct u as [|z ts'| |]; try (by destruct x). cbn [handle_values] in E. rewrite Et in E.
    destruct (Diff.prim_eq z x && _) eqn:Ec; injection E as <-.
    + apply Hskip; [done|]. apply andb_true_iff in Ec as [H0%prim_eq_iff Hst%stamps_skip]. by constructor.
    + apply (Hset OReplace x ts); [by right|done|done].
  - destruct u as [|? ?|mu|]; try done.
    destruct (Hv mu (q0 ++ [Key k]) here) as (t' & Et' & Hs); [done|done|done|done|done|done| |done|].
    { apply Forall_app. split; [done|]. by constructor. }
    exists (ainsert k t' m), t'. split.
    + apply (papply_at_member _ k here mu m t').
      * intros p Hp. pose proof (generated_ok _ _ _ _ _ _ Hw Hwu E Hp) as Hok.
        destruct (op_named _ _ _ _ Hnu Hwn Hok) as (s & q & Ep & HNq); [left; by exists mv|].
        rewrite (parts_written p _ Ep); [|by destruct q0|].
        -- rewrite <- app_assoc, drop_names. cbn [app map step_name]. by eexists _, _.
        -- apply Forall_app. split; [|done]. apply Forall_app. split; [done|]. by constructor.
      * done.
      * rewrite app_length in Et'. cbn [length] in Et'. by replace (length q0 + 1)%nat with (S (length q0)) in Et' by lia.
    + split; [by rewrite alookup_ainsert_eq|]. split; [done|apply only_insert].
  - destruct u as [|? ?| |lu]; try done. inversion Hnf as [| | | | |? Hnl]; subst.
    inversion Hw as [| | |? Hwl]; inversion Hwu as [| | |? Hwl']; subst.
    rewrite handle_arr in E. inversion He as [? ? Hc|? ? HC Hmax|? ? Hl HT Hmax Hmax'|]; subst.
    { exfalso. apply Hc. right. by exists lv. }
    + pose proof (Forall2_length _ _ _ HC) as Hl. apply Nat.eqb_eq in Hl as Hl'. rewrite Hl' in E.
      destruct (elems_apply q0 k HN0 HNk lv lu [] here m) as (ys & Ey & HY); [|done|done|done|cbn [length]; lia|done|done|].
      { eapply Forall2_impl; [exact HC|]. intros x y [H|H]; [by left|right]. unfold same_v, stamps. by destruct wt. }
      exists (ainsert k (TArr ([] ++ ys)) m), (TArr ys). split; [done|]. split; [by rewrite alookup_ainsert_eq|].
      split; [by constructor|apply only_insert].
    + apply Nat.eqb_neq in Hl. rewrite Hl in E.
      destruct (uneven_apply q0 k lu lv m here) as (ys & Ey & HY); [done..|].
      exists (ainsert k (TArr ys) m), (TArr ys). split; [done|]. split; [by rewrite alookup_ainsert_eq|].
      split; [by constructor|apply only_insert].
Qed.
Lemma members_apply mo q0 : Forall named q0 -> forall mm m ops,
  NoDup (akeys mm) ->
  (forall k v, (k, v) ∈ mm -> applies v ∧ wf v ∧ nan_free v ∧ well_named v ∧ named (Key k) ∧
     (forall u, alookup k mo = Some u -> wf u ∧ well_named u ∧ bridged wt u v) ∧ alookup k m = alookup k mo) ->
  hv_members wt mo (written q0) mm = Ok ops ->
  exists m1, papply_at (length q0) (TObj m) ops = (TObj m1, Ok tt) ∧
    (forall k v, (k, v) ∈ mm -> exists u, alookup k m1 = Some u ∧ same_v u v) ∧
    (forall k, k ∉ akeys mm -> alookup k m1 = alookup k m) ∧ (NoDup (akeys m) -> NoDup (akeys m1)).
Proof.
  intros HN0. induction mm as [|[k v] mm IH]; intros m ops ND H E.
  - injection E as <-. exists m. split; [done|]. split; [|done]. intros k v Hin. by apply elem_of_nil in Hin.
  - rewrite hv_members_cons in E. apply bind_ok in E as (here & Eh & E). apply bind_ok in E as (rest & Er & [= <-]).
    change (member_ops wt mo (written q0) k v = Ok here) in Eh.
    destruct (H k v) as (H1 & H2 & H3 & H4 & H5 & H6 & H7); [constructor|].
    destruct (member_apply mo q0 k v here m) as (m1 & u & E1 & Hu & Hs & Ho1 & Ho2); [done..|].
    cbn [akeys map] in ND. apply NoDup_cons in ND as [Hk ND]. cbn [fst] in Hk.
    destruct (IH m1 rest ND) as (m2 & E2 & G1 & G2 & G3).
    + intros k' v' Hin. destruct (H k' v') as (? & ? & ? & ? & ? & ? & Hm); [by constructor|].
      repeat (split; [done|]). rewrite Ho1; [done|]. intros ->. apply Hk. apply elem_of_list_fmap. by exists (k, v').
    + done.
    + exists m2. rewrite papply_at_app, E1. split; [done|]. split; [|split].
      * intros k' v' [[= -> ->]|Hin]%elem_of_cons; [|by apply G1]. exists u. split; [|done]. by rewrite G2.
      * intros k' Hk'. cbn [akeys map fst] in Hk'. apply not_elem_of_cons in Hk' as [Hne Hk'].
        rewrite G2 by done. by apply Ho1.
      * auto.
Qed.
Lemma bridged_applies b : applies b.
Proof.
  induction b as [| |mm IH|] using tson_ind'; try done.
  intros mo q0 ops Hb Ha Hnf He Hna Hnb HN0 E. rewrite handle_obj in E.
  apply bind_ok in E as (ch & Ec & E). apply bind_ok in E as (rm & Er & [= <-]).
  inversion Ha as [| |? ND HF|]; subst. inversion Hb as [| |? ND' HF'|]; subst.
  inversion Hna as [| |? HNa|]; subst. inversion Hnb as [| |? HNb|]; subst. inversion Hnf as [| | | |? Hnf'|]; subst.
  assert (He' : forall k u v, alookup k mo = Some u -> alookup k mm = Some v -> bridged wt u v).
  { inversion He as [? ? Hc| | |? ? He']; subst; [|done]. exfalso. apply Hc. left. by exists mm. }
  rewrite Forall_forall in IH, HF, HF', HNa, HNb, Hnf'.
  destruct (members_apply mo q0 HN0 mm mo ch ND') as (m1 & E1 & H1 & H2 & H3).
  { intros k v Hin. destruct (HNb _ Hin) as [[N1 N2] N3]. split; [by apply (IH (k, v))|]. split; [by apply (HF' (k, v))|].
    split; [by apply (Hnf' (k, v))|]. split; [done|]. split; [by split|]. split; [|done].
    intros u Eu. pose proof (alookup_Some_in _ _ _ Eu) as Hu. split; [by apply (HF (k, u))|]. split; [by apply (HNa (k, u))|].
    apply (He' k); [done|]. by apply alookup_in. }
  { done. }
  destruct (removed_apply q0 mm HN0 mo m1 rm) as (m2 & E2 & G1 & G2); [|done|].
  { intros k [[k' u] [-> Hin]]%elem_of_list_fmap. destruct (HNa _ Hin) as [[N1 N2] _]. by split. }
  exists (TObj m2). rewrite papply_at_app, E1. split; [done|]. apply agree_members; [auto|done| |].
  - intros k v Ev. pose proof (alookup_Some_in _ _ _ Ev) as Hin. destruct (H1 _ _ Hin) as (u & Eu & Hs).
    exists u. split; [|done]. rewrite G1, decide_False; [done|]. intros [_ Hn]. congruence.
  - intros k [u Hu]. rewrite G1 in Hu. destruct (decide _) as [|Hd]; [done|].
    destruct (alookup k mm) as [v|] eqn:Ev; [done|]. exfalso.
    rewrite H2 in Hu by (by apply alookup_None_iff). apply Hd. split; [|done].
    apply alookup_Some_in in Hu. apply elem_of_list_fmap. by exists (k, u).
Qed.
Lemma relative_applied m m' ops h l : wf (TObj m) -> wf (TObj m') -> nan_free (TObj m') -> bridged wt (TObj m) (TObj m') ->
  well_named (TObj m) -> well_named (TObj m') ->
  handle_values wt (TObj m) (TObj m') "" = Ok ops -> ops <> [] -> doc_of h (VObj l) (TObj m) ->
  exists h' t', apply_patch h (VObj l) (map unslash ops) = (h', Ok (VObj l)) ∧ doc_of h' (VObj l) t' ∧ same_v t' (TObj m').
Proof.
  intros Ha Hb Hnf He Hna Hnb E Hne HD.
  destruct (bridged_applies (TObj m') m [] ops Hb Ha Hnf He Hna Hnb ltac:(done) E) as (t' & Et & Hs).
  cbn [length] in Et. rewrite papply_at_root in Et.
  destruct (apply_patch h (VObj l) (map unslash ops)) as [h' r] eqn:Ea.
  pose proof (apply_patch_doc _ _ _ _ _ _ HD Ea) as HX. rewrite Et in HX. destruct r as [v| |]; try done.
  destruct HX as [HD' ->]. rewrite decide_False by (by destruct ops). exists h', t'. done.
Qed.
End bridged.
Lemma apply_relative m m' ops h l : wf (TObj m) -> wf (TObj m') -> nan_free (TObj m') -> bridged false (TObj m) (TObj m') ->
  well_named (TObj m) -> well_named (TObj m') ->
  generate_patch (TObj m) (TObj m') = Ok ops -> ops <> [] -> doc_of h (VObj l) (TObj m) ->
  exists h' t', apply_patch h (VObj l) (map unslash ops) = (h', Ok (VObj l)) ∧ doc_of h' (VObj l) t' ∧ same_values t' (TObj m').
Proof. exact (relative_applied false m m' ops h l). Qed.
Lemma apply_relative_ts m m' ops h l : wf (TObj m) -> wf (TObj m') -> nan_free (TObj m') -> bridged true (TObj m) (TObj m') ->
  well_named (TObj m) -> well_named (TObj m') ->
  generate_patch_with_timestamp (TObj m) (TObj m') = Ok ops -> ops <> [] -> doc_of h (VObj l) (TObj m) ->
  exists h' t', apply_patch h (VObj l) (map unslash ops) = (h', Ok (VObj l)) ∧ doc_of h' (VObj l) t' ∧ same_content t' (TObj m').
Proof. exact (relative_applied true m m' ops h l). Qed.
