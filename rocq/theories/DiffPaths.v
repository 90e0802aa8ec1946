(** Proofs about the paths and contents of generated operations. *)
From Verif Require Import Base BaseSpec BaseSpecLemmas F64 Tson TsonInd BaseLemmas F64Lemmas TsonSpec TextSpec ConvLemmas Heap Patch PatchSpec Diff DiffSpec DiffLemmas ArrayDiff.
From Coq Require Import Lia.

(** ** Path texts *)
Lemma ends_with_app c s a t : ends_with c (s +++ String a t) = ends_with c (String a t).
Proof.
  induction s as [|b s IH]; [done|]. change (String b s +++ String a t) with (String b (s +++ String a t)).
  rewrite <- IH. cbn [ends_with]. by destruct s.
Qed.
Lemma encode_ne k : k <> "" -> escaped k <> "".
Proof. destruct k as [|a k]; [done|]. intros _. cbn [escaped]. by repeat case_decide. Qed.
Lemma encode_end k : ends_with slash (escaped k) = false.
Proof.
  induction k as [|a k IH]; [done|]. cbn [escaped].
  assert (Hgo : forall b t, b <> slash -> ends_with slash t = false -> ends_with slash (String b t) = false).
  { intros b t Hb Ht. cbn [ends_with]. destruct t; [by apply bool_decide_eq_false|done]. }
  case_decide as H1; [|case_decide as H2]; repeat apply Hgo; done.
Qed.
Lemma pointer_app ks ks' : pointer (ks ++ ks') = pointer ks +++ pointer ks'.
Proof.
  induction ks as [|k ks IH]; [done|]. cbn [app pointer]. rewrite IH. by rewrite !sapp_assoc.
Qed.
Lemma pointer_end ks k : k <> "" -> ends_with slash (pointer (ks ++ [k])) = false ∧ pointer (ks ++ [k]) <> "".
Proof.
  intros Hk. rewrite pointer_app. cbn [pointer]. rewrite sapp_nil_r.
  assert (E : exists a s, escaped k = String a s).
  { apply encode_ne in Hk. destruct (escaped k) as [|a s]; [done|]. by exists a, s. }
  destruct E as (a & s & E). split.
  - change ("/" +++ escaped k) with (String slash (escaped k)). rewrite ends_with_app.
    rewrite E. cbn [ends_with]. pose proof (encode_end k) as H. rewrite E in H. done.
  - by destruct (pointer ks).
Qed.
Definition nonempty (ns : list string) : list string := filter (fun k => k <> "") ns.
Lemma nonempty_app a b : nonempty (a ++ b) = nonempty a ++ nonempty b.
Proof. apply filter_app. Qed.
Lemma nonempty_empty : nonempty [""] = [].
Proof. done. Qed.
Lemma nonempty_one k : k <> "" -> nonempty [k] = [k].
Proof. intros H. unfold nonempty. by rewrite (filter_cons_True _ k []). Qed.
Definition text (ns : list string) : string :=
  pointer (nonempty ns) +++ (if decide (last ns = Some "") then "/" else "").
Lemma text_snoc_empty ns : text (ns ++ [""]) = pointer (nonempty ns) +++ "/".
Proof. unfold text. by rewrite last_snoc, decide_True, nonempty_app, nonempty_empty, app_nil_r. Qed.
Lemma text_snoc_key ns k : k <> "" -> text (ns ++ [k]) = pointer (nonempty ns) +++ String slash (escaped k).
Proof.
  intros H. unfold text. rewrite last_snoc, decide_False, nonempty_app, nonempty_one, pointer_app, sapp_nil_r by congruence.
  cbn [pointer]. by rewrite sapp_nil_r.
Qed.
Lemma text_snoc ns k : make_path (text ns) k = text (ns ++ [k]).
Proof.
  destruct ns as [|n0 ns _] using rev_ind.
  - change (text []) with "". unfold make_path. rewrite ?encode_escaped. rewrite decide_True by done.
    destruct (decide (k = "")) as [->|Hk]; [done|]. by rewrite text_snoc_key.
  - destruct (decide (n0 = "")) as [->|Hn].
    + rewrite text_snoc_empty. set (P := pointer (nonempty ns)).
      assert (E : P = pointer (nonempty (ns ++ [""]))) by (by rewrite nonempty_app, nonempty_empty, app_nil_r).
      unfold make_path. rewrite ?encode_escaped. rewrite decide_False by (by destruct P). rewrite ends_with_app. cbn [ends_with].
      rewrite bool_decide_eq_true_2 by done.
      destruct (decide (k = "")) as [->|Hk].
      * rewrite text_snoc_empty, <- E. cbn [escaped]. by rewrite sapp_nil_r.
      * rewrite text_snoc_key, <- E by done. by rewrite sapp_assoc.
    + assert (E : text (ns ++ [n0]) = pointer (nonempty ns ++ [n0])).
      { rewrite text_snoc_key by done. rewrite pointer_app. cbn [pointer]. by rewrite sapp_nil_r. }
      destruct (pointer_end (nonempty ns) n0 Hn) as [H1 H2]. rewrite E.
      unfold make_path. rewrite ?encode_escaped. rewrite decide_False by done. rewrite H1.
      assert (E' : pointer (nonempty ns ++ [n0]) = pointer (nonempty (ns ++ [n0]))).
      { rewrite nonempty_app. by rewrite (nonempty_one n0). }
      destruct (decide (k = "")) as [->|Hk].
      * by rewrite text_snoc_empty, <- E'.
      * by rewrite text_snoc_key, <- E'.
Qed.
Lemma written_key q k : make_path (written q) k = written (q ++ [Key k]).
Proof. unfold written. rewrite map_app. apply text_snoc. Qed.
Lemma written_elem q i : idx_path (written q) i = written (q ++ [Elem i]).
Proof. unfold written, idx_path. rewrite map_app, dec_text_pretty. apply text_snoc. Qed.
Lemma written_nil : written [] = "".
Proof. done. Qed.
Lemma written_plain q : Forall (fun s => step_name s <> "") q -> written q = pointer (map step_name q).
Proof.
  intros HF. unfold written. rewrite decide_False.
  - rewrite sapp_nil_r. f_equal. induction HF as [|s q Hs HF IH]; [done|]. cbn [map]. rewrite filter_cons_True by done. by rewrite IH.
  - intros E. apply last_Some in E as [l E].
    assert (Hin : "" ∈ map step_name q) by (rewrite E; apply elem_of_app; right; by left).
    apply elem_of_list_fmap in Hin as (s & Es & Hin). rewrite Forall_forall in HF. by apply (HF s).
Qed.

(** ** The parts of a generated patch *)
Definition member_ops (wt : bool) (mo : list (string * tson)) (path k : string) (v : tson) : res (list operation) :=
  match alookup k mo with
  | None => emit_leaf OAdd (make_path path k) v
  | Some ov => if same_type ov v then handle_values wt ov v (make_path path k) else emit_leaf OReplace (make_path path k) v
  end.
Lemma block_refl {A} (l : list A) : block l l.
Proof. exists [], []. by rewrite app_nil_r. Qed.
Lemma block_trans {A} (a b c : list A) : block a b -> block b c -> block a c.
Proof. intros (l1 & l2 & ->) (r1 & r2 & ->). exists (r1 ++ l1), (l2 ++ r2). by rewrite <- !app_assoc. Qed.
Lemma block_left {A} (a b r : list A) : block a b -> block a (b ++ r).
Proof. intros H. apply (block_trans a b); [done|]. by exists [], r. Qed.
Lemma block_right {A} (a b l : list A) : block a b -> block a (l ++ b).
Proof. intros H. apply (block_trans a b); [done|]. exists l, []. by rewrite app_nil_r. Qed.
Lemma block_in {A} (a b : list A) x : block a b -> x ∈ a -> x ∈ b.
Proof. intros (l & r & ->) H. apply elem_of_app. right. apply elem_of_app. by left. Qed.

Lemma hv_members_block wt mo path mm ops k v : hv_members wt mo path mm = Ok ops -> (k, v) ∈ mm ->
  exists here, member_ops wt mo path k v = Ok here ∧ block here ops.
Proof.
  revert ops. induction mm as [|[k' v'] mm IH]; intros ops E Hin; [by apply elem_of_nil in Hin|].
  rewrite hv_members_cons in E. apply bind_ok in E as (here & Eh & E). apply bind_ok in E as (rest & Er & [= <-]).
  apply elem_of_cons in Hin as [[= -> ->]|Hin].
  - exists here. split; [done|]. apply block_left, block_refl.
  - destruct (IH _ Er Hin) as (h2 & E2 & B). exists h2. split; [done|]. by apply block_right.
Qed.
Lemma hv_members_in wt mo path mm ops p : hv_members wt mo path mm = Ok ops -> p ∈ ops ->
  exists k v here, (k, v) ∈ mm ∧ member_ops wt mo path k v = Ok here ∧ p ∈ here.
Proof.
  revert ops. induction mm as [|[k' v'] mm IH]; intros ops E Hin.
  - injection E as <-. by apply elem_of_nil in Hin.
  - rewrite hv_members_cons in E. apply bind_ok in E as (here & Eh & E). apply bind_ok in E as (rest & Er & [= <-]).
    apply elem_of_app in Hin as [Hin|Hin].
    + exists k', v', here. split; [constructor|]. done.
    + destruct (IH _ Er Hin) as (k & v & h2 & H1 & H2 & H3). exists k, v, h2. split; [by constructor|done].
Qed.
Lemma hv_elems_block wt path i lo lm ops n u v : hv_elems wt path i lo lm = Ok ops -> lo !! n = Some u -> lm !! n = Some v ->
  exists here, handle_values wt u v (idx_path path (i + n)) = Ok here ∧ block here ops.
Proof.
  revert i lo ops n. induction lm as [|m lm IH]; intros i [|o lo] ops n E Hu Hv; try done.
  rewrite hv_elems_cons in E. apply bind_ok in E as (here & Eh & E). apply bind_ok in E as (rest & Er & [= <-]).
  destruct n as [|n].
  - injection Hu as <-. injection Hv as <-. rewrite Nat.add_0_r. exists here. split; [done|]. apply block_left, block_refl.
  - destruct (IH _ _ _ n Er Hu Hv) as (h2 & E2 & B). exists h2. replace (i + S n)%nat with (S i + n)%nat by lia.
    split; [done|]. by apply block_right.
Qed.
Lemma hv_elems_in wt path i lo lm ops p : hv_elems wt path i lo lm = Ok ops -> p ∈ ops ->
  exists n u v here, lo !! n = Some u ∧ lm !! n = Some v ∧ handle_values wt u v (idx_path path (i + n)) = Ok here ∧ p ∈ here.
Proof.
  revert i lo ops. induction lm as [|m lm IH]; intros i lo ops E Hin.
  - destruct lo; injection E as <-; by apply elem_of_nil in Hin.
  - destruct lo as [|o lo]; [injection E as <-; by apply elem_of_nil in Hin|].
    rewrite hv_elems_cons in E. apply bind_ok in E as (here & Eh & E). apply bind_ok in E as (rest & Er & [= <-]).
    apply elem_of_app in Hin as [Hin|Hin].
    + exists 0%nat, o, m, here. rewrite Nat.add_0_r. done.
    + destruct (IH _ _ _ Er Hin) as (n & u & v & h2 & H1 & H2 & H3 & H4). exists (S n), u, v, h2.
      replace (i + S n)%nat with (S i + n)%nat by lia. done.
Qed.
Lemma diff_removed_in path mo mm ops p : diff_removed path mo mm = Ok ops -> p ∈ ops ->
  exists k v, (k, v) ∈ mo ∧ alookup k mm = None ∧ op_kind p = ORemove ∧ op_path p = make_path path k ∧ op_value p = ANil.
Proof.
  revert ops. induction mo as [|[k v] mo IH]; intros ops E Hin.
  - injection E as <-. by apply elem_of_nil in Hin.
  - cbn [diff_removed] in E. apply bind_ok in E as (here & Eh & E). apply bind_ok in E as (rest & Er & [= <-]).
    apply elem_of_app in Hin as [Hin|Hin].
    + exists k, v. split; [constructor|]. destruct (alookup k mm); [injection Eh as <-; by apply elem_of_nil in Hin|].
      split; [done|]. destruct v; try done; injection Eh as <-; apply elem_of_list_singleton in Hin as ->; done.
    + destruct (IH _ Er Hin) as (k' & v' & H & H'). exists k', v'. split; [by constructor|done].
Qed.
Lemma diff_removed_all path mo mm ops k v : diff_removed path mo mm = Ok ops -> (k, v) ∈ mo -> alookup k mm = None ->
  exists p, p ∈ ops ∧ op_kind p = ORemove ∧ op_path p = make_path path k ∧ op_value p = ANil.
Proof.
  revert ops. induction mo as [|[k' v'] mo IH]; intros ops E Hin Hn; [by apply elem_of_nil in Hin|].
  cbn [diff_removed] in E. apply bind_ok in E as (here & Eh & E). apply bind_ok in E as (rest & Er & [= <-]).
  apply elem_of_cons in Hin as [[= -> ->]|Hin].
  - rewrite Hn in Eh. destruct v'; try done; injection Eh as <-; (eexists; split; [apply elem_of_app; left; by left|done]).
  - destruct (IH _ Er Hin Hn) as (p & Hp & H). exists p. split; [|done]. apply elem_of_app. by right.
Qed.

Lemma meets_type a b q x y : meets a b q x y -> same_type x y = true -> same_type a b = true.
Proof. by destruct 1. Qed.
(** What is generated for a pair of nodes is a block of what is generated for the
    documents. *)
Lemma generated_block wt q : forall a b x y q0 ops, meets a b q x y -> same_type x y = true ->
  handle_values wt a b (written q0) = Ok ops ->
  exists sub, handle_values wt x y (written (q0 ++ q)) = Ok sub ∧ block sub ops.
Proof.
  induction q as [|s q IH]; intros a b x y q0 ops HM Ht E.
  - inversion HM; subst. rewrite app_nil_r. exists ops. split; [done|apply block_refl].
  - inversion HM as [|m m' k u v ? ? ? Hu Hv Hm|l l' i u v ? ? ? Hl Hu Hv Hm]; subst.
    + rewrite handle_obj in E. apply bind_ok in E as (ch & Ec & E). apply bind_ok in E as (rm & Er & [= <-]).
      apply alookup_Some_in in Hv. destruct (hv_members_block _ _ _ _ _ _ _ Ec Hv) as (here & Eh & B).
      unfold member_ops in Eh. rewrite Hu, (meets_type _ _ _ _ _ Hm Ht), written_key in Eh.
      destruct (IH _ _ _ _ _ _ Hm Ht Eh) as (sub & Es & B'). rewrite <- app_assoc in Es. exists sub. split; [done|].
      by apply block_left, (block_trans _ here).
    + rewrite handle_arr in E. apply Nat.eqb_eq in Hl. rewrite Hl in E.
      destruct (hv_elems_block _ _ _ _ _ _ i u v E Hu Hv) as (here & Eh & B). cbn [Nat.add] in Eh. rewrite written_elem in Eh.
      destruct (IH _ _ _ _ _ _ Hm Ht Eh) as (sub & Es & B'). rewrite <- app_assoc in Es. exists sub. split; [done|].
      by apply (block_trans _ here).
Qed.

(** ** Contents *)
Definition op_ok (a b : tson) (q0 : list step) (p : operation) : Prop :=
  exists q, op_path p = written (q0 ++ q) ∧
   ((op_kind p = ORemove ∧ op_value p = ANil ∧ gone a b q) ∨
    (exists x ts, at_path b q = Some (TLeaf x ts) ∧ carries p x ts)).
Lemma payload_any x : payload (any_of_prim x) x.
Proof. destruct x; constructor. Qed.
Lemma emit_leaf_in k path v ops p : emit_leaf k path v = Ok ops -> p ∈ ops ->
  exists x ts, v = TLeaf x ts ∧ p = Op k path (any_of_prim x) ts.
Proof.
  destruct v as [|x ts| |]; try done. intros [= <-] Hin. apply elem_of_list_singleton in Hin as ->. by exists x, ts.
Qed.
Lemma op_ok_leaf a b k q0 x ts : k = OAdd ∨ k = OReplace -> b = TLeaf x ts -> op_ok a b q0 (Op k (written q0) (any_of_prim x) ts).
Proof.
  intros Hk ->. exists []. rewrite app_nil_r. split; [done|]. right. exists x, ts. split; [done|].
  split; [done|]. split; [apply payload_any|done].
Qed.
Lemma op_ok_member m m' k u v q0 p : alookup k m = Some u -> alookup k m' = Some v ->
  op_ok u v (q0 ++ [Key k]) p -> op_ok (TObj m) (TObj m') q0 p.
Proof.
  intros Hu Hv (q & Ep & H). exists (Key k :: q). split; [by rewrite Ep, <- app_assoc|].
  destruct H as [(H1 & H2 & H3)|(x & ts & H1 & H2)].
  - left. split; [done|]. split; [done|].
    destruct H3 as [(q1 & k' & m1 & m1' & -> & HM & H3)|(q1 & i & l & l' & -> & HM & H3)].
    + left. exists (Key k :: q1), k', m1, m1'. split; [done|]. split; [|done]. by apply (ms_member _ _ _ u v).
    + right. exists (Key k :: q1), i, l, l'. split; [done|]. split; [|done]. by apply (ms_member _ _ _ u v).
  - right. exists x, ts. split; [|done]. cbn [at_path]. by rewrite Hv.
Qed.
Lemma op_ok_elem l l' i u v q0 p : length l = length l' -> l !! i = Some u -> l' !! i = Some v ->
  op_ok u v (q0 ++ [Elem i]) p -> op_ok (TArr l) (TArr l') q0 p.
Proof.
  intros Hl Hu Hv (q & Ep & H). exists (Elem i :: q). split; [by rewrite Ep, <- app_assoc|].
  destruct H as [(H1 & H2 & H3)|(x & ts & H1 & H2)].
  - left. split; [done|]. split; [done|].
    destruct H3 as [(q1 & k' & m1 & m1' & -> & HM & H3)|(q1 & i' & l1 & l1' & -> & HM & H3)].
    + left. exists (Elem i :: q1), k', m1, m1'. split; [done|]. split; [|done]. by apply (ms_elem _ _ _ u v).
    + right. exists (Elem i :: q1), i', l1, l1'. split; [done|]. split; [|done]. by apply (ms_elem _ _ _ u v).
  - right. exists x, ts. split; [|done]. cbn [at_path]. by rewrite Hv.
Qed.
Lemma unmatched_in os ms : forall i used x t, (x, t) ∈ unmatched os i ms used ->
  exists n, x = (i + n)%nat ∧ os !! n = Some t.
Proof.
  induction os as [|o os IH]; intros i used x t Hin; [by apply elem_of_nil in Hin|]. cbn [unmatched] in Hin.
  destruct (find_match o ms used 0) as [j|].
  - apply IH in Hin as (n & -> & Hn). exists (S n). split; [lia|done].
  - apply elem_of_cons in Hin as [[= -> ->]|Hin]; [exists 0%nat; split; [lia|done]|].
    apply IH in Hin as (n & -> & Hn). exists (S n). split; [lia|done].
Qed.
Lemma process_in os ms x t : (x, t) ∈ process_array os ms -> os !! x = Some t.
Proof. intros H. apply unmatched_in in H as (n & -> & Hn). done. Qed.
Lemma array_removes_ok lo lm q0 p : length lo <> length lm -> p ∈ array_removes lo lm (written q0) ->
  op_ok (TArr lo) (TArr lm) q0 p.
Proof.
  intros Hl Hin. unfold array_removes in Hin. apply elem_of_list_In, in_rev, elem_of_list_In in Hin.
  apply elem_of_list_fmap in Hin as ([i t] & -> & Hin). apply process_in, lookup_lt_Some in Hin. cbn [fst].
  exists [Elem i]. rewrite written_elem. split; [done|]. left. split; [done|]. split; [done|].
  right. exists [], i, lo, lm. split; [done|]. split; [constructor|done].
Qed.
Lemma array_adds_in path l ops p : array_adds path l = Ok ops -> p ∈ ops ->
  exists i x ts, (i, TLeaf x ts) ∈ l ∧ p = Op OAdd (idx_path path i) (any_of_prim x) ts.
Proof.
  revert ops. induction l as [|[i t] l IH]; intros ops E Hin.
  - injection E as <-. by apply elem_of_nil in Hin.
  - cbn [array_adds] in E. destruct t as [|x ts| |]; try done. apply bind_ok in E as (r & Er & [= <-]).
    apply elem_of_cons in Hin as [->|Hin]; [exists i, x, ts; split; [constructor|done]|].
    destruct (IH _ Er Hin) as (i' & x' & ts' & H & H'). exists i', x', ts'. split; [by constructor|done].
Qed.
Lemma elem_leaf_ok lo lm q0 k i x ts : k = OAdd ∨ k = OReplace -> lm !! i = Some (TLeaf x ts) ->
  op_ok (TArr lo) (TArr lm) q0 (Op k (idx_path (written q0) i) (any_of_prim x) ts).
Proof.
  intros Hk Hi. exists [Elem i]. rewrite written_elem. split; [done|]. right. exists x, ts.
  split; [cbn [at_path]; by rewrite Hi|]. split; [done|]. split; [apply payload_any|done].
Qed.
Lemma array_updates_in path ms : forall os i ops p, array_updates path os ms i = Ok ops -> p ∈ ops ->
  exists n k x ts, (k = OAdd ∨ k = OReplace) ∧ ms !! n = Some (TLeaf x ts) ∧ p = Op k (idx_path path (i + n)) (any_of_prim x) ts.
Proof.
  induction ms as [|m ms IH]; intros os i ops p E Hin.
  - injection E as <-. by apply elem_of_nil in Hin.
  - cbn [array_updates] in E. apply bind_ok in E as (here & Eh & E). apply bind_ok in E as (rest & Er & [= <-]).
    apply elem_of_app in Hin as [Hin|Hin].
    + exists 0%nat. rewrite Nat.add_0_r. destruct os as [|o os].
      * destruct m as [|x ts| |]; try done. injection Eh as <-. apply elem_of_list_singleton in Hin as ->.
        exists OAdd, x, ts. split; [by left|done].
      * destruct (matches_value o m && matches_timestamp o m); [injection Eh as <-; by apply elem_of_nil in Hin|].
        destruct m as [|x ts| |]; injection Eh as <-; try (by apply elem_of_nil in Hin).
        apply elem_of_list_singleton in Hin as ->. exists OReplace, x, ts. split; [by right|done].
    + destruct (IH _ _ _ _ Er Hin) as (n & k & x & ts & H1 & H2 & H3). exists (S n), k, x, ts.
      replace (i + S n)%nat with (S i + n)%nat by lia. done.
Qed.

Lemma generated_ok wt b : forall a q0 ops p, wf b -> wf a ->
  handle_values wt a b (written q0) = Ok ops -> p ∈ ops -> op_ok a b q0 p.
Proof.
  induction b as [|y ts|m' IH|l' IH] using tson_ind'; intros a q0 ops p Hb Ha E Hin.
  - destruct a; try done. injection E as <-. by apply elem_of_nil in Hin.
  - destruct a as [|z ts'| |l]; try done; cbn [handle_values] in E.
    + injection E as <-. apply elem_of_list_singleton in Hin as ->. apply op_ok_leaf; [by left|done].
    + destruct (same_type _ _); [|done]. destruct (_ && _); injection E as <-; [by apply elem_of_nil in Hin|].
      apply elem_of_list_singleton in Hin as ->. apply op_ok_leaf; [by right|done].
    + injection E as <-. apply elem_of_list_singleton in Hin as ->. apply op_ok_leaf; [by right|done].
  - destruct a as [| |m|]; try done. rewrite handle_obj in E.
    apply bind_ok in E as (ch & Ec & E). apply bind_ok in E as (rm & Er & [= <-]).
    inversion Ha as [| |? ND HF|]; subst. inversion Hb as [| |? ND' HF'|]; subst.
    rewrite Forall_forall in IH, HF, HF'. apply elem_of_app in Hin as [Hin|Hin].
    + destruct (hv_members_in _ _ _ _ _ _ Ec Hin) as (k & v & here & Hk & Eh & Hp).
      pose proof (alookup_in _ _ _ ND' Hk) as Ev. unfold member_ops in Eh. rewrite written_key in Eh.
      assert (Hleaf : forall kd, kd = OAdd ∨ kd = OReplace -> emit_leaf kd (written (q0 ++ [Key k])) v = Ok here ->
        op_ok (TObj m) (TObj m') q0 p).
      { intros kd Hkd El. destruct (emit_leaf_in _ _ _ _ _ El Hp) as (x & ts & -> & ->).
        exists [Key k]. split; [done|]. right. exists x, ts. split; [cbn [at_path]; by rewrite Ev|].
        split; [done|]. split; [apply payload_any|done]. }
      destruct (alookup k m) as [u|] eqn:Eu; [|apply (Hleaf OAdd); [by left|done]].
      destruct (same_type u v); [|apply (Hleaf OReplace); [by right|done]].
      apply (op_ok_member _ _ k u v); [done..|]. apply alookup_Some_in in Eu.
      apply (IH (k, v) Hk u _ here); [by apply (HF' (k, v))|by apply (HF (k, u))|done|done].
    + destruct (diff_removed_in _ _ _ _ _ Er Hin) as (k & v & Hk & Hn & H1 & H2 & H3). rewrite written_key in H2.
      exists [Key k]. split; [done|]. left. split; [done|]. split; [done|].
      left. exists [], k, m, m'. split; [done|]. split; [constructor|]. split; [|done].
      apply (alookup_in _ _ _ ND) in Hk. by rewrite Hk.
  - destruct a as [| | |l]; try done. rewrite handle_arr in E.
    inversion Ha as [| | |? HF]; subst. inversion Hb as [| | |? HF']; subst. rewrite Forall_forall in IH, HF, HF'.
    destruct (Nat.eqb_spec (length l) (length l')) as [Hl|Hl].
    + destruct (hv_elems_in _ _ _ _ _ _ _ E Hin) as (n & u & v & here & Hu & Hv & Eh & Hp). cbn [Nat.add] in Eh.
      rewrite written_elem in Eh. apply (op_ok_elem _ _ n u v); [done..|].
      apply elem_of_list_lookup_2 in Hu. apply elem_of_list_lookup_2 in Hv.
      apply (IH v Hv u _ here); [by apply HF'|by apply HF|done|done].
    + destruct wt.
      * unfold compare_array_ts in E. apply bind_ok in E as (ups & Eu & [= <-]).
        apply elem_of_app in Hin as [Hin|Hin]; [by apply array_removes_ok in Hin|].
        destruct (array_updates_in _ _ _ _ _ _ Eu Hin) as (n & k & x & ts & Hk & Hn & ->). cbn [Nat.add].
        by apply elem_leaf_ok.
      * unfold compare_array in E. apply bind_ok in E as (adds & Eu & [= <-]).
        apply elem_of_app in Hin as [Hin|Hin]; [by apply array_removes_ok in Hin|].
        destruct (array_adds_in _ _ _ _ Eu Hin) as (n & x & ts & Hn & ->). apply process_in in Hn.
        apply elem_leaf_ok; [by left|done].
Qed.

(** ** Every changed leaf is written *)
Lemma unmatched_or os ms : forall i used n t, os !! n = Some t ->
  ((i + n)%nat, t) ∈ unmatched os i ms used ∨ exists u, u ∈ ms ∧ tson_deep_eq t u = true.
Proof.
  induction os as [|o os IH]; intros i used n t Hn; [done|]. cbn [unmatched].
  destruct (find_match o ms used 0) as [j|] eqn:Ef.
  - destruct n as [|n].
    + right. injection Hn as <-. apply find_match_some in Ef as (n & y & _ & Hy & He & _). exists y. split; [|done].
      by apply elem_of_list_lookup_2 in Hy.
    + destruct (IH (S i) (j :: used) n t Hn) as [H|H]; [left|by right]. by replace (i + S n)%nat with (S i + n)%nat by lia.
  - destruct n as [|n].
    + left. injection Hn as <-. rewrite Nat.add_0_r. constructor.
    + destruct (IH (S i) used n t Hn) as [H|H]; [left|by right]. replace (i + S n)%nat with (S i + n)%nat by lia. by constructor.
Qed.
Lemma array_adds_all path l ops i x ts : array_adds path l = Ok ops -> (i, TLeaf x ts) ∈ l ->
  Op OAdd (idx_path path i) (any_of_prim x) ts ∈ ops.
Proof.
  revert ops. induction l as [|[i' t] l IH]; intros ops E Hin; [by apply elem_of_nil in Hin|].
  cbn [array_adds] in E. destruct t as [|x' ts'| |]; try done. apply bind_ok in E as (r & Er & [= <-]).
  apply elem_of_cons in Hin as [[= -> -> ->]|Hin]; [constructor|]. constructor. by apply IH.
Qed.
Lemma array_adds_leaf path l ops i t : array_adds path l = Ok ops -> (i, t) ∈ l -> exists x ts, t = TLeaf x ts.
Proof.
  revert ops. induction l as [|[i' t'] l IH]; intros ops E Hin; [by apply elem_of_nil in Hin|].
  cbn [array_adds] in E. destruct t' as [|x' ts'| |]; try done. apply bind_ok in E as (r & Er & [= <-]).
  apply elem_of_cons in Hin as [[= -> ->]|Hin]; [by eexists _, _|]. by apply (IH r).
Qed.
Lemma at_leaf x ts q y ts' : at_path (TLeaf x ts) q = Some (TLeaf y ts') -> q = [] ∧ y = x ∧ ts' = ts.
Proof. destruct q as [|[k|i] q]; [|done..]. by intros [= <- <-]. Qed.
Lemma covered_here kd q0 q x ts y ts' (ops : list operation) : kd = OAdd ∨ kd = OReplace -> at_path (TLeaf x ts) q = Some (TLeaf y ts') ->
  Op kd (written q0) (any_of_prim x) ts ∈ ops -> exists p, p ∈ ops ∧ op_path p = written (q0 ++ q) ∧ carries p y ts'.
Proof.
  intros Hk (-> & -> & ->)%at_leaf Hin. eexists. split; [exact Hin|]. rewrite app_nil_r. split; [done|].
  split; [done|]. split; [apply payload_any|done].
Qed.
Lemma covered_emit kd q0 v q y ts' ops : kd = OAdd ∨ kd = OReplace -> emit_leaf kd (written q0) v = Ok ops ->
  at_path v q = Some (TLeaf y ts') -> exists p, p ∈ ops ∧ op_path p = written (q0 ++ q) ∧ carries p y ts'.
Proof.
  intros Hk E Hq. destruct v as [|x ts| |]; try done. injection E as <-.
  apply (covered_here kd q0 q x ts); [done..|]. by left.
Qed.

Section covered.
Context (wt : bool) (K : tson -> tson -> list step -> Prop).
Context (K_leaf : forall x y ts ts', TsonSpec.prim_eq x y -> stamps_rel wt ts ts' -> K (TLeaf x ts) (TLeaf y ts') []).
Context (K_member : forall m m' k u v q, alookup k m = Some u -> alookup k m' = Some v -> K u v q -> K (TObj m) (TObj m') (Key k :: q)).
Context (K_elem : forall l l' i u v q, length l = length l' -> l !! i = Some u -> l' !! i = Some v -> K u v q ->
  K (TArr l) (TArr l') (Elem i :: q)).
Context (K_array : forall l l' q0 ops i v q y ts, length l <> length l' -> Forall wf l -> Forall wf l' ->
  (if wt then compare_array_ts l l' (written q0) else compare_array l l' (written q0)) = Ok ops ->
  l' !! i = Some v -> at_path v q = Some (TLeaf y ts) ->
  K (TArr l) (TArr l') (Elem i :: q) ∨ exists p, p ∈ ops ∧ op_path p = written (q0 ++ Elem i :: q) ∧ carries p y ts).
Lemma covered_gen b : forall a q0 ops q y ts, wf b -> wf a -> handle_values wt a b (written q0) = Ok ops ->
  at_path b q = Some (TLeaf y ts) ->
  K a b q ∨ exists p, p ∈ ops ∧ op_path p = written (q0 ++ q) ∧ carries p y ts.
Proof.
  induction b as [|x ts0|m' IH|l' IH] using tson_ind'; intros a q0 ops q y ts Hb Ha E Hq.
  - by destruct q as [|[]].
  - destruct a as [|z ts1| |l]; try done; cbn [handle_values] in E.
    + right. injection E as <-. apply (covered_here OAdd q0 q x ts0); [by left|done|by left].
    + destruct (same_type _ _); [|done]. destruct (Diff.prim_eq z x && _) eqn:Ec; injection E as <-.
      * left. apply at_leaf in Hq as (-> & _ & _). apply andb_true_iff in Ec as [H1 H2]. apply K_leaf; [by apply prim_eq_iff|].
        intros ->. by apply Z.eqb_eq in H2.
      * right. apply (covered_here OReplace q0 q x ts0); [by right|done|by left].
    + right. injection E as <-. apply (covered_here OReplace q0 q x ts0); [by right|done|by left].
  - destruct a as [| |m|]; try done. rewrite handle_obj in E.
    apply bind_ok in E as (ch & Ec & E). apply bind_ok in E as (rm & Er & [= <-]).
    inversion Ha as [| |? ND HF|]; subst. inversion Hb as [| |? ND' HF'|]; subst. rewrite Forall_forall in IH, HF, HF'.
    destruct q as [|[k|i] q]; try done. cbn [at_path] in Hq. destruct (alookup k m') as [v|] eqn:Ev; [|done].
    cbn [mbind option_bind] in Hq. pose proof (alookup_Some_in _ _ _ Ev) as Hk.
    destruct (hv_members_block _ _ _ _ _ _ _ Ec Hk) as (here & Eh & B). unfold member_ops in Eh. rewrite written_key in Eh.
    assert (Hup : (exists p, p ∈ here ∧ op_path p = written ((q0 ++ [Key k]) ++ q) ∧ carries p y ts) ->
      exists p, p ∈ ch ++ rm ∧ op_path p = written (q0 ++ Key k :: q) ∧ carries p y ts).
    { intros (p & H1 & H2 & H3). rewrite <- app_assoc in H2. exists p. split; [|done]. apply elem_of_app. left.
      by apply (block_in here). }
    destruct (alookup k m) as [u|] eqn:Eu.
    + destruct (same_type u v).
      * pose proof (alookup_Some_in _ _ _ Eu) as Hu.
        destruct (IH (k, v) Hk u (q0 ++ [Key k]) here q y ts) as [H|H]; [by apply (HF' (k, v))|by apply (HF (k, u))|done|done| |].
        -- left. by apply (K_member _ _ _ u v).
        -- right. by apply Hup.
      * right. apply Hup. apply (covered_emit OReplace _ v); [by right|done|done].
    + right. apply Hup. apply (covered_emit OAdd _ v); [by left|done|done].
  - destruct a as [| | |l]; try done. rewrite handle_arr in E.
    inversion Ha as [| | |? HF]; subst. inversion Hb as [| | |? HF']; subst.
    destruct q as [|[k|i] q]; try done. cbn [at_path] in Hq. destruct (l' !! i) as [v|] eqn:Ev; [|done].
    cbn [mbind option_bind] in Hq.
    destruct (Nat.eqb_spec (length l) (length l')) as [Hl|Hl]; [|by apply (K_array l l' q0 ops i v q y ts)].
    assert (is_Some (l !! i)) as [u Eu]. { apply lookup_lt_is_Some. apply lookup_lt_Some in Ev. lia. }
    destruct (hv_elems_block _ _ _ _ _ _ i u v E Eu Ev) as (here & Eh & B). cbn [Nat.add] in Eh. rewrite written_elem in Eh.
    rewrite Forall_forall in IH, HF, HF'. pose proof (elem_of_list_lookup_2 _ _ _ Ev) as Hv. pose proof (elem_of_list_lookup_2 _ _ _ Eu) as Hu.
    destruct (IH v Hv u (q0 ++ [Elem i]) here q y ts) as [H|H]; [by apply HF'|by apply HF|done|done| |].
    + left. by apply (K_elem _ _ _ u v).
    + right. destruct H as (p & H1 & H2 & H3). rewrite <- app_assoc in H2. exists p. split; [|done]. by apply (block_in here).
Qed.
End covered.

Lemma covered_all a b ops q y ts : wf b -> wf a -> generate_patch a b = Ok ops -> at_path b q = Some (TLeaf y ts) ->
  kept a b q ∨ exists p, p ∈ ops ∧ op_path p = written q ∧ carries p y ts.
Proof.
  intros Hb Ha E Hq. apply (covered_gen false kept) with (q0 := []) (b := b); try done.
  - intros. by constructor.
  - intros. by apply (kp_member _ _ _ u v).
  - intros. by apply (kp_elem _ _ _ u v).
  - clear. intros l l' q0 ops i v q y ts Hl HF HF' E Hi Hq. unfold compare_array in E.
    apply bind_ok in E as (adds & Ea & [= <-]).
    destruct (unmatched_or l' l 0 [] i v Hi) as [H|(u & Hu & He)].
    + right. cbn [Nat.add] in H. destruct (array_adds_leaf _ _ _ _ _ Ea H) as (x & ts0 & ->).
      pose proof (array_adds_all _ _ _ _ _ _ Ea H) as Hin. rewrite written_elem in Hin.
      destruct (covered_here OAdd (q0 ++ [Elem i]) q x ts0 y ts (array_removes l l' (written q0) ++ adds)) as (p & H1 & H2 & H3);
        [by left|done|apply elem_of_app; by right|].
      rewrite <- app_assoc in H2. by exists p.
    + left. apply (kp_moved _ _ _ u v); [done..|]. apply same_sym. rewrite Forall_forall in HF, HF'.
      apply deep_eq_same; [|by apply HF|done]. by apply elem_of_list_lookup_2, HF' in Hi.
Qed.

Lemma matches_arr le l l' : matches le (TArr l) (TArr l') = true <-> Forall2 (fun a b => matches le a b = true) l l'.
Proof.
  revert l'. induction l as [|x l IH]; intros [|y l'].
  - split; [constructor|done].
  - split; [done|by inversion 1].
  - split; [done|by inversion 1].
  - change (matches le (TArr (x :: l)) (TArr (y :: l'))) with (matches le x y && matches le (TArr l) (TArr l')).
    rewrite andb_true_iff, IH. split; [intros [? ?]; by constructor|by inversion 1].
Qed.
Lemma matches_same a : forall b, wf a -> wf b -> matches_value a b = true -> matches_timestamp a b = true -> same_content a b.
Proof.
  unfold matches_value, matches_timestamp, same_content.
  induction a as [|p ts|m IH|l IH] using tson_ind'; intros b Ha Hb H1 H2.
  - done.
  - destruct b as [|q ts'| |]; try done. cbn [matches] in *. apply andb_true_iff in H1 as [_ H1]. apply andb_true_iff in H2 as [_ H2].
    constructor; [by apply prim_eq_iff|by apply Z.eqb_eq].
  - destruct b as [| |m'|]; try done. cbn [matches] in *.
    apply andb_true_iff in H1 as [H1 H1']. apply andb_true_iff in H2 as [H2 H2'].
    rewrite forallb_forall in H1, H1', H2. inversion Ha as [| |? ND HF|]; subst. inversion Hb as [| |? ND' HF'|]; subst.
    rewrite Forall_forall in IH, HF, HF'. apply agree_members; [done..| |].
    + intros k v Ev. pose proof (alookup_Some_in _ _ _ Ev) as Hv. pose proof (H1' (k, v) ltac:(by apply elem_of_list_In)) as [u Eu]%bool_decide_eq_true.
      cbn [fst] in Eu. exists u. split; [done|]. pose proof (alookup_Some_in _ _ _ Eu) as Hu.
      pose proof (H1 (k, u) ltac:(by apply elem_of_list_In)) as M1. pose proof (H2 (k, u) ltac:(by apply elem_of_list_In)) as M2.
      cbn [fst snd] in M1, M2. rewrite Ev in M1, M2.
      apply (IH (k, u) Hu v); [by apply (HF (k, u))|by apply (HF' (k, v))|done|done].
    + intros k [u Eu]. pose proof (alookup_Some_in _ _ _ Eu) as Hu.
      pose proof (H1 (k, u) ltac:(by apply elem_of_list_In)) as M1. cbn [fst] in M1. by destruct (alookup k m').
  - destruct b as [| | |l']; try done. rewrite matches_arr in H1, H2. constructor.
    inversion Ha as [| | |? HF]; subst. inversion Hb as [| | |? HF']; subst. clear Ha Hb.
    revert H2. induction H1 as [|x y l l' Hxy H1 IHl]; intros H2; constructor;
      inversion IH; inversion HF; inversion HF'; inversion H2; subst; auto.
Qed.
Lemma array_updates_at path ms : forall os i ops n v, array_updates path os ms i = Ok ops -> ms !! n = Some v ->
  match os !! n with
  | Some o => (matches_value o v = true ∧ matches_timestamp o v = true) ∨
      match v with TLeaf x ts => Op OReplace (idx_path path (i + n)) (any_of_prim x) ts ∈ ops | _ => True end
  | None => match v with TLeaf x ts => Op OAdd (idx_path path (i + n)) (any_of_prim x) ts ∈ ops | _ => False end
  end.
Proof.
  induction ms as [|m ms IH]; intros os i ops n v E Hn; [done|].
  cbn [array_updates] in E. apply bind_ok in E as (here & Eh & E). apply bind_ok in E as (rest & Er & [= <-]).
  destruct n as [|n].
  - injection Hn as <-. rewrite Nat.add_0_r. destruct os as [|o os]; cbn [lookup list_lookup].
    + destruct m as [|x ts| |]; try done. injection Eh as <-. apply elem_of_app. left. by left.
    + destruct (matches_value o m && matches_timestamp o m) eqn:Em; [left; by apply andb_true_iff in Em|right].
      destruct m as [|x ts| |]; try done. injection Eh as <-. apply elem_of_app. left. by left.
  - specialize (IH _ _ _ n v Er Hn). replace (i + S n)%nat with (S i + n)%nat by lia.
    replace (os !! S n) with (tail os !! n) by (by destruct os).
    destruct (tail os !! n) as [o|].
    + destruct IH as [IH|IH]; [by left|right]. destruct v; try done. apply elem_of_app. by right.
    + destruct v; try done. apply elem_of_app. by right.
Qed.
Lemma covered_ts a b ops q y ts : wf b -> wf a -> generate_patch_with_timestamp a b = Ok ops -> at_path b q = Some (TLeaf y ts) ->
  kept_ts a b q ∨ exists p, p ∈ ops ∧ op_path p = written q ∧ carries p y ts.
Proof.
  intros Hb Ha E Hq. apply (covered_gen true kept_ts) with (q0 := []) (b := b); try done.
  - intros x y' t t' H1 H2. specialize (H2 eq_refl) as ->. by constructor.
  - intros. by apply (kt_member _ _ _ u v).
  - intros. by apply (kt_elem _ _ _ u v).
  - clear. intros l l' q0 ops i v q y ts Hl HF HF' E Hi Hq. unfold compare_array_ts in E.
    apply bind_ok in E as (ups & Ea & [= <-]).
    pose proof (array_updates_at _ _ _ _ _ i v Ea Hi) as H. cbn [Nat.add] in H. rewrite written_elem in H.
    assert (Hc : forall kd x t0, kd = OAdd ∨ kd = OReplace -> v = TLeaf x t0 ->
      Op kd (written (q0 ++ [Elem i])) (any_of_prim x) t0 ∈ ups ->
      exists p, p ∈ array_removes l l' (written q0) ++ ups ∧ op_path p = written (q0 ++ Elem i :: q) ∧ carries p y ts).
    { intros kd x t0 Hk -> Hin.
      destruct (covered_here kd (q0 ++ [Elem i]) q x t0 y ts (array_removes l l' (written q0) ++ ups)) as (p & H1 & H2 & H3);
        [done|done|apply elem_of_app; by right|].
      rewrite <- app_assoc in H2. by exists p. }
    destruct (l !! i) as [o|] eqn:Eo.
    + destruct H as [[H1 H2]|H].
      * left. apply (kt_same _ _ _ o v); [done..|]. rewrite Forall_forall in HF, HF'.
        apply matches_same; [by apply elem_of_list_lookup_2, HF in Eo|by apply elem_of_list_lookup_2, HF' in Hi|done|done].
      * destruct v as [|x t0|m|xs].
        -- by destruct q as [|[]].
        -- right. apply (Hc OReplace x t0); [by right|done|done].
        -- left. apply (kt_dropped _ _ _ (TObj m)); [done|by apply lookup_lt_Some in Eo|done|]. left. by exists m.
        -- left. apply (kt_dropped _ _ _ (TArr xs)); [done|by apply lookup_lt_Some in Eo|done|]. right. by exists xs.
    + destruct v as [|x t0| |]; try done. right. apply (Hc OAdd x t0); [by left|done|done].
Qed.

(** ** Every missing member is removed *)
Lemma removed_member wt q : forall a b q0 ops k m m', meets a b q (TObj m) (TObj m') -> is_Some (alookup k m) -> alookup k m' = None ->
  handle_values wt a b (written q0) = Ok ops ->
  exists p, p ∈ ops ∧ op_kind p = ORemove ∧ op_path p = written (q0 ++ q ++ [Key k]).
Proof.
  intros a b q0 ops k m m' HM [u Hu] Hn E.
  destruct (generated_block wt q a b _ _ q0 ops HM eq_refl E) as (sub & Es & B). rewrite handle_obj in Es.
  apply bind_ok in Es as (ch & Ec & Es). apply bind_ok in Es as (rm & Er & [= <-]). apply alookup_Some_in in Hu.
  destruct (diff_removed_all _ _ _ _ _ _ Er Hu Hn) as (p & H1 & H2 & H3 & _). exists p.
  split; [apply (block_in _ _ _ B), elem_of_app; by right|]. split; [done|]. by rewrite H3, written_key, <- app_assoc.
Qed.

(** ** Arrays of different length *)
Definition adds_leaf (q : list step) (ms : list tson) (j : nat) (p : operation) : Prop :=
  exists x ts, ms !! j = Some (TLeaf x ts) ∧ op_kind p = OAdd ∧ op_path p = written (q ++ [Elem j]) ∧ carries p x ts.
Lemma pairs_matching os ms : Forall fine os -> Forall fine ms -> matching os ms (pairs os ms).
Proof.
  intros Ho Hm. constructor.
  - apply NoDup_fmap_2_strong; [|apply NoDup_remove_dups]. intros [i j] [i' j'] H H' E. cbn in E. subst i'.
    apply pairs_iff in H, H'. f_equal. by apply (paired_fun os ms i).
  - apply NoDup_fmap_2_strong; [|apply NoDup_remove_dups]. intros [i j] [i' j'] H H' E. cbn in E. subst j'.
    apply pairs_iff in H, H'. f_equal. apply (paired_fun ms os j); [done..|by apply paired_flip|by apply paired_flip].
  - intros i j (x & y & Hx & Hy & He & _)%pairs_iff. exists x, y. split; [done|]. split; [done|].
    apply teq_same; [by apply (Forall_lookup_1 _ _ _ _ Ho Hx)|by apply (Forall_lookup_1 _ _ _ _ Hm Hy)|done].
  - intros i j x y Hx Hy He.
    pose proof (Forall_lookup_1 _ _ _ _ Ho Hx) as Fx. pose proof (Forall_lookup_1 _ _ _ _ Hm Hy) as Fy.
    apply (teq_same x y Fx Fy) in He. rewrite pairs_fst, pairs_snd.
    assert (Hnth : forall v l n, fine v -> Forall fine l -> (n < cnt v l)%nat ->
      exists i z, l !! i = Some z ∧ teq v z ∧ cnt v (take i l) = n).
    { clear. intros v l n Hv. revert n. induction l as [|w l IH] using rev_ind; intros n HF Hn; [rewrite cnt_nil in Hn; lia|].
      apply Forall_app in HF as [HF Hw]. rewrite cnt_app, cnt_one in Hn.
      destruct (decide (n < cnt v l)%nat) as [H|H].
      - destruct (IH n HF H) as (i & z & Hi & Hz & Hc). pose proof (lookup_lt_Some _ _ _ Hi) as Hlt. exists i, z.
        rewrite lookup_app_l by done. rewrite take_app_le by lia. done.
      - destruct (decide (teq v w)) as [Ht|Ht]; [|lia]. exists (length l), w.
        rewrite lookup_app_r, Nat.sub_diag by lia. rewrite take_app. split; [done|]. split; [done|lia]. }
    destruct (decide (cnt x (take i os) < cnt x ms)%nat) as [H|H].
    + left. destruct (Hnth x ms _ Fx Hm H) as (j' & z & Hj & Hz & Hc). exists j', x, z. done.
    + right. assert (Hlt : (cnt x (take j ms) < cnt x ms)%nat).
      { rewrite <- (take_drop_middle ms j y Hy) at 2. rewrite cnt_app, cnt_cons, decide_True by done. lia. }
      assert (H' : (cnt x (take j ms) < cnt x os)%nat).
      { apply lookup_lt_Some in Hx. pose proof (cnt_take_mono x os i (length os) ltac:(lia)) as HM.
        rewrite firstn_all in HM. lia. }
      destruct (Hnth x os _ Fx Ho H') as (i' & z & Hi & Hz & Hc). exists i', z, y.
      pose proof (Forall_lookup_1 _ _ _ _ Ho Hi) as Fz. split; [done|]. split; [done|].
      assert (Hzx : teq z x) by (by apply teq_sym).
      split; [by apply (teq_trans z x y)|]. by rewrite !(cnt_teq z x) by auto using Forall_take.
Qed.
Lemma leftover_ext n u u' : (forall i, i ∈ u <-> i ∈ u') -> leftover n u = leftover n u'.
Proof. intros H. unfold leftover. apply list_filter_iff. intros i. by rewrite H. Qed.
Lemma array_adds_spec path ms l : (forall i, i ∈ l -> is_Some (ms !! i)) ->
  match array_adds path (map (elem_at ms) l) with
  | Ok adds => Forall2 (fun j p => exists x ts, ms !! j = Some (TLeaf x ts) ∧ p = Op OAdd (idx_path path j) (any_of_prim x) ts) l adds
  | Err => False
  | Panic => exists j t, j ∈ l ∧ ms !! j = Some t ∧ forall x ts, t <> TLeaf x ts
  end.
Proof.
  induction l as [|i l IH]; intros H; [constructor|].
  destruct (H i) as [t Ht]; [constructor|]. specialize (IH (fun i Hi => H i ltac:(by constructor))).
  cbn [map array_adds]. unfold elem_at at 1. rewrite Ht. cbn [from_option].
  destruct t as [|x ts| |]; cbn [id default];
    try (by exists i; eexists; split; [constructor|]; split; [exact Ht|done]).
  destruct (array_adds path (map (elem_at ms) l)) as [adds| |]; cbn [rbind].
  - constructor; [by exists x, ts|done].
  - done.
  - destruct IH as (j & t & H1 & H2 & H3). exists j, t. split; [by constructor|done].
Qed.
Lemma compare_array_spec os ms q : Forall fine os -> Forall fine ms ->
  exists M, matching os ms M ∧
  match compare_array os ms (written q) with
  | Ok ops => exists adds,
      ops = map (fun i => Op ORemove (written (q ++ [Elem i])) ANil 0) (reverse (leftover (length os) (map fst M))) ++ adds ∧
      Forall2 (adds_leaf q ms) (leftover (length ms) (map snd M)) adds
  | Err => False
  | Panic => exists j t, j ∈ leftover (length ms) (map snd M) ∧ ms !! j = Some t ∧ forall x ts, t <> TLeaf x ts
  end.
Proof.
  intros Ho Hm. exists (pairs os ms). split; [by apply pairs_matching|]. unfold compare_array, array_removes.
  rewrite !process_spec by done.
  rewrite (leftover_ext (length ms) (map fst (pairs ms os)) (map snd (pairs os ms))).
  2:{ intros i. rewrite pairs_fst, pairs_snd. split; intros [j H]; exists j; by apply paired_flip. }
  pose proof (array_adds_spec (written q) ms (leftover (length ms) (map snd (pairs os ms)))) as HA.
  destruct (array_adds _ _) as [adds| |]; cbn [rbind].
  - exists adds. split.
    + f_equal. rewrite map_map, rev_alt, <- rev_alt. unfold reverse. rewrite <- rev_alt, <- map_rev.
      apply map_ext. intros i. unfold elem_at. cbn [fst]. by rewrite written_elem.
    + eapply Forall2_impl; [apply HA|].
      * intros i Hi. unfold leftover in Hi. apply elem_of_list_filter in Hi as [_ Hi%elem_of_seq]. apply lookup_lt_is_Some. lia.
      * intros j p (x & ts & H1 & ->). exists x, ts. split; [done|]. split; [done|]. split; [by rewrite written_elem|].
        split; [by left|]. split; [apply payload_any|done].
  - apply HA. intros i Hi. unfold leftover in Hi. apply elem_of_list_filter in Hi as [_ Hi%elem_of_seq]. apply lookup_lt_is_Some. lia.
  - apply HA. intros i Hi. unfold leftover in Hi. apply elem_of_list_filter in Hi as [_ Hi%elem_of_seq]. apply lookup_lt_is_Some. lia.
Qed.
