(** Proofs about reading compatible TSON and about ToArray. *)
From Verif Require Import Base F64 Tson TsonInd BaseSpec BaseLemmas TsonSpec ConvLemmas.
From Coq Require Import Lia.

Lemma int_part_fun s m e z z' : int_part s m e z -> int_part s m e z' -> z = z'.
Proof.
  intros (a & -> & H1 & H2) (b & -> & H3 & H4). assert (a = b) as ->; [|done].
  assert (0 < 2 ^ Z.max 0 (- e)) by (apply Z.pow_pos_nonneg; lia). nia.
Qed.
Lemma int_part_model s m e :
  int_part s m e (let a := if 0 <=? e then Z.pos m * 2 ^ e else Z.pos m / 2 ^ (- e) in if s then - a else a).
Proof.
  eexists. split; [reflexivity|]. destruct (Z.leb_spec 0 e) as [He|He].
  - replace (Z.max 0 (- e)) with 0 by lia. replace (Z.max 0 e) with e by lia. lia.
  - replace (Z.max 0 (- e)) with (- e) by lia. replace (Z.max 0 e) with 0 by lia.
    assert (Hp : 0 < 2 ^ (- e)) by (apply Z.pow_pos_nonneg; lia).
    pose proof (Z.div_mod (Z.pos m) (2 ^ (- e))) as H1. pose proof (Z.mod_pos_bound (Z.pos m) (2 ^ (- e)) Hp) as H2. nia.
Qed.
Lemma read_stamp_spec f z : f64_to_int64 f = z <-> read_stamp f z.
Proof.
  destruct f as [s|s| |s m e].
  - cbn. split; [intros <-; constructor|by inversion 1].
  - cbn. split; [intros <-; constructor|by inversion 1].
  - cbn. split; [intros <-; constructor|by inversion 1].
  - pose proof (int_part_model s m e) as HI. unfold f64_to_int64. cbv zeta in *.
    set (w := if s then _ else _) in *. unfold in_int64, int64_min, int64_max.
    destruct (Z.leb_spec (- 2 ^ 63) w) as [H1|H1]; [destruct (Z.leb_spec w (2 ^ 63 - 1)) as [H2|H2]|]; cbn [andb].
    + split; [intros <-; apply rs_int; [done|lia]|]. inversion 1; subst; [by eapply int_part_fun|].
      assert (w = z0) by (by eapply int_part_fun). lia.
    + split; [intros <-; eapply rs_big; [done|lia]|]. inversion 1; subst; [|done].
      assert (w = z) by (by eapply int_part_fun). lia.
    + split; [intros <-; eapply rs_big; [done|lia]|]. inversion 1; subst; [|done].
      assert (w = z) by (by eapply int_part_fun). lia.
Qed.

Lemma check_leaf_some m v ts : check_leaf m = Some (v, ts) -> exists f, leaf_shape m v f ∧ read_stamp f ts.
Proof.
  unfold check_leaf. case_decide as Hl; [|done]. destruct m as [|[k1 x1] [|[k2 x2] [|]]]; try done. cbn [alookup].
  repeat case_decide; subst; try done; try (by destruct x1); try (by destruct x2).
  - destruct x2 as [| |f| | |]; try done. intros [= <- <-]. exists f. split; [apply Permutation_refl|]. by apply read_stamp_spec.
  - destruct x1 as [| |f| | |]; try done. intros [= <- <-]. exists f. split; [apply perm_swap|]. by apply read_stamp_spec.
Qed.
Lemma check_leaf_shape m v f : leaf_shape m v f -> check_leaf m = Some (v, f64_to_int64 f).
Proof.
  intros H. unfold leaf_shape in H. assert (Hl := Permutation_length H). cbn in Hl.
  destruct m as [|[k1 x1] [|[k2 x2] [|]]]; try done.
  apply Permutation_length_2_inv in H. by destruct H as [[= <- <- <- <-]|[= <- <- <- <-]].
Qed.
Lemma check_leaf_none m : check_leaf m = None <-> forall v f, ~ leaf_shape m v f.
Proof.
  split.
  - intros H v f Hs. apply check_leaf_shape in Hs. congruence.
  - intros H. destruct (check_leaf m) as [[v ts]|] eqn:E; [|done].
    apply check_leaf_some in E as (f & Hs & _). by destruct (H v f).
Qed.
Lemma leaf_shape_fun m v v' f f' : leaf_shape m v f -> leaf_shape m v' f' -> v = v' ∧ f = f'.
Proof.
  unfold leaf_shape. intros H H'. rewrite H in H'. apply Permutation_length_2_inv in H'.
  destruct H' as [[= -> ->]|[=]]; done.
Qed.

(** The two list loops of [convert]. *)
Fixpoint read_members (m : list (string * json)) : res (list (string * tson)) :=
  match m with
  | [] => Ok []
  | (k, v) :: m' => do t <- from_compatible v; do ts <- read_members m'; Ok ((k, t) :: ts)
  end.
Fixpoint read_elems (l : list json) : res (list tson) :=
  match l with
  | [] => Ok []
  | v :: l' => do t <- from_compatible v; do ts <- read_elems l'; Ok (t :: ts)
  end.
Lemma from_obj m : from_compatible (JObj m) =
  match check_leaf m with
  | Some (JStr s, ts) => Ok (TLeaf (PStr s) ts)
  | Some (JNum f, ts) => Ok (TLeaf (PNum f) ts)
  | Some (JBool b, ts) => Ok (TLeaf (PBool b) ts)
  | Some (_, _) => Ok TNil
  | None => do ms <- read_members m; Ok (TObj ms)
  end.
Proof. reflexivity. Qed.
Lemma from_arr l : from_compatible (JArr l) = do ls <- read_elems l; Ok (TArr ls).
Proof. reflexivity. Qed.

Lemma read_cases j : match from_compatible j with
  | Ok t => reads j t
  | Err => False
  | Panic => stray j
  end.
Proof.
  induction j as [|b|f|s|l IH|m IH] using json_ind'.
  1-4: cbn; apply sy_here; by intros [[? ?]|[? ?]].
  - rewrite from_arr. assert (H : match read_elems l with
      | Ok ls => Forall2 reads l ls | Err => False | Panic => exists v, v ∈ l ∧ stray v end).
    { induction IH as [|v l Hv _ IHl]; cbn [read_elems]; [constructor|].
      destruct (from_compatible v); cbn [rbind]; [|done|exists v; split; [set_solver|done]].
      destruct (read_elems l); cbn [rbind]; [by constructor|done|].
      destruct IHl as (u & H1 & H2). exists u. split; [set_solver|done]. }
    destruct (read_elems l); cbn [rbind]; [by constructor|done|].
    destruct H as (v & H1 & H2). by eapply sy_elem.
  - rewrite from_obj. destruct (check_leaf m) as [[v ts]|] eqn:E.
    + apply check_leaf_some in E as (f & Hs & Ht).
      destruct v; try (by apply (rd_leaf m (PStr _) f)); try (by apply (rd_leaf m (PNum _) f));
        try (by apply (rd_leaf m (PBool _) f)); eapply rd_bad; eauto; unfold jcontainer; eauto.
    + rewrite check_leaf_none in E.
      assert (H : match read_members m with
        | Ok ms => Forall2 (fun a b => fst a = fst b ∧ reads (snd a) (snd b)) m ms
        | Err => False | Panic => exists k v, (k, v) ∈ m ∧ stray v end).
      { clear E. induction IH as [|[k v] l Hv _ IHl]; cbn [read_members]; [constructor|]. cbn [snd] in Hv.
        destruct (from_compatible v); cbn [rbind]; [|done|exists k, v; split; [set_solver|done]].
        destruct (read_members l); cbn [rbind]; [by constructor|done|].
        destruct IHl as (k' & u & H1 & H2). exists k', u. split; [set_solver|done]. }
      destruct (read_members m); cbn [rbind]; [by constructor|done|].
      destruct H as (k & v & H1 & H2). by eapply sy_member.
Qed.
Lemma read_stamp_fun f z z' : read_stamp f z -> read_stamp f z' -> z = z'.
Proof. intros H1%read_stamp_spec H2%read_stamp_spec. congruence. Qed.
Lemma reads_fun j : forall t t', reads j t -> reads j t' -> t = t'.
Proof.
  induction j as [|b|f|s|l IH|m IH] using json_ind'; intros t t' H H'; inversion H; subst; inversion H'; subst.
  - f_equal. rename H1 into F1, H2 into F2. clear H H'. revert ls ls0 F1 F2.
    induction IH as [|v l Hv _ IHl]; intros ls ls' F1 F2; inversion F1; inversion F2; subst; [done|]. f_equal; auto.
  - destruct (leaf_shape_fun _ _ _ _ _ H1 H3) as [Ep ->]. assert (ts = ts0) as -> by (by eapply read_stamp_fun).
    destruct p, p0; by simplify_eq/=.
  - destruct (leaf_shape_fun _ _ _ _ _ H1 H3) as [Ep ->]. destruct H4 as [->|[[? ->]|[? ->]]]; by destruct p.
  - by destruct (H3 _ _ H1).
  - destruct (leaf_shape_fun _ _ _ _ _ H1 H3) as [Ep ->]. destruct H2 as [->|[[? ->]|[? ->]]]; by destruct p.
  - done.
  - by destruct (H3 _ _ H1).
  - by destruct (H1 _ _ H3).
  - by destruct (H1 _ _ H3).
  - f_equal. rename H2 into F1, H4 into F2. clear H H' H1 H3. revert ms ms0 F1 F2.
    induction IH as [|[k v] l Hv _ IHl]; intros ls ls' F1 F2; inversion F1; inversion F2; subst; [done|].
    destruct y, y0. cbn [fst snd] in *. destruct_and!. subst. f_equal; [|auto]. f_equal. auto.
Qed.
Lemma reads_not_stray j : forall t, reads j t -> ~ stray j.
Proof.
  induction j as [|b|f|s|l IH|m IH] using json_ind'; intros t H HS; inversion H; subst; inversion HS; subst;
    try (by match goal with H : ~ jcontainer _ |- _ => apply H; unfold jcontainer; eauto end).
  - rewrite Forall_forall in IH. apply elem_of_list_lookup in H2 as [i Hi].
    destruct (Forall2_lookup_l _ _ _ _ _ H1 Hi) as (u & _ & Hu). eapply IH; [|done|done]. by eapply elem_of_list_lookup_2.
  - by destruct (H3 _ _ H1).
  - by destruct (H3 _ _ H1).
  - rewrite Forall_forall in IH. apply elem_of_list_lookup in H4 as [i Hi].
    destruct (Forall2_lookup_l _ _ _ _ _ H2 Hi) as (u & _ & _ & Hu). eapply (IH (k, v)); [|done|done]. by eapply elem_of_list_lookup_2.
Qed.
Lemma from_compatible_reads j t : from_compatible j = Ok t <-> reads j t.
Proof.
  pose proof (read_cases j) as H. split.
  - intros E. by rewrite E in H.
  - intros Hr. destruct (from_compatible j) as [t'| |]; [|done|by destruct (reads_not_stray _ _ Hr)].
    f_equal. by eapply reads_fun.
Qed.
Lemma from_compatible_panics j : from_compatible j = Panic <-> stray j.
Proof.
  pose proof (read_cases j) as H. split.
  - intros E. by rewrite E in H.
  - intros Hs. destruct (from_compatible j) as [t'| |]; [by destruct (reads_not_stray _ _ H)|done|done].
Qed.
Lemma from_compatible_no_err j : from_compatible j <> Err.
Proof. pose proof (read_cases j) as H. intros E. by rewrite E in H. Qed.

(** ** ToArray *)
Lemma to_array_ok l ps : to_array l = Ok ps <-> Forall2 (fun t p => exists ts, t = TLeaf p ts) l ps.
Proof.
  revert ps. induction l as [|t l IH]; intros ps; cbn [to_array].
  - split; [by intros [= <-]|by inversion 1].
  - split.
    + destruct t as [|p ts| |]; try done. destruct (to_array l) as [qs| |] eqn:E; try done. cbn [rbind].
      intros [= <-]. constructor; [by exists ts|]. by apply IH.
    + inversion 1 as [|? p ? qs [ts ->] H2]; subst. apply IH in H2. by rewrite H2.
Qed.
Lemma to_array_err l : to_array l = Err <-> exists t, t ∈ l ∧ forall p ts, t <> TLeaf p ts.
Proof.
  induction l as [|t l IH]; cbn [to_array].
  - split; [done|]. by intros (t & H%elem_of_nil & _).
  - split.
    + destruct t as [|p ts| |]; try (intros _; eexists; split; [left|done]).
      destruct (to_array l) as [qs| |] eqn:E; try done. intros _. destruct (proj1 IH eq_refl) as (t & H1 & H2).
      exists t. split; [by right|done].
    + intros (u & Hu & Hn). destruct t as [|p ts| |]; try done. apply elem_of_cons in Hu as [->|Hu]; [by destruct (Hn p ts)|].
      rewrite (proj2 IH) by eauto. done.
Qed.
Lemma to_array_total l : to_array l <> Panic.
Proof. induction l as [|[|p ts| |] l IH]; cbn [to_array]; try done. by destruct (to_array l). Qed.
