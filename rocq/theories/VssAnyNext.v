(** Which data sets can come up in one round of GenerateNext. *)
From stdpp Require Import pretty.
From Verif Require Import Base BaseLemmas BaseSpec Tjson TjsonSpec TjsonLemmas F64 Bytes BytesLemmas Vss VssSpec VssLemmas VssPlace VssFloat VssGen VssData VssNext VssAnySpec VssAny.
From Coq Require Import Lia.

Lemma restamp_any P ts : forall l l', Forall (keyed P) l ->
  Forall2 (fun x x' => exists v, has_value x v ∧ x' = reading v ts) l l' -> restamp ts l = Ok l'.
Proof.
  intros l l' HK F. induction F as [|x x' l l' (v & Hv & ->) F IH]; [done|]. inversion HK as [|? ? Kx HK']; subst.
  cbn [restamp]. rewrite (value_lookup P x v) by done. cbn [rbind]. by rewrite IH.
Qed.
Definition first_then (r u : f64) (z : Z) : draws := coded (fun n => match n with O => r | _ => u end) (fun _ => z).
Lemma first_machine r u z : go_float r -> go_float u -> machine (first_then r u z).
Proof. intros Hr Hu. apply coded_machine. by intros [|n]. Qed.
Lemma next_value_any c m ts x x' : keyed schema_name x -> moves c m ts x x' -> exists D, machine D ∧ next_value c m D ts x = Ok (Some x').
Proof.
  intros HK (r & Hr & HM & HN). destruct HM as [l l' F|x v v' Hc Hv Hs|x v Hc Hm Hv|x Hx Hc Hm].
  - exists (first_then r r 0). split; [by apply first_machine|]. cbn [next_value].
    inversion HK as [|? HFl|? _ Hd]; subst; [|by destruct (Hd l)]. by rewrite (restamp_any _ _ _ _ HFl F).
  - assert (Ev := value_lookup _ _ _ HK Hv). assert (Hv0 := Hv). destruct Hv0 as (mm & -> & _).
    assert (G : forall D, d_float D 0 = r -> next_value c m D ts (WObj mm) = Ok match v with
           | WStr _ => Some (tson_leaf (WStr (random_string D 0)) ts)
           | WBool b => Some (tson_leaf (WBool (negb b)) ts)
           | WInt _ => Some (tson_leaf (WInt (d_int D 0 201 - 100)) ts)
           | WNum _ => Some (tson_leaf (WNum (f64_mul (d_float D 1) hundred)) ts)
           | _ => None
           end).
    { intros D ED. cbn [next_value]. rewrite ED. unfold f64_lt. rewrite Hc, Ev. done. }
    destruct Hs as [b|s s' (n & Hn & ->)|z z' Hz|f f' Hf].
    + exists (first_then r r 0). split; [by apply first_machine|]. by rewrite G.
    + exists (first_then r r (Z.of_nat (n - 1))). split; [by apply first_machine|]. rewrite G by done. unfold random_string.
      cbn [d_int first_then coded]. rewrite (clip_in _ 20) by lia. rewrite Nat2Z.id, test_string by lia. by replace (S (n - 1)) with n by lia.
    + exists (first_then r r (z' + 100)). split; [by apply first_machine|]. rewrite G by done.
      cbn [d_int first_then coded]. rewrite (clip_in _ 201) by lia. by replace (z' + 100 - 100) with z' by lia.
    + destruct (HN f f' Hv Hc eq_refl) as (u & Hu & ->). exists (first_then r u 0). split; [by apply first_machine|]. by rewrite G.
  - assert (Ev := value_lookup _ _ _ HK Hv). destruct Hv as (mm & -> & _). exists (first_then r r 0). split; [by apply first_machine|].
    cbn [next_value d_float first_then coded]. unfold f64_lt, f64_add. rewrite Hc, Hm, Ev. done.
  - destruct Hx as (mm & ->). exists (first_then r r 0). split; [by apply first_machine|].
    cbn [next_value d_float first_then coded]. unfold f64_lt, f64_add. by rewrite Hc, Hm.
Qed.
Lemma next_value_numbers c m D ts x x' f f' : machine D -> keyed schema_name x -> next_value c m D ts x = Ok (Some x') ->
  has_value x (WNum f) -> SFltb (d_float D 0) c = true -> x' = reading (WNum f') ts ->
  exists u, go_float u ∧ f' = SFmul f64_prec f64_emax u (f64_of_Z 100).
Proof.
  intros [HF _] HK E Hv Hc ->. assert (Ev := value_lookup _ _ _ HK Hv). destruct Hv as (mm & -> & _).
  cbn [next_value] in E. unfold f64_lt in E. rewrite Hc, Ev in E. cbn [rbind] in E. injection E as E. exists (d_float D 1). done.
Qed.
Lemma next_possible c m ts d (V : list string -> wjson) : dataset d ->
  (exists R d', (forall p, machine (R p)) ∧ next_data c m R ts (Vss true d) = Ok d' ∧
     forall l x', leaf_at d' l x' <-> (exists x, leaf_at d l x) ∧ x' = V l) <->
  (forall l x, leaf_at d l x -> moves c m ts x (V l)).
Proof.
  intros S. assert (Dn := ds_names d S).
  assert (Hin : forall p x, (p, x) ∈ leaf_nodes d <-> exists l, leaf_at d l x ∧ p = dotted l).
  { intros p x. apply leaf_nodes_spec; [by apply ds_map|]. by apply schema_nonempty. }
  assert (Hpath : forall l x, leaf_at d l x -> l ≠ [] ∧ Forall schema_name l ∧ dotted l = String.concat "." l).
  { intros l x Hl. assert (Hne : l ≠ []).
    { intros ->. inversion Hl as [? Hd|]; subst. destruct Hd as [Hd|Hd]; [destruct Hd; by apply ds_map|by apply (ds_open _ S)]. }
    split; [done|]. split; [by eapply leaf_at_names|]. unfold dotted. by rewrite (ds_visible d S l x). }
  split.
  - intros (R & d' & HR & E & HV) l x Hl.
    destruct (next_exact c m R ts d S (fun p => machine_fair _ (HR p))) as (d2 & E2 & _ & _ & HM & HNv & _).
    rewrite E in E2. injection E2 as <-. assert (Hl' : leaf_at d' l (V l)) by (apply HV; eauto).
    exists (d_float (R (String.concat "." l)) 0). split; [apply HR|]. split; [by apply HM|].
    intros f f' Hf Hc Ef. eapply next_value_numbers; [apply (HR (String.concat "." l))|by eapply leaf_at_keyed|by apply HNv|done|done|done].
  - intros H.
    destruct (pick_draws (fun p D => forall l x, leaf_at d l x -> p = String.concat "." l -> next_value c m D ts x = Ok (Some (V l)))
      (map fst (leaf_nodes d))) as (R & HR & HP).
    { intros p ([p' x] & -> & Hp)%elem_of_list_fmap. cbn [fst]. apply Hin in Hp as (l & Hl & ->).
      destruct (next_value_any c m ts x (V l)) as (D & HD & E); [by eapply leaf_at_keyed|by apply H|]. exists D. split; [done|].
      intros l2 x2 Hl2 Ec. destruct (Hpath _ _ Hl) as (N1 & N2 & N3), (Hpath _ _ Hl2) as (M1 & M2 & M3).
      assert (l2 = l) as -> by (symmetry; apply concat_inj; [done|done|done|done|congruence]).
      by rewrite (leaf_at_fun _ d Dn l x2 x). }
    destruct (next_exact c m R ts d S (fun p => machine_fair _ (HR p))) as (d' & E & _ & HL & _ & HNv & _).
    exists R, d'. split; [done|]. split; [done|].
    assert (Hx : forall l x x', leaf_at d l x -> leaf_at d' l x' -> x' = V l).
    { intros l x x' Hl Hl'. specialize (HNv _ _ _ Hl Hl'). rewrite (HP (String.concat "." l)) with (l := l) in HNv; [congruence| |done|done].
      apply elem_of_list_fmap. exists (dotted l, x). destruct (Hpath _ _ Hl) as (_ & _ & <-). split; [done|]. apply Hin. eauto. }
    intros l x'. split.
    + intros Hl'. destruct (proj2 (HL l)) as [x Hl]; [eauto|]. split; [eauto|]. by eapply Hx.
    + intros [[x Hl] ->]. destruct (proj1 (HL l)) as [y Hy]; [eauto|]. by rewrite <- (Hx _ _ _ Hl Hy).
Qed.
