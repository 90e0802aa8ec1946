(** Facts about the vehicle data generator: the following data sets. *)
From Verif Require Import Base BaseLemmas BaseSpec Tjson TjsonSpec TjsonLemmas F64 Bytes BytesLemmas Vss VssSpec VssLemmas VssPlace VssFloat VssGen VssData.
From Coq Require Import Lia.

Lemma reading_value v ts : has_value (reading v ts) v.
Proof. eexists. split; [done|]. by left. Qed.
Lemma array_data ts l (Q : wjson -> Prop) : Forall (fun x => exists v, Q v ∧ x = reading v ts) l ->
  Forall (fun y => exists v, has_value y v) l.
Proof. intros H. eapply Forall_impl; [exact H|]. intros x (v & _ & ->). exists v. apply reading_value. Qed.
(** The data sets of a typed schema. *)
Lemma generate_dataset size R ord ts b d : schema d -> typed d -> (forall p, fair (R p)) -> (forall l, ord l ≡ₚ l) ->
  exists r, generate size R ord ts (Vss b d) = Ok (Vss true r) ∧ dataset r ∧
    (forall q x, leaf_at r q x -> fits (attr d q) ts x) ∧
    (forall q, (exists x, leaf_at r q x) <-> node d q ∧ SFltb size (d_float (R (String.concat "." q)) 0) = false).
Proof.
  intros S HT HR Hord. destruct (generate_ok size R ord ts b d S HR Hord) as (r & E & Hm & Hs & HK & H1 & H2).
  exists r. split; [done|]. split; [|split].
  - constructor; [done|done|done| |].
    + intros l x Hl. destruct (H1 _ _ Hl) as ((n & y & Ha) & _). by destruct (attr_names d l n y (sc_names d S) Ha) as (_ & _ & _ & ?).
    + intros l x Hl. destruct (H1 _ _ Hl) as (Hn & _ & Hf). destruct (HT l Hn) as ((t & Ht & Hd) & Hal).
      destruct Hf as [b' H|t' z G1 G2 G3|f G1 G2 G3|al v G1 G2 G3|t' v G1 G2 G3 G4|t' al G1 G2 G3 G4 G5|G1 G2];
        try (left; eexists; split; [apply reading_value|done]).
      * left. exists v. split; [apply reading_value|]. apply Hal in G2. rewrite Forall_forall in G2. by apply G2.
      * left. exists v. split; [apply reading_value|]. by eapply in_range_plain.
      * right. exists al. split; [done|]. by eapply array_data.
      * apply G2 in Hd. done.
  - intros q x Hl. by destruct (H1 _ _ Hl) as (_ & _ & ?).
  - intros q. split.
    + intros (x & Hl). by destruct (H1 _ _ Hl) as (? & ? & _).
    + intros [Hn Hc]. apply H2; [done|done|]. destruct (HT q Hn) as ((t & Ht & Hd) & _). right.
      intros x Hx. right. exists t. split; [done|].
      destruct Hd as (l & Hl & El). destruct Hx as (l' & Hl' & El').
      assert (l = l') by (apply (sc_distinct d S l l' _ _ Hl Hl'); by rewrite El, El'). subst l'.
      symmetry. by apply (leaf_at_fun _ d (sc_names d S) l).
Qed.

(** ** GenerateNext *)
Lemma value_lookup P x v : keyed P x -> has_value x v -> value_of x = Ok v.
Proof.
  intros HK (m & -> & Hin). apply keyed_map in HK as [HN _]. apply alookup_in in Hin; [|done]. cbn. by rewrite Hin.
Qed.
Lemma restamp_ok P ts l : Forall (keyed P) l -> Forall (fun y => exists v, has_value y v) l ->
  exists l', restamp ts l = Ok l' ∧ Forall2 (fun x x' => exists v, has_value x v ∧ x' = reading v ts) l l'.
Proof.
  intros HK H. induction H as [|x l (v & Hv) H IH]; [by exists []|]. inversion HK as [|? ? Kx HK']; subst.
  destruct (IH HK') as (l' & E & F). exists (tson_leaf v ts :: l'). cbn [restamp].
  rewrite (value_lookup P x v) by done. cbn [rbind]. rewrite E. split; [done|]. constructor; [|done]. by exists v.
Qed.
Lemma similar_plain v v' : similar v v' -> plain_value v'.
Proof. by destruct 1. Qed.
Lemma has_value_keyed P x v : keyed P x -> has_value x v -> keyed P v.
Proof. intros HK (m & -> & Hin). apply keyed_map in HK as [_ HF]. rewrite Forall_forall in HF. by destruct (HF _ Hin). Qed.
Lemma next_value_ok c m D ts x : fair D -> keyed schema_name x -> data_leaf x -> ~ is_map x ∨ stamped x ->
  exists x', next_value c m D ts x = Ok (Some x') ∧ moved c m (d_float D 0) ts x x' ∧ data_leaf x' ∧
    (~ is_map x' ∨ stamped x') ∧ keyed schema_name x'.
Proof.
  intros [HF HI] HK HL HS. destruct HL as [(v & Hv & Hp)|(l & -> & Hl)].
  - assert (Ev := value_lookup _ _ _ HK Hv). destruct Hv as (mm & -> & Hin).
    assert (Hv : has_value (WObj mm) v) by (by exists mm).
    cbn [next_value]. destruct (f64_lt (d_float D 0) c) eqn:Ec.
    + rewrite Ev. cbn [rbind]. unfold f64_lt in Ec.
      assert (Hd : forall v', similar v v' -> exists x', Ok (Some (tson_leaf v' ts)) = Ok (Some x') ∧ moved c m (d_float D 0) ts (WObj mm) x' ∧ data_leaf x' ∧
         (~ is_map x' ∨ stamped x') ∧ keyed schema_name x').
      { intros v' Hv'. exists (reading v' ts). split; [done|]. split; [by apply (mv_changed _ _ _ _ _ v)|].
        split; [left; exists v'; split; [apply reading_value|by eapply similar_plain]|].
        split; [right; apply reading_stamped|]. apply reading_keyed, scalar_keyed. by eapply similar_plain. }
      destruct v; try done; apply Hd.
      * apply si_bool.
      * apply si_num. by apply draw_below.
      * apply si_int. specialize (HI 0%nat 201 ltac:(lia)). lia.
      * apply si_str. by apply random_sample.
    + destruct (f64_lt (d_float D 0) (f64_add c m)) eqn:Em.
      * rewrite Ev. cbn [rbind]. exists (reading v ts). split; [done|]. split; [by apply mv_renewed|].
        split; [left; exists v; split; [apply reading_value|done]|].
        split; [right; apply reading_stamped|]. apply reading_keyed. by apply scalar_keyed.
      * exists (WObj mm). split; [done|]. split; [apply mv_kept; [by eexists|done|done]|].
        split; [left; by exists v|]. done.
  - inversion HK as [|? HFl|? _ Hd]; subst; [|by destruct (Hd l)].
    destruct (restamp_ok schema_name ts l HFl Hl) as (l' & E & F). cbn [next_value]. rewrite E. cbn [rbind].
    exists (WArr l'). split; [done|]. split; [by constructor|]. split; [|split].
    + right. exists l'. split; [done|]. clear -F. induction F as [|x x' l l' (v & Hv & ->) F IH]; constructor; [|done].
      exists v. apply reading_value.
    + left. by intros [].
    + apply ky_arr. clear -F HFl. induction F as [|x x' l l' (v & Hv & ->) F IH]; [constructor|].
      inversion HFl; subst. constructor; [|by apply IH]. apply reading_keyed. by eapply has_value_keyed.
Qed.
Lemma leaf_at_prefix P d l x : keyed P d -> leaf_at d l x -> forall l' x', leaf_at d l' x' -> l `prefix_of` l' -> l = l'.
Proof.
  intros HK H. revert HK. induction H as [d Hd|m k v l x Hs Hin Hl IH]; intros HK l' x' H' Hp.
  - apply leaf_at_leaf in H' as [-> _]; done.
  - destruct Hp as [r ->]. cbn [app] in H'.
    inversion H' as [|m' k' v' l2 x2 _ Hin' Hl']; subst. cbn [app]. f_equal.
    apply keyed_map in HK as [HN HF]. assert (v' = v).
    { apply alookup_in in Hin, Hin'; [|done..]. rewrite Hin in Hin'. by injection Hin'. }
    subst v'. rewrite Forall_forall in HF. destruct (HF _ Hin) as [_ Kv].
    apply (IH Kv _ x'); [done|]. by exists r.
Qed.
Definition moved_to (c m : f64) (R : string -> draws) (ts : Z) (px : string * wjson) : option wjson :=
  match next_value c m (R (fst px)) ts (snd px) with Ok v => v | _ => None end.
Lemma next_nodes_place c m R ts l : forall acc,
  (forall px, px ∈ l -> next_value c m (R (fst px)) ts (snd px) = Ok (moved_to c m R ts px)) ->
  next_nodes c m R ts l acc = place_all (map (fun px => (split_on dot (fst px), moved_to c m R ts px)) l) acc.
Proof.
  induction l as [|[p x] l IH]; intros acc H; [done|]. cbn [next_nodes map place_all fst].
  assert (E := H (p, x) ltac:(by left)). cbn [fst snd] in E. rewrite E. cbn [rbind].
  destruct (place (moved_to c m R ts (p, x)) (split_on dot p) acc); [|done|done]. cbn [rbind]. apply IH.
  intros px Hpx. apply H. by right.
Qed.
Lemma next_exact c m R ts d : dataset d -> (forall p, fair (R p)) ->
  exists d', next_data c m R ts (Vss true d) = Ok d' ∧ dataset d' ∧
    (forall l, (exists x, leaf_at d l x) <-> exists x', leaf_at d' l x') ∧
    (forall l x x', leaf_at d l x -> leaf_at d' l x' -> moved c m (d_float (R (String.concat "." l)) 0) ts x x') ∧
    (forall l x x', leaf_at d l x -> leaf_at d' l x' -> next_value c m (R (String.concat "." l)) ts x = Ok (Some x')) ∧
    exists r L, d' = WObj r ∧ place_all L [] = Ok r ∧ forall l v, (l, v) ∈ L -> l ≠ [] ∧ exists x', v = Some x' ∧ leaf_at d' l x'.
Proof.
  intros [Dm Do Dn Dv Dl] HR.
  assert (Hin : forall p x, (p, x) ∈ leaf_nodes d <-> exists l, leaf_at d l x ∧ p = dotted l).
  { intros p x. apply leaf_nodes_spec; [done|]. by apply schema_nonempty. }
  assert (Hpath : forall l x, leaf_at d l x -> l ≠ [] ∧ Forall schema_name l ∧ dotted l = String.concat "." l ∧ split_on dot (dotted l) = l).
  { intros l x Hl. assert (Hne : l ≠ []).
    { intros ->. inversion Hl as [? Hd|]; subst. by destruct Hd. }
    assert (HN := leaf_at_names _ _ _ _ Dn Hl). split; [done|]. split; [done|].
    unfold dotted. rewrite (Dv l x) by done. split; [done|]. by apply split_names. }
  assert (Hval : forall px, px ∈ leaf_nodes d -> exists l x x', leaf_at d l x ∧ px = (dotted l, x) ∧
     next_value c m (R (fst px)) ts (snd px) = Ok (moved_to c m R ts px) ∧ moved_to c m R ts px = Some x' ∧
     moved c m (d_float (R (String.concat "." l)) 0) ts x x' ∧ data_leaf x' ∧ (~ is_map x' ∨ stamped x') ∧ keyed schema_name x').
  { intros [p x] (l & Hl & ->)%Hin. destruct (Hpath _ _ Hl) as (_ & _ & Ed & _).
    destruct (next_value_ok c m (R (dotted l)) ts x) as (x' & Ex & H1 & H2 & H3 & H4).
    - done.
    - by eapply leaf_at_keyed.
    - by eapply Dl.
    - clear -Hl. by induction Hl.
    - exists l, x, x'. assert (Em : moved_to c m R ts (dotted l, x) = Some x') by (unfold moved_to; cbn [fst snd]; by rewrite Ex).
      rewrite Em. rewrite Ed in H1. done. }
  unfold next_data. cbn [v_init v_data].
  rewrite next_nodes_place by (intros px Hpx; by destruct (Hval _ Hpx) as (? & ? & ? & ? & ? & ? & _)).
  destruct (place_all_ok schema_name (map (fun px => (split_on dot (fst px), moved_to c m R ts px)) (leaf_nodes d)) []) as (r & Er & Kr & Ur & Lr).
  - apply keyed_nil.
  - apply unstamped_nil.
  - apply Forall_forall. intros lv (px & -> & Hpx)%elem_of_list_fmap. cbn [fst snd].
    destruct (Hval _ Hpx) as (l & x & x' & Hl & -> & _ & -> & _ & _ & _ & Hk). cbn [fst default].
    destruct (Hpath _ _ Hl) as (Hne & HN & _ & ->). split; [by apply free_way_nil|]. split; [done|]. split; [done|].
    by eapply leaf_at_no_stamp.
  - apply (pairs_of (fun px : string * wjson => (split_on dot (fst px), moved_to c m R ts px)) (fun a b => unrelated (fst a) (fst b))).
    + apply NoDup_fmap_1 with (f := fst). apply leaf_nodes_distinct; [done|].
      intros l l' x x' Hl Hl'. rewrite (Dv l x), (Dv l' x') by done. done.
    + intros px px' H1 H2 Hne. cbn [fst].
      destruct (Hval _ H1) as (l & x & x1 & Hl & -> & _). destruct (Hval _ H2) as (l' & x' & x1' & Hl' & -> & _). cbn [fst].
      destruct (Hpath _ _ Hl) as (_ & _ & _ & ->). destruct (Hpath _ _ Hl') as (_ & _ & _ & ->).
      assert (Hnn : l ≠ l').
      { intros ->. apply Hne. f_equal. by apply (leaf_at_fun _ d Dn l'). }
      split; intros Hpre; apply Hnn; [|symmetry].
      * by apply (leaf_at_prefix _ d l x Dn Hl l' x').
      * by apply (leaf_at_prefix _ d l' x' Dn Hl' l x).
  - rewrite Er. cbn [rbind]. exists (WObj r). split; [done|].
    assert (Hnew : forall q y, leaf_at (WObj r) q y <-> exists x, leaf_at d q x ∧ moved_to c m R ts (dotted q, x) = Some y).
    { intros q y. rewrite Lr. split.
      - intros [H|(l & v & t & Hl & -> & Ht)]; [by destruct (leaf_at_empty _ _ H)|].
        apply elem_of_list_fmap in Hl as (px & [= -> ->] & Hpx).
        destruct (Hval _ Hpx) as (l & x & x' & Hl & -> & _ & Ex & _ & _ & Hs & _). cbn [fst].
        destruct (Hpath _ _ Hl) as (_ & _ & _ & ->). rewrite Ex in Ht. cbn [default] in Ht.
        apply leaf_at_leaf in Ht as [-> ->]; [|done]. rewrite app_nil_r. by exists x.
      - intros (x & Hl & Ex). right. exists q, (Some y), [].
        assert (Hpx : (dotted q, x) ∈ leaf_nodes d) by (apply Hin; eauto).
        destruct (Hpath _ _ Hl) as (_ & _ & _ & Esp). split.
        + apply elem_of_list_fmap. exists (dotted q, x). cbn [fst]. rewrite Esp, Ex. done.
        + split; [by rewrite app_nil_r|]. cbn [default]. destruct (Hval _ Hpx) as (l & x0 & x' & _ & _ & _ & Ex' & _ & _ & Hs & _).
          rewrite Ex in Ex'. injection Ex' as ->. by apply leaf_at_leaf. }
    assert (Hgood : forall q y, leaf_at (WObj r) q y -> exists x, leaf_at d q x ∧ moved c m (d_float (R (String.concat "." q)) 0) ts x y ∧ data_leaf y ∧
       next_value c m (R (String.concat "." q)) ts x = Ok (Some y)).
    { intros q y (x & Hl & Ex)%Hnew. exists x. split; [done|].
      assert (Hpx : (dotted q, x) ∈ leaf_nodes d) by (apply Hin; eauto).
      destruct (Hval _ Hpx) as (l & x0 & x' & Hl0 & Eq & Env & Ex' & Hm & Hdl & _). cbn [fst snd] in Env.
      injection Eq as Eq1 <-. rewrite Ex in Ex', Env. injection Ex' as ->.
      destruct (Hpath _ _ Hl) as (_ & _ & E1 & _). destruct (Hpath _ _ Hl0) as (_ & _ & E2 & _).
      rewrite <- E1. split; [by rewrite Eq1, E2|]. split; [done|]. exact Env. }
    split; [|split; [|split; [|split]]].
    + constructor; [by eexists|done|done| |].
      * intros l x (y & Hl & _)%Hgood. by eapply Dv.
      * intros l x (y & _ & _ & ? & _)%Hgood. done.
    + intros l. split.
      * intros (x & Hl). assert (Hpx : (dotted l, x) ∈ leaf_nodes d) by (apply Hin; eauto).
        destruct (Hval _ Hpx) as (l0 & x0 & x' & _ & _ & _ & Ex & _). exists x'. apply Hnew. eauto.
      * intros (y & (x & Hl & _)%Hgood). by exists x.
    + intros l x y Hl (x' & Hl' & Hm & _)%Hgood. by rewrite (leaf_at_fun _ d Dn l x x').
    + intros l x y Hl (x' & Hl' & _ & _ & Hm)%Hgood. by rewrite (leaf_at_fun _ d Dn l x x').
    + exists r, (map (fun px => (split_on dot (fst px), moved_to c m R ts px)) (leaf_nodes d)). split; [done|]. split; [done|].
      intros l v (px & [= -> ->] & Hpx)%elem_of_list_fmap. destruct (Hval _ Hpx) as (l & x & x' & Hl & -> & _ & Ex & _). cbn [fst].
      destruct (Hpath _ _ Hl) as (Hne & _ & _ & ->). split; [done|]. exists x'. split; [done|]. apply Hnew. by exists x.
Qed.
Lemma next_ok c m R ts d : dataset d -> (forall p, fair (R p)) ->
  exists d', next_data c m R ts (Vss true d) = Ok d' ∧ dataset d' ∧
    (forall l, (exists x, leaf_at d l x) <-> exists x', leaf_at d' l x') ∧
    (forall l x x', leaf_at d l x -> leaf_at d' l x' -> moved c m (d_float (R (String.concat "." l)) 0) ts x x').
Proof. intros D HR. destruct (next_exact c m R ts d D HR) as (d' & ? & ? & ? & ? & _). by exists d'. Qed.

(** ** Any number of rounds *)
Lemma same_type_refl x : data_leaf x -> same_type x x.
Proof.
  intros [(v & Hv & Hp)|(l & -> & Hl)].
  - destruct v; try done; by econstructor.
  - constructor. induction Hl as [|x l (v & Hv) Hl IH]; constructor; eauto.
Qed.
Lemma has_value_fun P x v v' : keyed P x -> has_value x v -> has_value x v' -> v = v'.
Proof. intros HK H H'. apply (value_lookup P) in H, H'; [|done..]. rewrite H in H'. by injection H'. Qed.
Lemma moved_type c m r ts x x' P : keyed P x -> data_leaf x -> moved c m r ts x x' -> same_type x x'.
Proof.
  intros HK HL H. destruct H as [l l' F|x v v' _ Hv Hs|x v _ _ Hv|x Hm _ _].
  - constructor. eapply Forall2_impl; [exact F|]. intros a b (v & Hv & ->). exists v. split; [done|apply reading_value].
  - assert (H := reading_value v' ts). destruct Hs; by econstructor.
  - assert (H := reading_value v ts). destruct HL as [(w & Hw & Hp)|(l & -> & _)]; [|by destruct Hv as (? & ? & _)].
    rewrite (has_value_fun P x w v) in Hp by done. destruct v; try done; by econstructor.
  - by apply same_type_refl.
Qed.
Lemma same_type_trans P x y z : keyed P y -> same_type x y -> same_type y z -> same_type x z.
Proof.
  intros HK H1 H2.
  assert (Habs : forall l v, ~ has_value (WArr l) v) by (intros l v (? & ? & _); done).
  destruct H1 as [x y ? ? Hx Hy|x y ? ? Hx Hy|x y ? ? Hx Hy|x y ? ? Hx Hy|l l' F];
    inversion H2 as [? ? ? ? Hy' Hz|? ? ? ? Hy' Hz|? ? ? ? Hy' Hz|? ? ? ? Hy' Hz|l2 l3 F2]; subst;
    try (assert (E := has_value_fun P _ _ _ HK Hy Hy'); discriminate E);
    try (by econstructor); try (by destruct (Habs _ _ Hy)); try (by destruct (Habs _ _ Hy')).
  constructor. inversion HK as [|? HF|? _ Hd]; subst; [|by destruct (Hd l')].
  clear -F F2 HF. revert l3 F2. induction F as [|x y l l' (v & Hx & Hy) F IH]; intros l3 F2; inversion F2 as [|? z ? l3' (w & Hy' & Hz) F3]; subst; constructor.
  - inversion HF; subst. rewrite (has_value_fun P y w v) in Hz by done. eauto.
  - apply IH; [|done]. by inversion HF.
Qed.
Lemma rounds_ok c m d e : rounds c m d e -> dataset d ->
  dataset e ∧ (forall l, (exists x, leaf_at d l x) <-> exists x, leaf_at e l x) ∧
  (forall l x y, leaf_at d l x -> leaf_at e l y -> same_type x y).
Proof.
  induction 1 as [d|R ts d d' e HR E H IH]; intros D.
  - split; [done|]. split; [done|]. intros l x y Hx Hy. rewrite (leaf_at_fun _ d (ds_names d D) l y x) by done.
    apply same_type_refl. by eapply ds_leaf.
  - destruct (next_ok c m R ts d D HR) as (d2 & E2 & D2 & P2 & M2). rewrite E in E2. injection E2 as <-.
    destruct (IH D2) as (De & Pe & Me). split; [done|]. split; [intros l; by rewrite P2|].
    intros l x z Hx Hz. destruct (proj1 (P2 l)) as (y & Hy); [by eexists|].
    apply (same_type_trans schema_name _ y).
    + apply (leaf_at_keyed schema_name d' l y); [by apply ds_names|exact Hy].
    + eapply (moved_type c m _ ts _ _ schema_name); [|exact (ds_leaf d D l x Hx)|exact (M2 l x y Hx Hy)].
      apply (leaf_at_keyed schema_name d l x); [by apply ds_names|exact Hx].
    + by eapply Me.
Qed.
Lemma next_runs c m R ts d e : rounds c m d e -> dataset d -> (forall p, fair (R p)) ->
  exists e', next_data c m R ts (Vss true e) = Ok e'.
Proof.
  intros H D HR. destruct (rounds_ok c m d e H D) as (De & _). destruct (next_ok c m R ts e De HR) as (e' & E & _). by exists e'.
Qed.
Lemma rounds_all c m d e : rounds c m d e -> dataset d ->
  dataset e ∧ (forall l, (exists x, leaf_at d l x) <-> exists x, leaf_at e l x) ∧
  (forall l x y, leaf_at d l x -> leaf_at e l y -> same_type x y) ∧
  (forall R ts, (forall p, fair (R p)) -> exists e', next_data c m R ts (Vss true e) = Ok e').
Proof.
  intros H D. destruct (rounds_ok c m d e H D) as (H1 & H2 & H3). split; [done|]. split; [done|]. split; [done|].
  intros R ts HR. by apply (next_runs c m R ts d e).
Qed.
Lemma next_fresh c m R ts d : next_data c m R ts (Vss false d) = Panic.
Proof. done. Qed.
