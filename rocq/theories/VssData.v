(** Facts about the vehicle data generator: the generated data sets. *)
From Verif Require Import Base BaseLemmas BaseSpec Tjson TjsonSpec TjsonLemmas F64 Bytes BytesLemmas Vss VssSpec VssLemmas VssPlace VssFloat VssGen.
From Coq Require Import Lia.

(** ** Grouping attributes by node *)
Lemma last_dot_none n : contains dot n = false -> last_dot n = None.
Proof.
  induction n as [|a n IH]; [done|]. cbn [contains last_dot]. intros [H1 H2]%orb_false_iff. rewrite IH by done.
  apply bool_decide_eq_false in H1. rewrite decide_False; [done|]. congruence.
Qed.
Lemma last_dot_app p n : contains dot n = false -> last_dot (p +++ "." +++ n) = Some (p, n).
Proof.
  intros H. induction p as [|a p IH].
  - change ("" +++ "." +++ n) with (String dot n). cbn [last_dot]. rewrite last_dot_none by done. by rewrite decide_True.
  - change (String a p +++ "." +++ n) with (String a (p +++ "." +++ n)). cbn [last_dot]. by rewrite IH.
Qed.
Lemma last_dot_key key : forall p n, last_dot key = Some (p, n) -> key = p +++ "." +++ n.
Proof.
  induction key as [|a key IH]; intros p n; [done|]. cbn [last_dot].
  destruct (last_dot key) as [[p' n']|].
  - intros [= <- <-]. by rewrite (IH p' n') at 1.
  - destruct (decide (a = dot)) as [->|]; [|done]. intros [= <- <-]. done.
Qed.
Definition glook (G : list (string * members)) (p n : string) : option wjson := alookup p G ≫= alookup n.
Definition keyat (L : members) (p n : string) (x : wjson) : Prop := exists key, (key, x) ∈ L ∧ last_dot key = Some (p, n).
Lemma group_ok L : forall acc, (forall key x, (key, x) ∈ L -> is_Some (last_dot key)) -> NoDup (map fst L) ->
  NoDup (akeys acc) -> (forall p meta, alookup p acc = Some meta -> meta ≠ []) ->
  exists G, group L acc = Ok G ∧ NoDup (akeys G) ∧ (forall p meta, alookup p G = Some meta -> meta ≠ []) ∧
    forall p n x, glook G p n = Some x <-> keyat L p n x ∨ ((forall y, ~ keyat L p n y) ∧ glook acc p n = Some x).
Proof.
  induction L as [|[key val] L IH]; intros acc HL HN HA HM.
  - exists acc. split; [done|]. split; [done|]. split; [done|]. intros p n x. split.
    + intros H. right. split; [|done]. intros y (k & Hk & _). by apply elem_of_nil in Hk.
    + intros [(k & Hk & _)|[_ H]]; [by apply elem_of_nil in Hk|done].
  - destruct (HL key val) as [[p0 n0] E0]; [by left|]. cbn [group]. rewrite E0.
    cbn [map fst] in HN. inversion HN as [|? ? Hnin HN']; subst.
    set (acc' := ainsert p0 (ainsert n0 val (default [] (alookup p0 acc))) acc).
    assert (Hg : forall p n, glook acc' p n = if decide (p = p0 ∧ n = n0) then Some val else glook acc p n).
    { intros p n. unfold glook, acc'. rewrite alookup_ainsert. destruct (decide (p = p0)) as [->|Hp].
      - cbn [mbind option_bind]. rewrite alookup_ainsert. destruct (decide (n = n0)) as [->|Hn].
        + by rewrite decide_True.
        + rewrite (decide_False (P := p0 = p0 ∧ n = n0)) by (by intros []). unfold members in *. by destruct (alookup p0 acc).
      - rewrite (decide_False (P := p = p0 ∧ n = n0)) by (by intros []). done. }
    destruct (IH acc') as (G & E & G1 & G2 & G3).
    + intros k x Hk. apply (HL k x). by right.
    + done.
    + by apply NoDup_ainsert.
    + intros p meta. unfold acc'. rewrite alookup_ainsert. case_decide; [|apply HM]. intros [= <-].
      destruct (default [] (alookup p0 acc)) as [|[k' v'] ?]; cbn; [done|]. by case_decide.
    + exists G. split; [done|]. split; [done|]. split; [done|]. intros p n x. rewrite G3, Hg.
      assert (Hcons : forall y, keyat ((key, val) :: L) p n y <-> (p = p0 ∧ n = n0 ∧ y = val) ∨ keyat L p n y).
      { intros y. split.
        - intros (k & Hk & Ek). apply elem_of_cons in Hk as [[= -> ->]|Hk].
          + left. rewrite E0 in Ek. by injection Ek as -> ->.
          + right. by exists k.
        - intros [(-> & -> & ->)|(k & Hk & Ek)]; [exists key; split; [by left|done]|].
          exists k. split; [by right|done]. }
      destruct (decide (p = p0 ∧ n = n0)) as [[-> ->]|Hne].
      * assert (Hno : forall y, ~ keyat L p0 n0 y).
        { intros y (k & Hk & Ek). apply last_dot_key in Ek, E0. subst. apply Hnin.
          apply elem_of_list_fmap. by exists (p0 +++ "." +++ n0, y). }
        split.
        -- intros [H|[_ [= <-]]]; [by destruct (Hno x)|]. left. apply Hcons. by left.
        -- intros [[(_ & _ & ->)|H]%Hcons|[H _]]; [by right|by destruct (Hno x)|].
           destruct (H val). apply Hcons. by left.
      * split.
        -- intros [H|[H1 H2]]; [left; apply Hcons; by right|right]. split; [|done].
           intros y [(-> & -> & _)|H]%Hcons; [by destruct Hne|by apply (H1 y)].
        -- intros [[(-> & -> & _)|H]%Hcons|[H1 H2]]; [by destruct Hne|by left|right]. split; [|done].
           intros y H. apply (H1 y), Hcons. by right.
Qed.

(** ** The nodes of a schema *)
Lemma leaf_at_fun P d : keyed P d -> forall l x x', leaf_at d l x -> leaf_at d l x' -> x = x'.
Proof.
  intros HK l. revert d HK. induction l as [|k l IH]; intros d HK x x' H H'.
  - inversion H; subst. by inversion H'.
  - inversion H as [|m k1 v l1 x1 Hs Hin Hv]; subst. inversion H' as [|m2 k2 v2 l2 x2 _ Hin2 Hv2]; subst.
    apply keyed_map in HK as [HN HF]. apply alookup_in in Hin, Hin2; [|done..].
    rewrite Hin in Hin2. injection Hin2 as ->. rewrite Forall_forall in HF.
    destruct (HF _ (alookup_Some_in _ _ _ Hin)) as [_ Kv]. by apply (IH v2).
Qed.
Lemma leaf_at_no_stamp d l x : leaf_at d l x -> Forall (.≠ "timestamp") l.
Proof.
  induction 1 as [|m k v l x Hs Hin Hl IH]; constructor; [|done]. intros ->. apply Hs.
  exists m. split; [done|]. apply elem_of_list_fmap. by exists ("timestamp", v).
Qed.
Lemma leaf_at_keyed P d l x : keyed P d -> leaf_at d l x -> keyed P x.
Proof.
  intros HK H. revert HK. induction H as [|m k v l x Hs Hin Hl IH]; intros HK; [done|].
  apply IH. apply keyed_map in HK as [_ HF]. rewrite Forall_forall in HF. by destruct (HF _ Hin).
Qed.
Lemma visible_sub (P : string -> Prop) l : Forall P l -> Forall P (visible l).
Proof.
  destruct l as [|k l]; [done|]. inversion 1 as [|? ? Hk Hl]; subst. constructor; [done|].
  rewrite Forall_forall in Hl |- *. intros n [Hn _]%elem_of_list_In%filter_In. by apply Hl, elem_of_list_In.
Qed.
Lemma visible_inv l : visible (visible l) = visible l.
Proof.
  destruct l as [|k l]; [done|]. cbn [visible]. f_equal. induction l as [|n l IH]; [done|]. cbn [List.filter].
  destruct (negb (String.eqb n "children")) eqn:E; [|done]. cbn [List.filter]. by rewrite E, IH.
Qed.
Lemma visible_prefix a b : visible (a ++ b) = a ++ b -> visible a = a.
Proof.
  destruct a as [|k a]; [done|]. cbn [visible app]. intros [= E]. f_equal.
  revert E. induction a as [|n a IH]; [done|]. cbn [app List.filter].
  destruct (negb (String.eqb n "children")) eqn:En; [intros [= E]; f_equal; auto|].
  intros E. exfalso. assert (Hin : In n (List.filter (fun n => negb (String.eqb n "children")) (a ++ b))) by (rewrite E; by left).
  apply filter_In in Hin as [_ Hin]. by rewrite En in Hin.
Qed.
Lemma schema_nodot k : schema_name k -> contains dot k = false.
Proof. intros [_ H]. by apply free_contains. Qed.
Lemma split_names l : l ≠ [] -> Forall schema_name l -> split_on dot (String.concat "." l) = l.
Proof.
  intros Hl H. apply split_concat; [done|]. eapply Forall_impl; [exact H|]. apply schema_nodot.
Qed.
Lemma concat_inj l l' : l ≠ [] -> l' ≠ [] -> Forall schema_name l -> Forall schema_name l' ->
  String.concat "." l = String.concat "." l' -> l = l'.
Proof. intros H1 H2 H3 H4 E. rewrite <- (split_names l), <- (split_names l') by done. by rewrite E. Qed.
Lemma schema_nonempty d : keyed schema_name d -> keyed (.≠ "") d.
Proof. apply keyed_impl. by intros k []. Qed.
Lemma concat_attr ns n : ns ≠ [] -> String.concat "." (ns ++ [n]) = String.concat "." ns +++ "." +++ n.
Proof. destruct ns as [|k ns]; [done|]. intros _. apply concat_snoc. Qed.
Lemma attr_names d ns n x : keyed schema_name d -> attr d ns n x -> Forall schema_name ns ∧ schema_name n ∧
  Forall (.≠ "timestamp") ns ∧ visible ns = ns.
Proof.
  intros HK (l & Hl & E). assert (HP : Forall schema_name (visible l)) by (apply visible_sub; by eapply leaf_at_names).
  assert (HT : Forall (.≠ "timestamp") (visible l)) by (apply visible_sub; by eapply leaf_at_no_stamp).
  rewrite E in HP, HT. apply Forall_app in HP as [H1 H2], HT as [H3 _]. inversion H2; subst.
  split; [done|]. split; [done|]. split; [done|]. apply (visible_prefix ns [n]). rewrite <- E. apply visible_inv.
Qed.
Lemma attr_nil d n x : schema d -> ~ attr d [] n x.
Proof. intros S (l & Hl & E). apply (sc_deep d S) in Hl. rewrite E in Hl. cbn in Hl. lia. Qed.

Lemma leaf_paths_nodup_gen d : forall parent,
  (forall l l' x x', leaf_at d l x -> leaf_at d l' x' -> fold_left full_key l parent = fold_left full_key l' parent -> l = l') ->
  keyed (fun _ => True) d -> NoDup (map fst (leaf parent d)).
Proof.
  induction d as [| | | | | |m IH] using wjson_ind'; intros parent HI HK; try constructor.
  rewrite leaf_map. destruct (alookup "timestamp" m) as [w|] eqn:Et; [cbn; repeat constructor; set_solver|].
  assert (Hs : ~ stamped (WObj m)) by (rewrite stamped_lookup, Et; by intros []).
  apply keyed_map in HK as [HN HF].
  assert (HI' : forall k v l x k' v' l' x', (k, v) ∈ m -> (k', v') ∈ m -> leaf_at v l x -> leaf_at v' l' x' ->
     fold_left full_key l (full_key parent k) = fold_left full_key l' (full_key parent k') -> k = k' ∧ l = l').
  { intros k v l x k' v' l' x' H1 H2 H3 H4 E. assert (G : k :: l = k' :: l').
    { apply (HI (k :: l) (k' :: l') x x'); [by apply (la_in m k v)|by apply (la_in m k' v')|done]. }
    by injection G as -> ->. }
  clear HI Et Hs.
  assert (Hpath : forall k v p, (k, v) ∈ m -> p ∈ map fst (leaf_member parent (k, v)) ->
            exists l x, leaf_at v l x ∧ p = fold_left full_key l (full_key parent k)).
  { intros k v p Hin Hp. unfold leaf_member in Hp. cbn [fst snd] in Hp. destruct (is_mapb v) eqn:Ev.
    - apply elem_of_list_fmap in Hp as ([p' x] & -> & Hp). apply leaf_in in Hp as (l & Hl & ->); [|by apply is_mapb_spec]. eauto.
    - apply elem_of_list_singleton in Hp. exists [], v. split; [|done]. constructor. left. by apply is_mapb_false. }
  induction m as [|[k v] m IHm]; [constructor|]. cbn [List.flat_map].
  inversion IH as [|? ? Hv IH']; subst. inversion HF as [|? ? [_ Hkv] HF']; subst. cbn [map fst] in HN.
  inversion HN as [|? ? Hnin HN']; subst. rewrite map_app. apply NoDup_app. split; [|split].
  - unfold leaf_member. cbn [fst snd]. destruct (is_mapb v) eqn:Ev; [|repeat constructor; set_solver].
    apply Hv; [|done]. intros l l' x x' H1 H2 E. apply (HI' k v l x k v l' x'); [by left|by left|done..].
  - intros p Hp Hp'. apply (Hpath k v) in Hp as (l & x & Hl & ->); [|by left].
    apply elem_of_list_fmap in Hp' as ([p' x'] & E & Hp'). apply elem_of_list_In, in_flat_map in Hp' as ([k2 v2] & Hin2%elem_of_list_In & Hp').
    assert (Hp2 : p' ∈ map fst (leaf_member parent (k2, v2))).
    { apply elem_of_list_fmap. exists (p', x'). split; [done|]. by apply elem_of_list_In. }
    apply (Hpath k2 v2) in Hp2 as (l2 & x2 & Hl2 & ->); [|by right]. cbn [fst] in E.
    destruct (HI' k v l x k2 v2 l2 x2) as [-> _]; [by left|by right|done..|].
    apply Hnin. apply elem_of_list_fmap. by exists (k2, v2).
  - apply IHm; try done.
    + intros k1 v1 l1 x1 k2 v2 l2 x2 H1 H2. apply HI'; by right.
    + intros k' v' p Hin. apply Hpath. by right.
Qed.
Lemma leaf_nodes_distinct d : keyed schema_name d ->
  (forall l l' x x', leaf_at d l x -> leaf_at d l' x' -> visible l = visible l' -> l = l') -> NoDup (map fst (leaf_nodes d)).
Proof.
  intros HK HD. apply leaf_paths_nodup_gen; [|by eapply keyed_impl; [|exact HK]].
  intros l l' x x' Hl Hl' E. apply (HD l l' x x'); [done|done|].
  assert (N1 := leaf_at_names _ _ _ _ HK Hl). assert (N2 := leaf_at_names _ _ _ _ HK Hl').
  assert (Hne : forall l, Forall schema_name l -> Forall (.≠ "") l) by (intros ? H; eapply Forall_impl; [exact H|]; by intros ? []).
  change "" with (dotted []) in E. rewrite !dotted_fold in E by (constructor || by apply Hne). cbn [app] in E. unfold dotted in E.
  assert (V1 := visible_sub _ _ N1). assert (V2 := visible_sub _ _ N2).
  destruct (decide (visible l = [])) as [E1|E1].
  - rewrite E1 in E |- *. destruct (visible l') as [|k' r']; [done|]. inversion V2 as [|? ? [Hk _]]; subst.
    by destruct (concat_nonempty k' r').
  - destruct (decide (visible l' = [])) as [E2|E2].
    + rewrite E2 in E |- *. destruct (visible l) as [|k' r']; [done|]. inversion V1 as [|? ? [Hk _]]; subst.
      by destruct (concat_nonempty k' r').
    + by apply concat_inj.
Qed.
Lemma schema_group d : schema d -> exists G, group (leaf_nodes d) [] = Ok G ∧ NoDup (akeys G) ∧
  (forall p meta, alookup p G = Some meta -> exists ns, ns ≠ [] ∧ p = String.concat "." ns ∧ node d ns ∧
      forall n x, has meta n x <-> attr d ns n x) ∧
  (forall ns, node d ns -> is_Some (alookup (String.concat "." ns) G)).
Proof.
  intros S. destruct S as [Sm Sn Sd Si Sf Sa].
  assert (S : schema d) by (by constructor).
  assert (Hin : forall p x, (p, x) ∈ leaf_nodes d <-> exists l, leaf_at d l x ∧ p = dotted l).
  { intros p x. apply leaf_nodes_spec; [done|]. by apply schema_nonempty. }
  assert (Hnode : forall l x, leaf_at d l x -> exists ns n, visible l = ns ++ [n] ∧ ns ≠ []).
  { intros l x Hl. apply Sd in Hl. destruct (exists_last (l := visible l)) as (ns & n & E); [by intros E; rewrite E in Hl; cbn in Hl; lia|].
    exists ns, n. split; [done|]. intros ->. rewrite E in Hl. cbn in Hl. lia. }
  assert (Hlast : forall ns n x, attr d ns n x -> last_dot (String.concat "." (ns ++ [n])) = Some (String.concat "." ns, n)).
  { intros ns n x Ha. assert (Hne : ns ≠ []) by (intros ->; by destruct (attr_nil d n x S)).
    rewrite concat_attr by done. apply last_dot_app. apply (attr_names d) in Ha as (_ & Hn & _); [|done]. by apply schema_nodot. }
  assert (Hkey : forall p n x, keyat (leaf_nodes d) p n x <-> exists ns, p = String.concat "." ns ∧ attr d ns n x).
  { intros p n x. split.
    - intros (key & (l & Hl & ->)%Hin & E). destruct (Hnode _ _ Hl) as (ns & n' & Ev & Hne).
      assert (Ha : attr d ns n' x) by (by exists l). unfold dotted in E. rewrite Ev, (Hlast _ _ _ Ha) in E.
      injection E as <- <-. by exists ns.
    - intros (ns & -> & Ha). exists (String.concat "." (ns ++ [n])). split; [|by eapply Hlast].
      destruct Ha as (l & Hl & E). apply Hin. exists l. split; [done|]. unfold dotted. by rewrite E. }
  destruct (group_ok (leaf_nodes d) []) as (G & E & G1 & G2 & G3).
  - intros key x (l & Hl & ->)%Hin. destruct (Hnode _ _ Hl) as (ns & n' & Ev & Hne).
    assert (Ha : attr d ns n' x) by (by exists l). unfold dotted. rewrite Ev, (Hlast _ _ _ Ha). done.
  - by apply leaf_nodes_distinct.
  - constructor.
  - done.
  - assert (G3' : forall p n x, glook G p n = Some x <-> exists ns, p = String.concat "." ns ∧ attr d ns n x).
    { intros p n x. rewrite G3, <- Hkey. split; [|by left]. intros [H|[_ H]]; done. }
    exists G. split; [done|]. split; [done|]. split.
    + intros p meta Hp. assert (Hmeta := G2 _ _ Hp). destruct meta as [|[n0 x0] meta]; [done|].
      assert (H0 : glook G p n0 = Some x0) by (unfold glook; rewrite Hp; cbn; by rewrite decide_True).
      apply G3' in H0 as (ns & -> & Ha). exists ns.
      assert (Hne : ns ≠ []) by (intros ->; by destruct (attr_nil d n0 x0 S)).
      split; [done|]. split; [done|]. split; [by exists n0, x0|]. intros n x. split.
      * intros Hx. assert (H1 : glook G (String.concat "." ns) n = Some x) by (unfold glook; by rewrite Hp).
        apply G3' in H1 as (ns' & E' & Ha'). assert (Hne' : ns' ≠ []) by (intros ->; by destruct (attr_nil d n x S)).
        apply concat_inj in E'; [by subst|done|done| |].
        -- by apply (attr_names d ns n0 x0).
        -- by apply (attr_names d ns' n x).
      * intros Hx. assert (H1 : glook G (String.concat "." ns) n = Some x) by (apply G3'; eauto).
        unfold glook in H1. by rewrite Hp in H1.
    + intros ns (n & x & Ha). assert (H1 : glook G (String.concat "." ns) n = Some x) by (apply G3'; eauto).
      unfold glook in H1. destruct (alookup (String.concat "." ns) G); [done|done].
Qed.

(** ** Generate *)
Lemma fair_shift D : fair D -> fair (shift D).
Proof. intros [H1 H2]. split; [intros n; apply H1|done]. Qed.
Definition chosen (size : f64) (R : string -> draws) (pm : string * members) : bool :=
  negb (f64_lt size (d_float (R (fst pm)) 0)).
Definition drawn (R : string -> draws) (ts : Z) (pm : string * members) : option wjson :=
  match gen_value (shift (R (fst pm))) ts (snd pm) with Ok v => v | _ => None end.
Lemma gen_nodes_place size R ts l : forall acc,
  (forall pm, pm ∈ l -> gen_value (shift (R (fst pm))) ts (snd pm) = Ok (drawn R ts pm)) ->
  gen_nodes size R ts l acc =
  place_all (map (fun pm => (split_on dot (fst pm), drawn R ts pm)) (List.filter (chosen size R) l)) acc.
Proof.
  induction l as [|[p meta] l IH]; intros acc H; [done|]. cbn [gen_nodes List.filter].
  assert (IH' : forall acc, gen_nodes size R ts l acc =
    place_all (map (fun pm => (split_on dot (fst pm), drawn R ts pm)) (List.filter (chosen size R) l)) acc).
  { intros acc'. apply IH. intros pm Hpm. apply H. by right. }
  unfold chosen at 1. cbn [fst]. destruct (f64_lt size (d_float (R p) 0)); cbn [negb]; [apply IH'|].
  assert (E := H (p, meta) ltac:(by left)). cbn [fst snd] in E. rewrite E. cbn [rbind map place_all fst].
  destruct (place (drawn R ts (p, meta)) (split_on dot p) acc); [|done|done]. cbn [rbind]. apply IH'.
Qed.
Lemma reading_stamped v ts : stamped (reading v ts).
Proof. eexists. split; [done|]. cbn. set_solver. Qed.
Lemma leaf_at_leaf x l y : ~ is_map x ∨ stamped x -> leaf_at x l y <-> l = [] ∧ y = x.
Proof.
  intros Hx. split.
  - inversion 1 as [|m k v l' y' Hs Hin Hv]; subst; [done|]. destruct Hx as [Hx|Hx]; [destruct Hx; by eexists|done].
  - intros [-> ->]. by constructor.
Qed.
Lemma reading_keyed v ts : keyed schema_name v -> keyed schema_name (reading v ts).
Proof.
  intros Hv. apply keyed_map. split.
  - cbn. constructor; [set_solver|]. constructor; [set_solver|constructor].
  - constructor; [|constructor; [|constructor]]; cbn [fst snd].
    + split; [|done]. split; [done|]. apply free_contains. done.
    + split; [split; [done|by apply free_contains]|]. apply ky_scalar; [by intros []|done].
Qed.
Lemma scalar_keyed P v : plain_value v -> keyed P v.
Proof. intros H. apply ky_scalar; destruct v; try done; by intros []. Qed.
Lemma in_range_plain t v : in_range t v -> plain_value v.
Proof. by destruct 1. Qed.
Lemma fits_leaf A ts x : fits A ts x -> ~ is_map x ∨ stamped x.
Proof. destruct 1; try (right; apply reading_stamped). left. by intros []. Qed.
Lemma fits_keyed (A : string -> wjson -> Prop) ts x : (forall l, A "allowed" (WArr l) -> Forall (keyed schema_name) l) -> fits A ts x -> keyed schema_name x.
Proof.
  intros HA. destruct 1 as [b H|t z H1 H2 H3|f H1 H2 H3|l v H1 H2 H3|t v H1 H2 H3 H4|t l H1 H2 H3 H4 H5|H1 H2];
    try (apply reading_keyed; by apply scalar_keyed).
  - apply reading_keyed. apply HA in H2. rewrite Forall_forall in H2. by apply H2.
  - apply reading_keyed, scalar_keyed. by eapply in_range_plain.
  - apply ky_arr. eapply Forall_impl; [exact H5|]. intros y (v & Hv & ->). apply reading_keyed, scalar_keyed. by eapply in_range_plain.
  - apply reading_keyed. apply ky_scalar; [by intros []|done].
Qed.
Lemma pairs_of {A B} (f : A -> B) (R : B -> B -> Prop) (l : list A) : NoDup l ->
  (forall x y, x ∈ l -> y ∈ l -> x ≠ y -> R (f x) (f y)) -> ForallOrdPairs R (map f l).
Proof.
  induction 1 as [|x l Hx HN IH]; intros H; [constructor|]. cbn [map]. constructor.
  - apply Forall_forall. intros b (y & -> & Hy)%elem_of_list_fmap. apply H; [by left|by right|]. by intros ->.
  - apply IH. intros y z Hy Hz. apply H; by right.
Qed.
Lemma NoDup_list_filter {A} (f : A -> bool) l : NoDup l -> NoDup (List.filter f l).
Proof.
  induction 1 as [|x l Hx HN IH]; [constructor|]. cbn [List.filter]. destruct (f x); [|done].
  constructor; [|done]. intros [H _]%elem_of_list_In%filter_In. by apply Hx, elem_of_list_In.
Qed.
Lemma generate_exact size R ord ts b d : schema d -> (forall p, fair (R p)) -> (forall l, ord l ≡ₚ l) ->
  exists r, generate size R ord ts (Vss b d) = Ok (Vss true r) ∧ is_map r ∧ ~ stamped r ∧ keyed schema_name r ∧
    (forall q x, leaf_at r q x -> node d q ∧ SFltb size (d_float (R (String.concat "." q)) 0) = false ∧ fits (attr d q) ts x) ∧
    (forall q, node d q -> SFltb size (d_float (R (String.concat "." q)) 0) = false -> known (attr d q) -> exists x, leaf_at r q x) ∧
    (exists m L, r = WObj m ∧ place_all L [] = Ok m ∧ (forall q x, leaf_at r q x -> (q, Some x) ∈ L) ∧
       forall q v, (q, v) ∈ L -> q ≠ [] ∧ node d q ∧ exists meta, (forall n y, has meta n y <-> attr d q n y) ∧
         gen_value (shift (R (String.concat "." q))) ts meta = Ok v).
Proof.
  intros S HR Hord. destruct (schema_group d S) as (G & E & G1 & G2 & G3).
  assert (Hin : forall pm, pm ∈ ord G <-> alookup (fst pm) G = Some (snd pm)).
  { intros [p meta]. rewrite Hord. cbn [fst snd]. symmetry. by apply alookup_iff. }
  (* what is drawn for a node *)
  assert (Hgen : forall pm, pm ∈ ord G -> exists ns, ns ≠ [] ∧ fst pm = String.concat "." ns ∧ node d ns ∧ Forall schema_name ns ∧
     Forall (.≠ "timestamp") ns ∧
     gen_value (shift (R (fst pm))) ts (snd pm) = Ok (drawn R ts pm) ∧
     (forall x, drawn R ts pm = Some x -> fits (attr d ns) ts x) ∧ (known (attr d ns) -> drawn R ts pm ≠ None) ∧
     (forall n y, has (snd pm) n y <-> attr d ns n y)).
  { intros [p meta] Hpm. apply Hin in Hpm. cbn [fst snd] in Hpm |- *. destruct (G2 _ _ Hpm) as (ns & Hne & -> & Hn & HA).
    exists ns. split; [done|]. split; [done|]. split; [done|]. destruct Hn as (n & x & Ha).
    destruct (attr_names d ns n x (sc_names d S) Ha) as (N1 & _ & N3 & _). split; [done|]. split; [done|].
    destruct (gen_value_ok (shift (R (String.concat "." ns))) ts meta) as (v & Ev & Hv1 & Hv2).
    - by apply fair_shift.
    - intros y Hy. apply HA in Hy. by apply (sc_allowed d S ns).
    - assert (Ed : drawn R ts (String.concat "." ns, meta) = v) by (unfold drawn; cbn [fst snd]; by rewrite Ev).
      rewrite Ed. split; [done|]. split.
      + intros y Hy. apply (fits_ext (has meta)); [done|by apply Hv1].
      + split; [|done]. intros Hk. apply Hv2. apply (known_ext (attr d ns)); [|done]. intros n' y. symmetry. apply HA. }
  unfold generate. cbn [v_data]. rewrite E. cbn [rbind]. rewrite gen_nodes_place by (intros pm Hpm; by destruct (Hgen _ Hpm) as (? & ? & ? & ? & ? & ? & ? & _)).
  set (K := List.filter (chosen size R) (ord G)).
  assert (HK : forall pm, pm ∈ K <-> pm ∈ ord G ∧ chosen size R pm = true).
  { intros pm. unfold K. by rewrite elem_of_list_In, filter_In, <- elem_of_list_In. }
  assert (Hkey : forall pm ns, pm ∈ ord G -> ns ≠ [] -> Forall schema_name ns -> fst pm = String.concat "." ns -> split_on dot (fst pm) = ns).
  { intros pm ns _ Hne HN ->. by apply split_names. }
  destruct (place_all_ok schema_name (map (fun pm => (split_on dot (fst pm), drawn R ts pm)) K) []) as (m & Em & Km & Um & Lm).
  - apply keyed_nil.
  - apply unstamped_nil.
  - apply Forall_forall. intros lv (pm & -> & [Hpm _]%HK)%elem_of_list_fmap. cbn [fst snd].
    destruct (Hgen _ Hpm) as (ns & Hne & Hp & Hn & HN & HT & _ & Hf & _).
    rewrite (Hkey pm ns) by done. split; [by apply free_way_nil|]. split; [|done].
    destruct (drawn R ts pm) as [x|] eqn:Ex; [|apply keyed_nil]. cbn [default].
    apply (fits_keyed (attr d ns) ts); [|by apply Hf]. intros l (l' & Hl & _).
    apply (leaf_at_keyed _ _ _ _ (sc_names d S)) in Hl. inversion Hl as [|? HF|? _ Hd]; subst; [done|by destruct (Hd l)].
  - apply (pairs_of (fun pm : string * members => (split_on dot (fst pm), drawn R ts pm)) (fun a b => unrelated (fst a) (fst b))).
    + apply NoDup_list_filter. rewrite Hord. apply NoDup_fmap_1 with (f := fst). exact G1.
    + intros pm pm' [H1 _]%HK [H2 _]%HK Hne. cbn [fst].
      destruct (Hgen _ H1) as (ns & N1 & P1 & D1 & S1 & _). destruct (Hgen _ H2) as (ns' & N2 & P2 & D2 & S2 & _).
      rewrite (Hkey pm ns), (Hkey pm' ns') by done.
      assert (Hnn : ns ≠ ns').
      { intros ->. apply Hne. apply Hin in H1, H2. rewrite P1 in H1. rewrite P2 in H2. rewrite H1 in H2.
        destruct pm, pm'. cbn in *. congruence. }
      split; intros Hpre; apply Hnn; [|symmetry]; by apply (sc_flat d S).
  - rewrite Em. cbn [rbind]. exists (WObj m). split; [done|]. split; [by eexists|]. split; [done|]. split; [done|]. split.
    + intros q x. rewrite Lm. intros [H|(l & v & r & Hl & -> & Hr)]; [by destruct (leaf_at_empty _ _ H)|].
      apply elem_of_list_fmap in Hl as (pm & [= -> ->] & [Hpm Hc]%HK).
      destruct (Hgen _ Hpm) as (ns & Hne & Hp & Hn & HN & HT & _ & Hf & _). rewrite (Hkey pm ns) by done.
      destruct (drawn R ts pm) as [y|]; [|by destruct (leaf_at_empty _ _ Hr)]. specialize (Hf y eq_refl).
      cbn [default] in Hr. apply leaf_at_leaf in Hr as [-> ->]; [|by eapply fits_leaf]. rewrite app_nil_r.
      split; [done|]. split; [|done]. unfold chosen in Hc. rewrite <- Hp. by apply negb_true_iff in Hc.
    + split; [|exists m, (map (fun pm => (split_on dot (fst pm), drawn R ts pm)) K); split; [done|]; split; [done|]; split].
      all: cycle 1.
      { intros q x. rewrite Lm. intros [H|(l & v & r & Hl & -> & Hr)]; [by destruct (leaf_at_empty _ _ H)|].
        destruct (proj1 (elem_of_list_fmap _ _ _) Hl) as (pm & [= -> ->] & [Hpm Hc]%HK).
        destruct (Hgen _ Hpm) as (ns & Hne & Hp & Hn & HN & HT & _ & Hf & _).
        destruct (drawn R ts pm) as [y|]; [|by destruct (leaf_at_empty _ _ Hr)]. specialize (Hf y eq_refl).
        cbn [default] in Hr. apply leaf_at_leaf in Hr as [-> ->]; [|by eapply fits_leaf]. by rewrite app_nil_r. }
      { intros q v (pm & [= -> ->] & [Hpm _]%HK)%elem_of_list_fmap. destruct (Hgen _ Hpm) as (ns & Hne & Hp & Hn & HN & HT & Hv & _ & _ & HA).
        rewrite (Hkey pm ns) by done. split; [done|]. split; [done|]. exists (snd pm). split; [done|]. by rewrite <- Hp. }
      intros q Hn Hc Hk. destruct (G3 q Hn) as [meta Hm]. set (pm := (String.concat "." q, meta)).
      assert (Hpm : pm ∈ ord G) by (by apply Hin). destruct (Hgen _ Hpm) as (ns & Hne & Hp & Hn' & HN & HT & _ & Hf & Hd & _).
      assert (Hns : ns = q).
      { destruct Hn as (n & x & Ha). apply concat_inj; [done| |done| |].
        - intros ->. by destruct (attr_nil d n x S).
        - by destruct (attr_names d q n x (sc_names d S) Ha).
        - symmetry. exact Hp. }
      subst ns. specialize (Hd Hk). destruct (drawn R ts pm) as [x|] eqn:Ex; [|done].
      exists x. apply Lm. right. exists q, (Some x), []. split.
      * apply elem_of_list_fmap. exists pm. rewrite Ex, (Hkey pm q) by done. split; [done|]. apply HK. split; [done|].
        unfold chosen. cbn [pm fst]. apply negb_true_iff. exact Hc.
      * split; [by rewrite app_nil_r|]. cbn [default]. apply leaf_at_leaf; [|done]. by eapply fits_leaf, Hf.
Qed.

Lemma generate_ok size R ord ts b d : schema d -> (forall p, fair (R p)) -> (forall l, ord l ≡ₚ l) ->
  exists r, generate size R ord ts (Vss b d) = Ok (Vss true r) ∧ is_map r ∧ ~ stamped r ∧ keyed schema_name r ∧
    (forall q x, leaf_at r q x -> node d q ∧ SFltb size (d_float (R (String.concat "." q)) 0) = false ∧ fits (attr d q) ts x) ∧
    (forall q, node d q -> SFltb size (d_float (R (String.concat "." q)) 0) = false -> known (attr d q) -> exists x, leaf_at r q x).
Proof.
  intros S HR Hord. destruct (generate_exact size R ord ts b d S HR Hord) as (r & H1 & H2 & H3 & H4 & H5 & H6 & _). by exists r.
Qed.
