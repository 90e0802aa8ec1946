(** Facts about the vehicle data generator: reading the schema. *)
From Verif Require Import Base BaseLemmas BaseSpec Tjson TjsonSpec TjsonLemmas F64 Bytes BytesLemmas Vss VssSpec.
From Coq Require Import Lia.

(** ** removeKeys *)
Definition is_mapb (d : wjson) : bool := match d with WObj _ => true | _ => false end.
Lemma is_mapb_spec d : is_mapb d = true <-> is_map d.
Proof. split; [destruct d; try done; intros _; by eexists|by intros [m ->]]. Qed.
Lemma is_mapb_false d : is_mapb d = false <-> ~ is_map d.
Proof. rewrite <- is_mapb_spec. by destruct (is_mapb d). Qed.
Definition remove_in (keys : list string) (kv : string * wjson) : string * wjson := (fst kv, remove keys (snd kv)).
Definition stays (keys : list string) (m : members) (kv : string * wjson) : bool :=
  unlisted keys kv || forallb (fun kv => is_mapb (snd kv)) m.
Lemma remove_scalar keys d : ~ is_map d -> remove keys d = d.
Proof. intros H. destruct d; try done. destruct H. by eexists. Qed.
Lemma remove_loop keys todo : forall deleted seen,
  (fix loop (deleted : bool) (seen todo : members) : members :=
     match todo with
     | [] => seen
     | (k, v) :: todo' =>
         if deleted && bool_decide (k ∈ keys) then loop deleted seen todo'
         else match v with
              | WObj _ => loop deleted (seen ++ [(k, remove keys v)]) todo'
              | _ => loop true (List.filter (unlisted keys) (seen ++ [(k, v)])) todo'
              end
     end) deleted seen todo =
  if deleted then
    if forallb (unlisted keys) seen then seen ++ map (remove_in keys) (List.filter (unlisted keys) todo) else
    (fix loop (deleted : bool) (seen todo : members) : members :=
     match todo with
     | [] => seen
     | (k, v) :: todo' =>
         if deleted && bool_decide (k ∈ keys) then loop deleted seen todo'
         else match v with
              | WObj _ => loop deleted (seen ++ [(k, remove keys v)]) todo'
              | _ => loop true (List.filter (unlisted keys) (seen ++ [(k, v)])) todo'
              end
     end) deleted seen todo
  else if forallb (fun kv => is_mapb (snd kv)) todo then seen ++ map (remove_in keys) todo
  else List.filter (unlisted keys) seen ++ map (remove_in keys) (List.filter (unlisted keys) todo).
Proof.
  assert (FF : forall l, forallb (unlisted keys) (List.filter (unlisted keys) l) = true).
  { intros l. apply forallb_forall. intros x Hx%filter_In. tauto. }
  assert (Fid : forall l, forallb (unlisted keys) l = true -> List.filter (unlisted keys) l = l).
  { intros l. induction l as [|x l IH]; [done|]. cbn. intros [-> Hl]%andb_true_iff. by rewrite IH. }
  induction todo as [|[k v] todo IH]; intros deleted seen.
  { destruct deleted.
    - destruct (forallb (unlisted keys) seen); [|done]. cbn. by rewrite app_nil_r.
    - cbn. by rewrite app_nil_r. }
  destruct deleted.
  - destruct (forallb (unlisted keys) seen) eqn:Es; [|done].
    cbn [andb List.filter unlisted fst]. destruct (bool_decide (k ∈ keys)) eqn:Ek; cbn [negb].
    + rewrite IH, Es. unfold unlisted at 2. cbn [fst]. by rewrite Ek.
    + assert (Eu : unlisted keys (k, v) = true) by (unfold unlisted; cbn [fst]; by rewrite Ek).
      rewrite Eu. cbn [map].
      assert (Es' : forall w, forallb (unlisted keys) (seen ++ [(k, w)]) = true).
      { intros w. rewrite forallb_app, Es. cbn. unfold unlisted. cbn [fst]. by rewrite Ek. }
      destruct v; rewrite IH; rewrite ?FF, ?Es', ?Fid by apply Es'; rewrite <- app_assoc; done.
  - cbn [andb]. cbn [forallb snd].
    destruct v as [| | | | | |n]; cbn [is_mapb andb];
      try (rewrite IH, FF, List.filter_app, <- app_assoc; cbn [List.filter];
           destruct (unlisted keys (k, _)) eqn:Eu; done).
    rewrite IH. destruct (forallb (fun kv => is_mapb (snd kv)) todo) eqn:Ea.
    + cbn [map]. rewrite <- app_assoc. done.
    + rewrite List.filter_app, <- app_assoc. cbn [List.filter].
      change (unlisted keys (k, remove keys (WObj n))) with (unlisted keys (k, WObj n)).
      by destruct (unlisted keys (k, WObj n)).
Qed.
Lemma remove_map keys m : remove keys (WObj m) = WObj (map (remove_in keys) (List.filter (stays keys m) m)).
Proof.
  cbn [remove]. f_equal. rewrite remove_loop. unfold stays.
  destruct (forallb (fun kv => is_mapb (snd kv)) m).
  - cbn [app]. f_equal. induction m as [|x m IH]; [done|]. cbn [List.filter]. rewrite orb_true_r. f_equal. exact IH.
  - cbn [List.filter app]. f_equal. induction m as [|x m IH]; [done|]. cbn [List.filter]. rewrite orb_false_r.
    destruct (unlisted keys x); [f_equal|]; exact IH.
Qed.
Lemma remove_is_map keys d : is_map (remove keys d) <-> is_map d.
Proof.
  destruct d; try done. rewrite remove_map. split; intros _; by eexists.
Qed.
Lemma stays_spec keys m k v : stays keys m (k, v) = true <-> k ∉ keys ∨ (forall kv, kv ∈ m -> is_map (snd kv)).
Proof.
  unfold stays, unlisted. cbn [fst]. rewrite orb_true_iff, negb_true_iff, bool_decide_eq_false, forallb_forall.
  apply or_iff_compat_l. split; intros H kv Hin; apply is_mapb_spec, H; by apply elem_of_list_In.
Qed.
Lemma remove_item keys d : forall l x', item (remove keys d) l x' <-> exists x, kept keys d l x ∧ x' = remove keys x.
Proof.
  induction d as [| | | | | |m IH] using wjson_ind'; intros l' x';
    try (rewrite remove_scalar by (by intros []); split; [inversion 1; subst; eexists; split; [constructor|by rewrite remove_scalar by (by intros [])]|
                 intros (x & Hx & ->); inversion Hx; subst; rewrite remove_scalar by (by intros []); constructor]).
    rewrite remove_map. rewrite Forall_forall in IH. split.
  - inversion 1 as [|m' k v l x Hin Hi]; subst; [exists (WObj m); rewrite remove_map; split; [constructor|done]|].
    apply elem_of_list_In, in_map_iff in Hin as ([k' v'] & [= <- <-] & [Hin Hs]%filter_In).
    apply elem_of_list_In in Hin. apply stays_spec in Hs. apply (IH _ Hin) in Hi as (x & Hk & ->).
    exists x. split; [|done]. by apply (kp_in keys m k' v').
  - intros (x & H & ->). inversion H as [|m' k v l x0 Hin Hs Hk]; subst; [rewrite remove_map; constructor|].
    apply (it_in _ k (remove keys v)).
    + apply elem_of_list_In, in_map_iff. exists (k, v). split; [done|]. apply filter_In.
      split; [by apply elem_of_list_In|by apply stays_spec].
    + apply (IH _ Hin). by exists x.
Qed.
Lemma kept_item keys d l x : kept keys d l x -> item d l x.
Proof. induction 1; econstructor; eauto. Qed.

Lemma new_vss_spec file : (is_map file -> exists d, new_vss file = Ok (Vss false d) ∧ is_map d ∧
     (forall l x, ~ is_map x -> item d l x <-> kept dropped_keys file l x) ∧
     (forall l, (exists x, is_map x ∧ item d l x) <-> exists x, is_map x ∧ kept dropped_keys file l x)) ∧
  (~ is_map file -> new_vss file = Panic).
Proof.
  split.
  - intros Hm. exists (remove dropped_keys file). split; [destruct Hm as [m ->]; done|].
    split; [by apply remove_is_map|]. split.
    + intros l x Hx. rewrite remove_item. split.
      * intros (y & Hy & ->). rewrite remove_is_map in Hx. by rewrite remove_scalar.
      * intros Hk. exists x. split; [done|]. by rewrite remove_scalar.
    + intros l. split.
      * intros (x & Hx & (y & Hy & ->)%remove_item). exists y. by rewrite remove_is_map in Hx.
      * intros (x & Hx & Hk). exists (remove dropped_keys x). rewrite remove_is_map, remove_item. eauto.
  - intros H. destruct file; try done. destruct H. by eexists.
Qed.
Lemma remove_twice keys d : remove keys (remove keys d) = remove keys d.
Proof.
  induction d as [| | | | | |m IH] using wjson_ind'; try done.
  rewrite !remove_map. f_equal. set (m' := List.filter (stays keys m) m).
  assert (IH' : Forall (fun kv => remove keys (remove keys (snd kv)) = remove keys (snd kv)) m').
  { apply Forall_forall. intros x [Hx%elem_of_list_In _]%elem_of_list_In%filter_In.
    rewrite Forall_forall in IH. by apply IH. }
  assert (St : Forall (fun kv => stays keys (map (remove_in keys) m') kv = true) (map (remove_in keys) m')).
  { apply Forall_forall. intros kv. rewrite elem_of_list_In, in_map_iff. intros ([k v] & <- & [Hin Hs]%filter_In).
    unfold remove_in at 2. cbn [fst snd]. apply stays_spec. apply stays_spec in Hs as [Hs|Hs]; [by left|right].
    intros kv. rewrite elem_of_list_In, in_map_iff. intros ([k2 v2] & <- & [Hin2 _]%filter_In). cbn [remove_in snd].
    apply remove_is_map. apply (Hs (k2, v2)). by apply elem_of_list_In. }
  assert (Fid : forall l, Forall (fun kv => stays keys (map (remove_in keys) m') kv = true) l ->
            List.filter (stays keys (map (remove_in keys) m')) l = l).
  { induction 1 as [|x l Hx Hl IHl]; [done|]. cbn [List.filter]. by rewrite Hx, IHl. }
  rewrite Fid by done. rewrite map_map. apply map_ext_in. intros kv Hin.
  unfold remove_in. cbn [fst snd]. f_equal. rewrite Forall_forall in IH'. by apply IH', elem_of_list_In.
Qed.

(** ** LeafNodes *)
Lemma leaf_scalar parent d : ~ is_map d -> leaf parent d = [].
Proof. intros H. destruct d; try done. destruct H. by eexists. Qed.
Definition leaf_member (parent : string) (kv : string * wjson) : members :=
  if is_mapb (snd kv) then leaf (full_key parent (fst kv)) (snd kv) else [(full_key parent (fst kv), snd kv)].
Lemma leaf_map parent m : leaf parent (WObj m) =
  match alookup "timestamp" m with Some _ => [(parent, WObj m)] | None => List.flat_map (leaf_member parent) m end.
Proof.
  cbn [leaf]. destruct (alookup "timestamp" m); [done|].
  induction m as [|[k v] m IH]; [done|]. cbn [List.flat_map]. rewrite <- IH. unfold leaf_member. cbn [fst snd].
  by destruct v.
Qed.
Lemma stamped_lookup m : stamped (WObj m) <-> is_Some (alookup "timestamp" m).
Proof.
  split.
  - intros (m' & [= <-] & H). destruct (alookup "timestamp" m) eqn:E; [done|]. by apply alookup_None_iff in E.
  - intros H. exists m. split; [done|]. destruct (decide ("timestamp" ∈ akeys m)) as [|N]; [done|].
    apply alookup_None_iff in N. rewrite N in H. by destruct H.
Qed.
Lemma leaf_in d : forall parent p x, is_map d ->
  (p, x) ∈ leaf parent d <-> exists l, leaf_at d l x ∧ p = fold_left full_key l parent.
Proof.
  induction d as [| | | | | |m IH] using wjson_ind'; intros parent p x Hm; try by destruct Hm.
  clear Hm. rewrite leaf_map. destruct (alookup "timestamp" m) as [w|] eqn:Et.
  - assert (Hs : stamped (WObj m)) by (apply stamped_lookup; by rewrite Et).
    rewrite elem_of_list_singleton. split.
    + intros [= -> ->]. exists []. split; [|done]. constructor. by right.
    + intros (l & Hl & ->). inversion Hl; subst; done.
  - assert (Hs : ~ stamped (WObj m)) by (rewrite stamped_lookup, Et; by intros []).
    rewrite elem_of_list_In, in_flat_map. rewrite Forall_forall in IH. split.
    + intros ([k v] & Hin%elem_of_list_In & Hx). unfold leaf_member in Hx. cbn [fst snd] in Hx.
      destruct (is_mapb v) eqn:Ev.
      * apply elem_of_list_In in Hx. apply (IH _ Hin) in Hx as (l & Hl & ->); [|by apply is_mapb_spec].
        exists (k :: l). split; [|done]. by apply (la_in m k v).
      * destruct Hx as [[= <- <-]|[]]. exists [k]. split; [|done]. apply (la_in m k v); [done|done|].
        constructor. left. by apply is_mapb_false.
    + intros (l & Hl & ->). inversion Hl as [d Hd|m' k v l' x' _ Hin Hv]; subst.
      { destruct Hd as [Hd|Hd]; [destruct Hd; by eexists|done]. }
      exists (k, v). split; [by apply elem_of_list_In|]. unfold leaf_member. cbn [fst snd].
      destruct (is_mapb v) eqn:Ev.
      * apply elem_of_list_In, (IH _ Hin); [by apply is_mapb_spec|]. by exists l'.
      * apply is_mapb_false in Ev. inversion Hv; subst; [by left|]. destruct Ev. by eexists.
Qed.
Definition no_children (n : string) : bool := negb (String.eqb n "children").
Lemma concat_snoc k l k' : String.concat "." (k :: l ++ [k']) = String.concat "." (k :: l) +++ "." +++ k'.
Proof.
  revert k. induction l as [|b l IH]; intros k; [done|].
  cbn [app]. change (k +++ "." +++ String.concat "." (b :: l ++ [k']) = (k +++ "." +++ String.concat "." (b :: l)) +++ "." +++ k').
  rewrite IH. by rewrite !sapp_assoc.
Qed.
Lemma concat_nonempty k l : k ≠ "" -> String.concat "." (k :: l) ≠ "".
Proof. destruct k; [done|]. by destruct l. Qed.
Lemma dotted_snoc l k : Forall (.≠ "") l -> full_key (dotted l) k = dotted (l ++ [k]).
Proof.
  intros H. destruct l as [|b l]; [done|]. inversion H; subst.
  unfold full_key. unfold dotted. cbn [visible app]. rewrite decide_False by by apply concat_nonempty.
  rewrite List.filter_app. cbn [List.filter]. case_decide as Hk.
  - subst k. cbn. by rewrite app_nil_r.
  - destruct (String.eqb_spec k "children"); [done|]. cbn [negb]. by rewrite concat_snoc.
Qed.
Lemma dotted_fold l : forall l0, Forall (.≠ "") l0 -> Forall (.≠ "") l -> fold_left full_key l (dotted l0) = dotted (l0 ++ l).
Proof.
  induction l as [|k l IH]; intros l0 H0 H; cbn [fold_left]; [by rewrite app_nil_r|].
  inversion H; subst. rewrite dotted_snoc by done. rewrite IH; [by rewrite <- app_assoc| |done].
  apply Forall_app. split; [done|by constructor].
Qed.
Lemma leaf_at_names P d l x : keyed P d -> leaf_at d l x -> Forall P l.
Proof.
  intros HP H. revert HP. induction H as [d Hd|m k v l x Hs Hin Hl IH]; intros HP; [constructor|].
  inversion HP as [m' _ HF| |d Hd]; subst; [|destruct Hd; by eexists].
  rewrite Forall_forall in HF. destruct (HF _ Hin). constructor; [done|]. by apply IH.
Qed.
Lemma leaf_nodes_spec d p x : is_map d -> keyed (.≠ "") d ->
  (p, x) ∈ leaf_nodes d <-> exists l, leaf_at d l x ∧ p = dotted l.
Proof.
  intros Hm HP. unfold leaf_nodes. rewrite leaf_in by done.
  split; intros (l & Hl & ->); exists l; split; try done.
  - apply (dotted_fold l []); [constructor|by eapply leaf_at_names].
  - symmetry. apply (dotted_fold l []); [constructor|by eapply leaf_at_names].
Qed.
Lemma leaf_nodes_scalar d : ~ is_map d -> leaf_nodes d = [].
Proof. apply leaf_scalar. Qed.

(** Clear names. *)
Lemma clear_contains k : clear_name k -> contains dot k = false.
Proof. intros (_ & _ & H). by apply free_contains. Qed.
Lemma split_concat l : l ≠ [] -> Forall (fun k => contains dot k = false) l -> split_on dot (String.concat "." l) = l.
Proof.
  intros Hl H. induction H as [|k l Hk H IH]; [done|]. destruct l as [|k' l]; [by apply split_on_none|].
  change (String.concat "." (k :: k' :: l)) with (k +++ String dot (String.concat "." (k' :: l))).
  rewrite split_on_app by done. by rewrite IH.
Qed.
Lemma dotted_clear l : Forall clear_name l -> dotted l = String.concat "." l.
Proof.
  intros H. destruct l as [|k l]; [done|]. inversion H as [|? ? _ Hl]; subst. unfold dotted. cbn [visible]. do 2 f_equal.
  induction Hl as [|b l (_ & Hb & _) Hl IH]; [done|]. cbn [List.filter].
  destruct (String.eqb_spec b "children"); [done|]. cbn [negb]. f_equal. apply IH. by inversion H; subst; constructor; [|inversion H3].
Qed.
Lemma split_dotted l : l ≠ [] -> Forall clear_name l -> split_on dot (dotted l) = l.
Proof.
  intros Hl H. rewrite dotted_clear by done. apply split_concat; [done|].
  eapply Forall_impl; [exact H|]. apply clear_contains.
Qed.
Lemma dotted_nil l : Forall clear_name l -> dotted l = "" -> l = [].
Proof.
  intros H. rewrite dotted_clear by done. destruct l as [|k l]; [done|]. inversion H as [|? ? [Hk _]]; subst.
  intros E. by destruct (concat_nonempty k l).
Qed.
Lemma dotted_inj l l' : Forall clear_name l -> Forall clear_name l' -> dotted l = dotted l' -> l = l'.
Proof.
  intros H H' E. destruct (decide (l = [])) as [->|Hl].
  - symmetry. apply dotted_nil; [done|]. by rewrite <- E.
  - destruct (decide (l' = [])) as [->|Hl']; [by apply dotted_nil|].
    rewrite <- (split_dotted l), <- (split_dotted l') by done. by rewrite E.
Qed.
Lemma clear_nonempty l : Forall clear_name l -> Forall (.≠ "") l.
Proof. intros H. eapply Forall_impl; [exact H|]. by intros k []. Qed.
Lemma keyed_impl (P Q : string -> Prop) d : (forall k, P k -> Q k) -> keyed P d -> keyed Q d.
Proof.
  intros HPQ. induction d as [| | | | |l IH|m IH] using wjson_ind'; intros H;
    try (apply ky_scalar; [by intros []|done]).
  - inversion H as [|l' HF|d _ Hd]; subst; [|by destruct (Hd l)]. constructor.
    rewrite Forall_forall in IH, HF |- *. intros v Hv. apply IH; auto.
  - inversion H as [m' HN HF| |d Hd]; subst; [|destruct Hd; by eexists]. constructor; [done|].
    rewrite Forall_forall in IH, HF |- *. intros kv Hkv. destruct (HF _ Hkv). split; [auto|]. apply IH; auto.
Qed.
Lemma leaf_nodup d : forall l0, keyed clear_name d -> Forall clear_name l0 -> NoDup (map fst (leaf (dotted l0) d)).
Proof.
  induction d as [| | | | | |m IH] using wjson_ind'; intros l0 HP H0; try constructor.
  rewrite leaf_map. destruct (alookup "timestamp" m) as [w|]; [cbn; repeat constructor; set_solver|].
  inversion HP as [m' HN HF| |d Hd]; subst; [|destruct Hd; by eexists].
  assert (Hpath : forall k v p, (k, v) ∈ m -> p ∈ map fst (leaf_member (dotted l0) (k, v)) ->
            exists l, Forall clear_name l ∧ p = dotted (l0 ++ k :: l)).
  { intros k v p Hin Hp. rewrite Forall_forall in HF. destruct (HF _ Hin) as [Hk Hv]. cbn [fst snd] in Hk, Hv.
    unfold leaf_member in Hp. cbn [fst snd] in Hp. rewrite dotted_snoc in Hp by by apply clear_nonempty.
    destruct (is_mapb v) eqn:Ev.
    - apply elem_of_list_fmap in Hp as ([p' x] & -> & Hp). apply leaf_in in Hp as (l & Hl & ->); [|by apply is_mapb_spec].
      assert (Hcl := leaf_at_names _ _ _ _ Hv Hl). exists l. split; [done|]. cbn [fst].
      rewrite dotted_fold; [by rewrite <- app_assoc| |by apply clear_nonempty].
      apply clear_nonempty, Forall_app. split; [done|by constructor].
    - apply elem_of_list_singleton in Hp. exists []. split; [constructor|done]. }
  clear HP. induction m as [|[k v] m IHm]; [constructor|]. cbn [List.flat_map].
  inversion IH as [|? ? Hv IH']; subst. inversion HF as [|? ? [Hk Hkv] HF']; subst. cbn [map fst] in HN.
  inversion HN as [|? ? Hnin HN']; subst. rewrite map_app. apply NoDup_app. split; [|split].
  - unfold leaf_member. cbn [fst snd]. destruct (is_mapb v) eqn:Ev; [|repeat constructor; set_solver].
    rewrite dotted_snoc by by apply clear_nonempty. apply Hv; [done|]. apply Forall_app. split; [done|by constructor].
  - intros p Hp Hp'. apply (Hpath k v) in Hp as (l & Hl & ->); [|by left].
    apply elem_of_list_fmap in Hp' as ([p' x] & E & Hp'). apply elem_of_list_In, in_flat_map in Hp' as ([k2 v2] & Hin2%elem_of_list_In & Hp').
    assert (Hp2 : p' ∈ map fst (leaf_member (dotted l0) (k2, v2))).
    { apply elem_of_list_fmap. exists (p', x). split; [done|]. by apply elem_of_list_In. }
    apply (Hpath k2 v2) in Hp2 as (l2 & Hl2 & ->); [|by right]. cbn [fst] in E.
    rewrite Forall_forall in HF'. destruct (HF' _ Hin2) as [Hk2 _]. cbn [fst] in Hk2.
    apply dotted_inj in E; [|by apply Forall_app; split; [|constructor]..].
    apply app_inv_head in E. injection E as -> _. apply Hnin. apply elem_of_list_fmap. by exists (k2, v2).
  - apply IHm; try done. intros k' v' p Hin. apply Hpath. by right.
Qed.
Lemma leaf_nodes_nodup d : keyed clear_name d -> NoDup (map fst (leaf_nodes d)).
Proof. intros H. apply (leaf_nodup d []); [done|constructor]. Qed.
Lemma new_vss_twice file d : new_vss file = Ok (Vss false d) -> new_vss d = Ok (Vss false d).
Proof.
  unfold new_vss, remove_keys. cbn [v_init v_data]. intros E.
  assert (Hd : d = remove dropped_keys file ∧ is_map file) by (destruct file; try done; injection E as <-; split; [done|by eexists]).
  destruct Hd as [-> [m ->]]. pose proof (remove_twice dropped_keys (WObj m)) as H. rewrite H. by rewrite remove_map.
Qed.
