(** What [Unmarshal] of patches reads. *)
From Verif Require Import Base BaseSpec BaseLemmas BaseSpecLemmas F64 Tson Serial TextSpec Heap Patch Json JsonSpec JsonLemmas JsonChars JsonParse.
From Coq Require Import Lia.

Fixpoint jtree_ind' (P : jtree -> Prop) (Hn : P JtNull) (Hb : forall b, P (JtBool b)) (Hm : forall s, P (JtNum s))
  (Hs : forall s, P (JtStr s)) (Ha : forall l, Forall P l -> P (JtArr l))
  (Ho : forall m, Forall (fun kv => P (snd kv)) m -> P (JtObj m)) (t : jtree) : P t :=
  match t with
  | JtNull => Hn
  | JtBool b => Hb b
  | JtNum s => Hm s
  | JtStr s => Hs s
  | JtArr l => Ha l ((fix go (l : list jtree) : Forall P l :=
      match l with [] => Forall_nil_2 _ | x :: l' => Forall_cons_2 _ _ _ (jtree_ind' P Hn Hb Hm Hs Ha Ho x) (go l') end) l)
  | JtObj m => Ho m ((fix go (m : list (string * jtree)) : Forall (fun kv => P (snd kv)) m :=
      match m with [] => Forall_nil_2 _ | x :: m' => Forall_cons_2 _ _ _ (jtree_ind' P Hn Hb Hm Hs Ha Ho (snd x)) (go m') end) m)
  end.

(** ** Members written twice *)
Section final.
Context {A : Type}.
Implicit Types (m acc : list (string * A)).
Definition put_all (vs acc : list (string * A)) : list (string * A) :=
  fold_left (fun acc kv => ainsert (fst kv) (snd kv) acc) vs acc.
Lemma put_all_keys vs acc : map fst (put_all vs acc) = map fst acc ++ filter (fun k => k ∉ map fst acc) (firsts (map fst vs)).
Proof.
  revert acc. induction vs as [|[k v] vs IH]; intros acc; cbn [put_all fold_left].
  { cbn [map firsts]. by rewrite filter_nil, app_nil_r. }
  change (fold_left _ vs ?a) with (put_all vs a). rewrite IH. cbn [fst snd map firsts]. rewrite filter_cons.
  change (map fst (ainsert k v acc)) with (akeys (ainsert k v acc)). change (map fst acc) with (akeys acc).
  destruct (decide (k ∈ akeys acc)) as [Hk|Hk].
  - rewrite (akeys_ainsert_in k v acc Hk). rewrite decide_False by tauto. f_equal.
    rewrite list_filter_filter. apply list_filter_iff. intros k'. split; [|tauto]. intros H. split; [done|].
    by intros ->.
  - rewrite (ainsert_notin k v acc Hk). rewrite decide_True by done. unfold akeys. rewrite map_app. cbn [map fst].
    rewrite <- app_assoc. cbn [app]. f_equal. f_equal. rewrite list_filter_filter. apply list_filter_iff.
    intros k'. rewrite elem_of_app, elem_of_list_singleton. tauto.
Qed.
Lemma put_all_lookup vs acc k : alookup k (put_all vs acc) =
  match alookup k (rev vs) with Some v => Some v | None => alookup k acc end.
Proof.
  revert acc. induction vs as [|[k' v] vs IH]; intros acc; [done|]. cbn [put_all fold_left].
  change (fold_left _ vs ?a) with (put_all vs a). rewrite IH. cbn [rev fst snd].
  rewrite alookup_app. destruct (alookup k (rev vs)); [done|]. cbn [alookup]. rewrite alookup_ainsert.
  destruct (decide (k = k')) as [->|Hk]; [by rewrite ?decide_True|]. by repeat (rewrite decide_False by congruence).
Qed.
Lemma alookup_last vs k v : alookup k (rev vs) = Some v <-> exists m1 m2, vs = m1 ++ (k, v) :: m2 ∧ k ∉ map fst m2.
Proof.
  split.
  - induction vs as [|[k' v'] vs IH]; [done|]. cbn [rev]. rewrite alookup_app.
    destruct (alookup k (rev vs)) as [w|] eqn:E.
    + intros [= ->]. destruct IH as (m1 & m2 & -> & H); [done|]. by exists ((k', v') :: m1), m2.
    + cbn [alookup]. destruct (decide _) as [Hk|Hk]; [|done]. intros [= ->]. subst k'. exists [], vs. split; [done|].
      intros (kv & -> & Hin)%elem_of_list_fmap. apply alookup_None_iff in E. apply E. unfold akeys.
      apply elem_of_list_fmap. exists kv. split; [done|]. apply elem_of_list_In, in_rev. rewrite rev_involutive. by apply elem_of_list_In.
  - intros (m1 & m2 & -> & H). rewrite rev_app_distr. cbn [rev]. rewrite !alookup_app.
    assert (E : alookup k (rev m2) = None).
    { apply alookup_None_iff. intros (kv & -> & Hin)%elem_of_list_fmap. apply H. apply elem_of_list_fmap. exists kv. split; [done|].
      apply elem_of_list_In, in_rev. by apply elem_of_list_In. }
    rewrite E. cbn [alookup]. by rewrite decide_True.
Qed.
Lemma firsts_nodup l : NoDup (firsts l).
Proof.
  induction l as [|k l IH]; cbn [firsts]; constructor; [|by apply NoDup_filter].
  rewrite elem_of_list_filter. tauto.
Qed.
Lemma nodup_keys_ext m m' : map fst m = map fst m' -> NoDup (map fst m) ->
  (forall k, k ∈ map fst m -> alookup k m = alookup k m') -> m = m'.
Proof.
  revert m'. induction m as [|[k v] m IH]; intros [|[k' v'] m'] E ND H; try done. injection E as <- E.
  cbn [map fst] in ND, H. apply NoDup_cons in ND as [Hk ND].
  assert (Hv : v = v').
  { specialize (H k). cbn [alookup] in H. rewrite !decide_True in H by done. assert (Some v = Some v') by (apply H; constructor). congruence. }
  subst v'. f_equal. apply IH; [done|done|]. intros k' Hk'. specialize (H k'). cbn [alookup] in H.
  rewrite !decide_False in H by (by intros ->). apply H. by constructor.
Qed.
Lemma filter_all (P : string -> Prop) `{forall x, Decision (P x)} (l : list string) : (forall x, P x) -> filter P l = l.
Proof. intros HP. induction l as [|x l IH]; [done|]. rewrite filter_cons, decide_True by done. by rewrite IH. Qed.
Lemma final_put_all vs m : final_members vs m <-> m = put_all vs [].
Proof.
  assert (Hk : map fst (put_all vs []) = firsts (map fst vs)).
  { rewrite put_all_keys. cbn [map app]. apply filter_all. intros k H. by apply elem_of_nil in H. }
  assert (Hl : forall m', NoDup (map fst m') -> forall k v, (k, v) ∈ m' <-> alookup k m' = Some v).
  { intros m' ND k v. symmetry. by apply alookup_iff. }
  split.
  - intros [E H]. apply nodup_keys_ext.
    + by rewrite Hk.
    + rewrite E. apply firsts_nodup.
    + intros k Hin. apply elem_of_list_fmap in Hin as ([k' v] & -> & Hin). cbn [fst].
      assert (ND : NoDup (map fst m)) by (rewrite E; apply firsts_nodup).
      rewrite put_all_lookup. pose proof (proj1 (Hl m ND k' v) Hin) as ->.
      apply H, alookup_last in Hin. by rewrite Hin.
  - intros ->. split; [done|]. intros k v Hin.
    assert (ND : NoDup (map fst (put_all vs []))) by (rewrite Hk; apply firsts_nodup).
    apply (Hl _ ND) in Hin. rewrite put_all_lookup in Hin. apply alookup_last.
    destruct (alookup k (rev vs)); [done|]. done.
Qed.
End final.

(** ** Values *)
Section values.
Context (T : textlib).
Lemma to_any_no_panic t : to_any T t ≠ Panic.
Proof.
  induction t as [| |s| |l IH|m IH] using jtree_ind'; cbn [to_any]; try done.
  - by destruct (parse_num T s).
  - assert (H : forall r, (fix go (l : list jtree) : res (list json) := match l with [] => Ok []
        | x :: l' => do v <- to_any T x; do vs <- go l'; Ok (v :: vs) end) l = r -> r ≠ Panic).
    { induction IH as [|x l Hx _ IHl]; [by intros ? <-|]. intros r. destruct (to_any T x); [|by intros <-|done]. cbn [rbind].
      destruct (_ l); [by intros <-|by intros <-|]. by specialize (IHl _ eq_refl). }
    destruct (_ l); [done|done|]. by specialize (H _ eq_refl).
  - assert (H : forall r, (fix go (m : list (string * jtree)) : res (list (string * json)) := match m with [] => Ok []
        | (k, x) :: m' => do v <- to_any T x; do vs <- go m'; Ok ((k, v) :: vs) end) m = r -> r ≠ Panic).
    { induction IH as [|[k x] l Hx _ IHl]; [by intros ? <-|]. cbn [snd] in Hx. intros r. destruct (to_any T x); [|by intros <-|done]. cbn [rbind].
      destruct (_ l); [by intros <-|by intros <-|]. by specialize (IHl _ eq_refl). }
    destruct (_ m); [done|done|]. by specialize (H _ eq_refl).
Qed.
Lemma to_any_spec t j : to_any T t = Ok j <-> json_of T t j.
Proof.
  revert j. induction t as [|b|s|s|l IH|m IH] using jtree_ind'; intros j; cbn [to_any].
  - split; [intros [= <-]; constructor|by inversion 1].
  - split; [intros [= <-]; constructor|by inversion 1].
  - split.
    + destruct (parse_num T s) eqn:E; [|done]. intros [= <-]. by constructor.
    + inversion 1 as [| |? ? E| | |]; subst. by rewrite E.
  - split; [intros [= <-]; constructor|by inversion 1].
  - set (go := fix go (l : list jtree) : res (list json) := match l with [] => Ok []
        | x :: l' => do v <- to_any T x; do vs <- go l'; Ok (v :: vs) end).
    assert (H : forall vs, go l = Ok vs <-> Forall2 (json_of T) l vs).
    { induction IH as [|x l Hx _ IHl]; intros vs; cbn [go].
      - split; [intros [= <-]; constructor|by inversion 1].
      - change (go (x :: l)) with (do v <- to_any T x; do vs <- go l; Ok (v :: vs)). split.
        + destruct (to_any T x) as [v| |] eqn:E; try done. cbn [rbind]. destruct (go l) as [vs'| |] eqn:E'; try done.
          intros [= <-]. constructor; [by apply Hx|by apply IHl].
        + inversion 1 as [|? v ? vs' H1 H2]; subst. apply Hx in H1. apply IHl in H2. by rewrite H1, H2. }
    split.
    + destruct (go l) as [vs| |] eqn:E; try done. intros [= <-]. constructor. by apply H.
    + inversion 1 as [| | | |? ? HF|]; subst. apply H in HF. by rewrite HF.
  - set (go := fix go (m : list (string * jtree)) : res (list (string * json)) := match m with [] => Ok []
        | (k, x) :: m' => do v <- to_any T x; do vs <- go m'; Ok ((k, v) :: vs) end).
    assert (H : forall vs, go m = Ok vs <-> Forall2 (fun x y => fst x = fst y ∧ json_of T (snd x) (snd y)) m vs).
    { induction IH as [|[k x] l Hx _ IHl]; intros vs; cbn [go].
      - split; [intros [= <-]; constructor|by inversion 1].
      - change (go ((k, x) :: l)) with (do v <- to_any T x; do vs <- go l; Ok ((k, v) :: vs)). cbn [snd] in Hx. split.
        + destruct (to_any T x) as [v| |] eqn:E; try done. cbn [rbind]. destruct (go l) as [vs'| |] eqn:E'; try done.
          intros [= <-]. constructor; [split; [done|by apply Hx]|by apply IHl].
        + inversion 1 as [|? [k' v] ? vs' [H1 H1'] H2]; subst. cbn [fst snd] in *. subst k'. apply Hx in H1'. apply IHl in H2. by rewrite H1', H2. }
    split.
    + destruct (go m) as [vs| |] eqn:E; try done. intros [= <-]. apply (jo_obj T m vs); [by apply H|]. by apply final_put_all.
    + inversion 1 as [| | | | |? ? ? HF HP]; subst. apply H in HF. rewrite HF. cbn [rbind]. apply final_put_all in HP. by rewrite HP.
Qed.
Lemma any_json_spec v j : any_json v j <-> v = any_of_json j.
Proof. by destruct j. Qed.
Lemma kind_name_spec k s : kind_name k s <-> k = op_of_name s.
Proof.
  unfold kind_name, op_of_name, standard. rewrite !elem_of_cons, elem_of_nil. split.
  - intros [H|[-> H]].
    + repeat (destruct H as [[= -> ->]|H]; [done|]). done.
    + repeat rewrite decide_False; [done|intros ->..];
        [apply (H OTest)|apply (H OCopy)|apply (H OMove)|apply (H OReplace)|apply (H ORemove)|apply (H OAdd)]; set_solver.
  - intros ->. destruct (decide (s = "add")) as [->|H1]; [tauto|]. destruct (decide (s = "remove")) as [->|H2]; [tauto|].
    destruct (decide (s = "replace")) as [->|H3]; [tauto|]. destruct (decide (s = "move")) as [->|H4]; [tauto|].
    destruct (decide (s = "copy")) as [->|H5]; [tauto|]. destruct (decide (s = "test")) as [->|H6]; [tauto|].
    right. split; [done|]. intros k'. rewrite !elem_of_cons, elem_of_nil. intros H.
    repeat (destruct H as [[= _ ?]|H]; [done|]). done.
Qed.

(** ** Names *)
Definition lower (s : string) : Prop := forall x a y, s = x +++ String a y -> (97 <= bv a <= 122)%N.
Lemma lower_cons a s : lower (String a s) <-> (97 <= bv a <= 122)%N ∧ lower s.
Proof.
  split.
  - intros H. split; [by apply (H "" a s)|]. intros x b y ->. by apply (H (String a x) b y).
  - intros [H1 H2] x b y E. destruct x as [|c x]; [by injection E as -> _|]. injection E as -> E. by apply (H2 x b y).
Qed.
Lemma fold_name_spec k f : lower f -> fold_name k = f <-> field_name k f.
Proof.
  intros Hf. split.
  - intros <-. remember (slength k) as n eqn:Hn. assert (Hle : (slength k <= n)%nat) by lia. clear Hn.
    revert k Hf Hle. induction n as [|n IH]; intros k Hf Hle.
    { destruct k; [constructor|cbn [slength] in Hle; lia]. }
    destruct k as [|a k]; [constructor|]. cbn [slength] in Hle. cbn [fold_name] in Hf |- *.
    destruct (in_range 65 (bv a) 90) eqn:Ea.
    + unfold in_range in Ea. apply andb_true_iff in Ea as [E1%N.leb_le E2%N.leb_le]. apply lower_cons in Hf as [_ Hf].
      apply fn_upper; [unfold bv in *; lia| |by apply IH; [|lia]]. unfold byte_of. rewrite N_ascii_embedding; [done|unfold bv in *; lia].
    + destruct k as [|b k]; [repeat constructor|]. destruct (_ && _) eqn:E.
      * apply andb_true_iff in E as [E1%N.eqb_eq E2%N.eqb_eq]. apply bv_of in E1, E2. subst. apply lower_cons in Hf as [_ Hf].
        change (String (ascii_of_N 197) (String (ascii_of_N 191) k)) with (bytes (utf8_bytes 383) +++ k).
        apply fn_long_s. apply IH; [done|]. cbn [slength] in Hle. lia.
      * apply lower_cons in Hf as [_ Hf]. apply fn_same. apply IH; [done|lia].
  - induction 1 as [|a k f H IH|a b k f Ha Hb H IH|k f H IH]; [done|..].
    + apply lower_cons in Hf as [Ha Hf]. cbn [fold_name]. unfold in_range. rewrite (proj2 (N.leb_gt (bv a) 90)) by lia.
      rewrite andb_false_r. destruct k as [|b k]; [by rewrite <- IH|]. rewrite (proj2 (N.eqb_neq _ _)) by lia. cbn [andb].
      by rewrite IH.
    + apply lower_cons in Hf as [Hb' Hf]. cbn [fold_name]. unfold in_range, bv in *.
      rewrite (proj2 (N.leb_le _ _)) by lia. rewrite (proj2 (N.leb_le _ _)) by lia. cbn [andb]. rewrite IH by done.
      f_equal. unfold byte_of. rewrite <- Hb. apply ascii_N_embedding.
    + apply lower_cons in Hf as [_ Hf]. change (bytes (utf8_bytes 383) +++ k) with (String (ascii_of_N 197) (String (ascii_of_N 191) k)).
      cbn [fold_name]. by rewrite <- IH.
Qed.
Lemma lower_all s : (fix go s := match s with "" => true | String a s => in_range 97 (bv a) 122 && go s end) s = true -> lower s.
Proof.
  induction s as [|a s IH]; [intros _ x b y E; by destruct x|]. intros [H1 H2]%andb_true_iff. apply lower_cons.
  unfold in_range in H1. apply andb_true_iff in H1 as [?%N.leb_le ?%N.leb_le]. auto.
Qed.
(** ** Fields *)
Definition field_name_dec k f : lower f -> {field_name k f} + {~ field_name k f}.
Proof.
  intros Hf. destruct (decide (fold_name k = f)) as [E|E]; [left|right]; rewrite <- (fold_name_spec k f Hf); done.
Defined.
Section field.
Context {A : Type} (f : string) (skip : jtree -> Prop) (is : jtree -> A -> Prop).
Lemma field_nil d a : field f skip is d [] a <-> a = d.
Proof.
  split.
  - intros [_ [(t & (m1 & k & m2 & E & _) & _)|[_ ->]]]; [by destruct m1|done].
  - intros ->. split; [by intros k t H%elem_of_nil|]. right. split; [by intros k t H%elem_of_nil|done].
Qed.
Lemma last_with_cons (P : string -> jtree -> Prop) k t m u : last_with P ((k, t) :: m) u <->
  last_with P m u ∨ (t = u ∧ P k t ∧ forall k' t', (k', t') ∈ m -> ~ P k' t').
Proof.
  split.
  - intros (m1 & k' & m2 & E & HP & Hn). destruct m1 as [|x m1]; cbn [app] in E.
    + injection E as -> -> ->. right. done.
    + injection E as _ ->. left. exists m1, k', m2. done.
  - intros [(m1 & k' & m2 & -> & HP & Hn)|(-> & HP & Hn)].
    + by exists ((k, t) :: m1), k', m2.
    + by exists [], k, m.
Qed.
Lemma field_other d k t m a : ~ field_name k f -> field f skip is d ((k, t) :: m) a <-> field f skip is d m a.
Proof.
  intros Hk. unfold field. setoid_rewrite last_with_cons. setoid_rewrite elem_of_cons. split.
  - intros [H1 H2]. split; [intros k' t' Hin; apply H1; auto|]. destruct H2 as [(t' & [H2|(-> & [? _] & _)] & H3)|[H2 ->]]; [by left; eauto|done|].
    right. split; [|done]. intros k' t' Hin. apply H2. by right.
  - intros [H1 H2]. split; [intros k' t' [[= -> ->]|Hin]; [done|by apply H1]|].
    destruct H2 as [(t' & H2 & H3)|[H2 ->]]; [left; eauto|]. right. split; [|done]. intros k' t' [[= -> ->]|Hin]; [done|by apply H2].
Qed.
Lemma field_skip d k t m a : field_name k f -> skip t -> field f skip is d ((k, t) :: m) a <-> field f skip is d m a.
Proof.
  intros Hk Hs. unfold field. setoid_rewrite last_with_cons. setoid_rewrite elem_of_cons. split.
  - intros [H1 H2]. split; [intros k' t' Hin; apply H1; auto|]. destruct H2 as [(t' & [H2|(-> & [_ ?] & _)] & H3)|[H2 ->]]; [by left; eauto|done|].
    right. split; [|done]. intros k' t' Hin. apply H2. by right.
  - intros [H1 H2]. split; [intros k' t' [[= -> ->]|Hin]; [by left|by apply H1]|].
    destruct H2 as [(t' & H2 & H3)|[H2 ->]]; [left; eauto|]. right. split; [|done]. intros k' t' [[= -> ->]|Hin]; [done|by apply H2].
Qed.
Context (Hdec : forall t, {skip t} + {~ skip t}) (Hf : lower f).
Lemma skips_or m : (forall k t, (k, t) ∈ m -> field_name k f -> skip t) ∨ exists t, last_with (fun k t => field_name k f ∧ ~ skip t) m t.
Proof.
  induction m as [|[k t] m IH]; [left; by intros k t H%elem_of_nil|].
  destruct IH as [IH|[u IH]]; [|right; exists u; apply last_with_cons; by left].
  destruct (field_name_dec k f Hf) as [Hk|Hk].
  - destruct (Hdec t) as [Hs|Hs].
    + left. intros k' t' [[= -> ->]|Hin]%elem_of_cons; [done|by apply IH].
    + right. exists t. apply last_with_cons. right. split; [done|]. split; [done|]. intros k' t' Hin [Hk' Hs']. by apply Hs', (IH k').
  - left. intros k' t' [[= -> ->]|Hin]%elem_of_cons; [done|by apply IH].
Qed.
Lemma last_with_in P m t : last_with P m t -> exists k, (k, t) ∈ m ∧ P k t.
Proof. intros (m1 & k & m2 & -> & HP & _). exists k. split; [|done]. rewrite elem_of_app. right. constructor. Qed.
Lemma field_set d k t m a x : field_name k f -> ~ skip t -> is t x -> (forall y, is t y -> y = x) ->
  field f skip is d ((k, t) :: m) a <-> field f skip is x m a.
Proof.
  intros Hk Hs Hx Hu. unfold field. setoid_rewrite last_with_cons. setoid_rewrite elem_of_cons. split.
  - intros [H1 H2]. split; [intros k' t' Hin; apply H1; auto|]. destruct H2 as [(t' & [H2|(-> & _ & Hn)] & H3)|[H2 ->]].
    + by left; eauto.
    + right. apply Hu in H3. split; [|done]. intros k' t'' Hin Hk'. destruct (Hdec t'') as [?|Hs']; [done|]. by destruct (Hn k' t'' Hin).
    + destruct Hs. by apply (H2 k); [left|].
  - intros [H1 H2]. split; [intros k' t' [[= -> ->]|Hin]; [right; eauto|by apply H1]|]. left.
    destruct H2 as [(t' & H2 & H3)|[H2 ->]]; [by exists t'; eauto|]. exists t. split; [|done]. right. split; [done|]. split; [done|].
    intros k' t' Hin [Hk' Hs']. by apply Hs', (H2 k').
Qed.
Lemma field_bad d k t m a : field_name k f -> ~ skip t -> (forall y, ~ is t y) -> ~ field f skip is d ((k, t) :: m) a.
Proof. intros Hk Hs Hx [H1 _]. destruct (H1 k t) as [?|[x ?]]; [constructor|done|done|by apply (Hx x)]. Qed.
End field.
Definition null_dec (t : jtree) : {JtNull = t} + {JtNull ≠ t}.
Proof. destruct t; by (left + right). Defined.
Lemma op_lower : lower "op". Proof. by apply lower_all. Qed.
Lemma path_lower : lower "path". Proof. by apply lower_all. Qed.
Lemma value_lower : lower "value". Proof. by apply lower_all. Qed.
Lemma timestamp_lower : lower "timestamp". Proof. by apply lower_all. Qed.
Lemma other_name k f g : lower f -> lower g -> fold_name k = f -> f ≠ g -> ~ field_name k g.
Proof. intros Hf Hg E Hn H. apply (fold_name_spec _ _ Hg) in H. congruence. Qed.
Lemma set_fields_spec m o s j r : op_kind o = op_of_name s -> op_value o = any_of_json j ->
  set_fields T o m = Ok r <->
  exists s' j', op_kind r = op_of_name s' ∧ op_value r = any_of_json j' ∧
    field "op" (eq JtNull) is_text s m s' ∧ field "path" (eq JtNull) is_text (op_path o) m (op_path r) ∧
    field "value" (fun _ => False) (json_of T) j m j' ∧ field "timestamp" (eq JtNull) is_stamp (op_ts o) m (op_ts r).
Proof.
  revert o s j. induction m as [|[k t] m IH]; intros o s j Hs Hj; cbn [set_fields].
  { setoid_rewrite field_nil. split.
    - intros [= <-]. exists s, j. done.
    - intros (s' & j' & H1 & H2 & -> & H4 & -> & H6). f_equal. destruct o, r; cbn in *. congruence. }
  unfold set_field.
  destruct (decide (fold_name k = "op")) as [E|E1].
  { pose proof (proj1 (fold_name_spec _ _ op_lower) E) as Hk.
    pose proof (other_name _ _ _ op_lower path_lower E ltac:(done)) as N1.
    pose proof (other_name _ _ _ op_lower value_lower E ltac:(done)) as N2.
    pose proof (other_name _ _ _ op_lower timestamp_lower E ltac:(done)) as N3.
    setoid_rewrite (field_other "path" _ _ _ k t m _ N1). setoid_rewrite (field_other "value" _ _ _ k t m _ N2).
    setoid_rewrite (field_other "timestamp" _ _ _ k t m _ N3).
    assert (Hbad : (forall x, t ≠ JtStr x) -> t ≠ JtNull ->
       Err = Ok r <-> (∃ s' j', op_kind r = op_of_name s' ∧ op_value r = any_of_json j' ∧ field "op" (eq JtNull) is_text s ((k, t) :: m) s'
         ∧ field "path" (eq JtNull) is_text (op_path o) m (op_path r) ∧ field "value" (λ _, False) (json_of T) j m j'
           ∧ field "timestamp" (eq JtNull) is_stamp (op_ts o) m (op_ts r))).
    { intros H1 H2. split; [done|]. intros (s' & j' & _ & _ & H & _). exfalso. revert H. apply field_bad; [done|congruence|].
      intros y Hy. by apply (H1 y). }
    destruct t as [|b|lit|x|l|ms]; try (apply Hbad; done).
    - cbn [rbind]. setoid_rewrite (field_skip "op" _ _ _ k JtNull m _ Hk eq_refl). by apply IH.
    - cbn [rbind]. rewrite (IH _ x j); [|done|done]. cbn [op_path op_ts].
      setoid_rewrite (fun a => field_set "op" (eq JtNull) is_text null_dec s k (JtStr x) m a x Hk ltac:(discriminate) eq_refl (fun y Hy => match Hy in _ = q return match q with JtStr z => z = x | _ => True end with eq_refl => eq_refl end)). done. }
  destruct (decide (fold_name k = "path")) as [E|E2].
  { pose proof (proj1 (fold_name_spec _ _ path_lower) E) as Hk.
    pose proof (other_name _ _ _ path_lower op_lower E ltac:(done)) as N1.
    pose proof (other_name _ _ _ path_lower value_lower E ltac:(done)) as N2.
    pose proof (other_name _ _ _ path_lower timestamp_lower E ltac:(done)) as N3.
    setoid_rewrite (field_other "op" _ _ _ k t m _ N1). setoid_rewrite (field_other "value" _ _ _ k t m _ N2).
    setoid_rewrite (field_other "timestamp" _ _ _ k t m _ N3).
    assert (Hbad : (forall x, t ≠ JtStr x) -> t ≠ JtNull ->
       Err = Ok r <-> (∃ s' j', op_kind r = op_of_name s' ∧ op_value r = any_of_json j' ∧ field "op" (eq JtNull) is_text s m s'
         ∧ field "path" (eq JtNull) is_text (op_path o) ((k, t) :: m) (op_path r) ∧ field "value" (λ _, False) (json_of T) j m j'
           ∧ field "timestamp" (eq JtNull) is_stamp (op_ts o) m (op_ts r))).
    { intros H1 H2. split; [done|]. intros (s' & j' & _ & _ & _ & H & _). exfalso. revert H. apply field_bad; [done|congruence|].
      intros y Hy. by apply (H1 y). }
    destruct t as [|b|lit|x|l|ms]; try (apply Hbad; done).
    - cbn [rbind]. setoid_rewrite (field_skip "path" _ _ _ k JtNull m _ Hk eq_refl). by apply IH.
    - cbn [rbind]. rewrite (IH _ s j); [|done|done]. cbn [op_path op_ts].
      setoid_rewrite (fun a => field_set "path" (eq JtNull) is_text null_dec (op_path o) k (JtStr x) m a x Hk ltac:(discriminate) eq_refl (fun y Hy => match Hy in _ = q return match q with JtStr z => z = x | _ => True end with eq_refl => eq_refl end)). done. }
  destruct (decide (fold_name k = "value")) as [E|E3].
  { pose proof (proj1 (fold_name_spec _ _ value_lower) E) as Hk.
    pose proof (other_name _ _ _ value_lower op_lower E ltac:(done)) as N1.
    pose proof (other_name _ _ _ value_lower path_lower E ltac:(done)) as N2.
    pose proof (other_name _ _ _ value_lower timestamp_lower E ltac:(done)) as N3.
    setoid_rewrite (field_other "op" _ _ _ k t m _ N1). setoid_rewrite (field_other "path" _ _ _ k t m _ N2).
    setoid_rewrite (field_other "timestamp" _ _ _ k t m _ N3).
    destruct (to_any T t) as [v| |] eqn:Et.
    - cbn [rbind]. rewrite (IH _ s v); [|done|done]. cbn [op_path op_ts].
      assert (Hv : json_of T t v) by (by apply to_any_spec).
      assert (Hu : forall y, json_of T t y -> y = v) by (intros y Hy%to_any_spec; congruence).
      setoid_rewrite (fun a => field_set "value" (fun _ => False) (json_of T) (fun _ => right (fun x => x)) j k t m a v Hk (fun x => x) Hv Hu). done.
    - cbn [rbind]. split; [done|]. intros (s' & j' & _ & _ & _ & _ & H & _). exfalso. revert H. apply field_bad; [done|by intros []|].
      intros y Hy%to_any_spec. congruence.
    - by apply to_any_no_panic in Et. }
  destruct (decide (fold_name k = "timestamp")) as [E|E4].
  { pose proof (proj1 (fold_name_spec _ _ timestamp_lower) E) as Hk.
    pose proof (other_name _ _ _ timestamp_lower op_lower E ltac:(done)) as N1.
    pose proof (other_name _ _ _ timestamp_lower path_lower E ltac:(done)) as N2.
    pose proof (other_name _ _ _ timestamp_lower value_lower E ltac:(done)) as N3.
    setoid_rewrite (field_other "op" _ _ _ k t m _ N1). setoid_rewrite (field_other "path" _ _ _ k t m _ N2).
    setoid_rewrite (field_other "value" _ _ _ k t m _ N3).
    assert (Hbad : (forall lit, t = JtNum lit -> parse_int lit = None) -> t ≠ JtNull ->
       Err = Ok r <-> (∃ s' j', op_kind r = op_of_name s' ∧ op_value r = any_of_json j' ∧ field "op" (eq JtNull) is_text s m s'
         ∧ field "path" (eq JtNull) is_text (op_path o) m (op_path r) ∧ field "value" (λ _, False) (json_of T) j m j'
           ∧ field "timestamp" (eq JtNull) is_stamp (op_ts o) ((k, t) :: m) (op_ts r))).
    { intros H1 H2. split; [done|]. intros (s' & j' & _ & _ & _ & _ & _ & H). exfalso. revert H. apply field_bad; [done|congruence|].
      intros y (lit & -> & Hy). specialize (H1 lit eq_refl). rewrite parse_int_none in H1. by apply (H1 y). }
    destruct t as [|b|lit|x|l|ms]; try (apply Hbad; done).
    - cbn [rbind]. setoid_rewrite (field_skip "timestamp" _ _ _ k JtNull m _ Hk eq_refl). by apply IH.
    - destruct (parse_int lit) as [z|] eqn:Ez; [|by apply Hbad; [intros ? [= ->]|]].
      cbn [rbind]. rewrite (IH _ s j); [|done|done]. cbn [op_path op_ts].
      assert (Hv : is_stamp (JtNum lit) z) by (exists lit; split; [done|]; by apply parse_int_spec).
      assert (Hu : forall y, is_stamp (JtNum lit) y -> y = z).
      { intros y (lit' & [= <-] & Hy%parse_int_spec). congruence. }
      setoid_rewrite (fun a => field_set "timestamp" (eq JtNull) is_stamp null_dec (op_ts o) k (JtNum lit) m a z Hk ltac:(done) Hv Hu). done. }
  cbn [rbind].
  assert (N1 : ~ field_name k "op") by (by rewrite <- fold_name_spec by apply op_lower).
  assert (N2 : ~ field_name k "path") by (by rewrite <- fold_name_spec by apply path_lower).
  assert (N3 : ~ field_name k "value") by (by rewrite <- fold_name_spec by apply value_lower).
  assert (N4 : ~ field_name k "timestamp") by (by rewrite <- fold_name_spec by apply timestamp_lower).
  setoid_rewrite (field_other "op" _ _ _ k t m _ N1). setoid_rewrite (field_other "path" _ _ _ k t m _ N2).
  setoid_rewrite (field_other "value" _ _ _ k t m _ N3). setoid_rewrite (field_other "timestamp" _ _ _ k t m _ N4).
  by apply IH.
Qed.
Lemma to_op_spec t o : to_op T t = Ok o <-> describes T t o.
Proof.
  assert (H0 : forall m, set_fields T zero_op m = Ok o <->
     exists s j, kind_name (op_kind o) s ∧ any_json (op_value o) j ∧
       field "op" (eq JtNull) is_text "" m s ∧ field "path" (eq JtNull) is_text "" m (op_path o) ∧
       field "value" (fun _ => False) (json_of T) JNull m j ∧ field "timestamp" (eq JtNull) is_stamp 0 m (op_ts o)).
  { intros m. rewrite (set_fields_spec m zero_op "" JNull) by done. setoid_rewrite kind_name_spec. setoid_rewrite any_json_spec. done. }
  unfold describes, members_of. split.
  - intros H. assert (Hm : exists m, (t = JtNull ∧ m = [] ∨ t = JtObj m) ∧ set_fields T zero_op m = Ok o).
    { destruct t as [| | | | |m]; try done; [exists []; auto|exists m; auto]. }
    destruct Hm as (m & Hm & Hs). apply H0 in Hs as (s & j & Hs). by exists m, s, j.
  - intros (m & s & j & Hm & Hs). assert (H : set_fields T zero_op m = Ok o) by (apply H0; by exists s, j).
    destruct Hm as [[-> ->]| ->]; done.
Qed.
Lemma to_ops_spec l os : to_ops T l = Ok os <-> Forall2 (describes T) l os.
Proof.
  revert os. induction l as [|t l IH]; intros os; cbn [to_ops].
  - split; [intros [= <-]; constructor|by inversion 1].
  - split.
    + destruct (to_op T t) as [o| |] eqn:E; try done. cbn [rbind]. destruct (to_ops T l) as [os'| |]; try done. intros [= <-].
      constructor; [by apply to_op_spec|by apply IH].
    + inversion 1 as [|? o ? os' H1 H2]; subst. apply to_op_spec in H1. apply IH in H2. by rewrite H1, H2.
Qed.
Lemma set_fields_no_panic m o : set_fields T o m ≠ Panic.
Proof.
  revert o. induction m as [|[k t] m IH]; intros o; [done|]. cbn [set_fields].
  assert (H : set_field T o k t ≠ Panic).
  { unfold set_field. repeat case_decide; try done; try (destruct t; try done; by destruct (parse_int _)).
    pose proof (to_any_no_panic t). by destruct (to_any T t). }
  destruct (set_field T o k t); try done. apply IH.
Qed.
Lemma to_ops_no_panic l : to_ops T l ≠ Panic.
Proof.
  induction l as [|t l IH]; [done|]. cbn [to_ops]. assert (H : to_op T t ≠ Panic).
  { destruct t; try done. apply set_fields_no_panic. }
  destruct (to_op T t); try done. cbn [rbind]. by destruct (to_ops T l).
Qed.
Lemma unmarshal_spec s p : unmarshal T s = Ok p <-> patch_text T s p.
Proof.
  unfold unmarshal, patch_text. split.
  - destruct (scan s) as [t|] eqn:E; [|done]. apply scan_text in E. destruct t as [| | | |l|]; try done.
    + intros [= <-]. auto.
    + destruct (to_ops T l) as [os| |] eqn:E'; try done. intros [= <-]. right. exists l, os. split; [done|]. split; [done|]. by apply to_ops_spec.
  - intros [[H ->]|(l & ops & H & -> & HF)]; apply scan_text in H; rewrite H; [done|]. apply to_ops_spec in HF. by rewrite HF.
Qed.
Lemma unmarshal_no_panic s : unmarshal T s ≠ Panic.
Proof.
  unfold unmarshal. destruct (scan s) as [t|]; [|done]. destruct t as [| | | |l|]; try done. pose proof (to_ops_no_panic l). by destruct (to_ops T l).
Qed.
Lemma unmarshal_err s : unmarshal T s = Err <-> forall p, ~ patch_text T s p.
Proof.
  split.
  - intros E p Hp%unmarshal_spec. congruence.
  - intros H. destruct (unmarshal T s) as [p| |] eqn:E; [|done|by apply unmarshal_no_panic in E]. apply unmarshal_spec in E. by destruct (H p).
Qed.
End values.
