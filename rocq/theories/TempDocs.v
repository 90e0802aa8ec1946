(** The initial document of a run, written, read back and stripped of its stamps. *)
From Verif Require Import Base BaseSpec BaseLemmas F64 Tson TsonSpec Heap Patch PatchSpec PatchLemmas Bytes BytesLemmas TjsonSpec TjsonLemmas Tjson Initial InitialSpec
  Sensor Scenario Sim SimSpec SimDocs QuerySpec VssSpec VssPlace Temporal TemporalSpec.

(** ** Distinct names *)
Lemma keyed_prim P v : keyed P (write_prim v).
Proof. apply ky_scalar; destruct v; try done; intros []; done. Qed.
Lemma keyed_leaf stamp v t : stamp ≠ "value" -> keyed (fun _ => True) (leaf_obj stamp v t).
Proof.
  intros Hs. unfold leaf_obj. constructor.
  - cbn. apply NoDup_cons. split; [|apply NoDup_singleton]. rewrite elem_of_list_singleton. by intros E.
  - constructor; [split; [done|apply keyed_prim]|]. constructor; [|constructor]. split; [done|]. apply ky_scalar; [by intros []|done].
Qed.
Lemma keyed_add stamp l v t d d' : stamp ≠ "value" -> add_path stamp l v t d = Ok d' -> keyed (fun _ => True) (WObj d) -> keyed (fun _ => True) (WObj d').
Proof.
  intros Hs. revert d d'. induction l as [|k [|k2 r] IH]; intros d d' H Hd; [done| |].
  - injection H as <-. by apply keyed_insert; [| |apply keyed_leaf].
  - change (add_path stamp (k :: k2 :: r) v t d) with
      (match alookup k d with
       | None => do c <- add_path stamp (k2 :: r) v t []; Ok (ainsert k (WObj c) d)
       | Some (WObj c) => do c' <- add_path stamp (k2 :: r) v t c; Ok (ainsert k (WObj c') d)
       | Some _ => Panic
       end) in H.
    destruct (alookup k d) as [w|] eqn:E.
    + destruct w as [| | | | | |c]; try done. destruct (add_path stamp (k2 :: r) v t c) as [c'| |] eqn:E'; [|done|done]. injection H as <-.
      apply keyed_insert; [done|done|]. apply (IH c); [done|]. by apply (keyed_lookup _ d k).
    + destruct (add_path stamp (k2 :: r) v t []) as [c'| |] eqn:E'; [|done|done]. injection H as <-.
      apply keyed_insert; [done|done|]. apply (IH []); [done|apply keyed_nil].
Qed.
Lemma keyed_all stamp xs : stamp ≠ "value" -> forall d d', add_all stamp xs d = Ok d' -> keyed (fun _ => True) (WObj d) -> keyed (fun _ => True) (WObj d').
Proof.
  intros Hs. induction xs as [|[p s] xs IH]; intros d d' H Hd; cbn [add_all] in H; [by injection H as <-|].
  unfold add_sensor in H. cbn [fst snd] in H. destruct (add_path stamp (split_on dot p) (s_value s) (s_stamp s) d) as [d1| |] eqn:E; [|done|done].
  apply (IH d1); [done|]. by apply (keyed_add stamp (split_on dot p) (s_value s) (s_stamp s) d).
Qed.
Lemma start_keyed w v sc m : start w v sc = Ok m -> keyed (fun _ => True) (WObj (m_json m)).
Proof.
  unfold start. intros H. destruct (vehicle_doc "timestamp" _) as [j| |] eqn:E; [|done|done]. cbn [rbind] in H.
  destruct (vehicle_doc "_ts" _) as [s| |]; [|done|done]. injection H as <-. cbn [m_json].
  by apply (keyed_all "timestamp" (concat (reorder (w_doc_order w "timestamp") 0 v)) ltac:(done) []) in E; [|apply keyed_nil].
Qed.

(** ** The shape of the document *)
Inductive tidy (P : string -> Prop) (Q : prim -> Prop) : wjson -> Prop :=
| td_leaf v t : Q v -> tidy P Q (leaf_obj "timestamp" v t)
| td_obj m : NoDup (akeys m) -> Forall P (akeys m) -> Forall (fun kv => tidy P Q (snd kv)) m -> tidy P Q (WObj m).
Lemma wbelow_snoc l k w x : wbelow (l ++ [k]) w = Some x <-> exists m, wbelow l w = Some (WObj m) ∧ alookup k m = Some x.
Proof.
  revert w. induction l as [|a l IH]; intros w; cbn [app wbelow].
  - destruct w as [| | | | | |m]; try (split; [done|by intros (? & ? & ?)]). split.
    + intros H. exists m. split; [done|]. destruct (alookup k m); done.
    + intros (m' & E & H). injection E as <-. by rewrite H.
  - destruct w as [| | | | | |m]; try (split; [done|by intros (? & ? & ?)]). destruct (alookup a m); [apply IH|].
    split; [done|by intros (? & ? & ?)].
Qed.
Lemma prefix_snoc_cases {A} (l l0 : list A) k : l0 `prefix_of` l ++ [k] -> l0 = l ++ [k] ∨ l0 `prefix_of` l.
Proof.
  intros [r E]. destruct r as [|y r _] using rev_ind; [left; by rewrite app_nil_r in E|]. right.
  rewrite app_assoc in E. apply app_inj_tail in E as [-> _]. by exists r.
Qed.
Lemma tidy_doc d (leaf : list string -> wjson -> Prop) (P : string -> Prop) (Q : prim -> Prop) :
  keyed (fun _ => True) (WObj d) -> holds_leaves d leaf ->
  (forall l n, leaf l n -> l ≠ [] ∧ Forall P l ∧ exists v t, Q v ∧ n = leaf_obj "timestamp" v t) ->
  (forall l n l' n', leaf l n -> leaf l' n' -> l `prefix_of` l' -> l = l') -> tidy P Q (WObj d).
Proof.
  intros K [H1 H] HL HA.
  assert (N : forall l k l1 n1, (forall l0 n, leaf l0 n -> ~ l0 `prefix_of` l) -> leaf l1 n1 -> l1 `prefix_of` l ++ [k] -> l1 = l ++ [k]).
  { intros l k l1 n1 Hno Hn1 C. apply prefix_snoc_cases in C as [C|C]; [done|]. by destruct (Hno l1 n1 Hn1). }
  assert (PK : forall l k x, wbelow (l ++ [k]) (WObj d) = Some x -> (forall l0 n, leaf l0 n -> ~ l0 `prefix_of` l) -> P k).
  { intros l k x E Hno. destruct (H (l ++ [k]) x E) as (l1 & n1 & Hn1 & C); [by destruct l|]. destruct (HL _ _ Hn1) as (_ & HP & _).
    assert (Hpre : l ++ [k] `prefix_of` l1).
    { destruct C as [[C _]|C]; [done|]. by rewrite (N l k l1 n1). }
    destruct Hpre as [r ->]. rewrite !Forall_app in HP. destruct HP as [[_ HP] _]. by inversion HP. }
  assert (G : forall x l, wbelow l (WObj d) = Some x -> l ≠ [] -> keyed (fun _ => True) x ->
    (forall l0 n, leaf l0 n -> l0 `prefix_of` l -> l0 = l) -> tidy P Q x).
  { assert (G0 : forall x l, wbelow l (WObj d) = Some x -> l ≠ [] -> (forall l0 n, leaf l0 n -> l0 `prefix_of` l -> l0 = l) ->
      tidy P Q x ∨ (exists m, x = WObj m) ∧ (forall l0 n, leaf l0 n -> ~ l0 `prefix_of` l)).
    { intros x l E Hl Hno. destruct (H l x E Hl) as (l0 & n & Hn & C). destruct (decide (l = l0)) as [<-|Hne].
      - left. rewrite (H1 _ _ Hn) in E. injection E as <-. destruct (HL _ _ Hn) as (_ & _ & v & t & Hv & ->). by constructor.
      - destruct C as [[C C2]|C]; [|by destruct Hne; symmetry; apply (Hno l0 n)]. right. split; [done|].
        intros l1 n1 Hn1 Hp. assert (l1 = l0) as -> by (apply (HA _ _ _ _ Hn1 Hn); by etransitivity).
        destruct Hne. by apply (anti_symm prefix). }
    induction x as [|b|f|z|s|xs _|m IH] using wjson_ind'; intros l E Hl Kx Hno;
      (destruct (G0 _ l E Hl Hno) as [?|[[m' Em] Hno']]; [done|]); try done. clear Em m'.
    apply keyed_map in Kx as [Hnd Hk]. rewrite Forall_forall in IH, Hk. constructor; [done| |].
    - apply Forall_forall. intros k Hin. apply elem_of_list_fmap in Hin as ([k' x] & -> & Hin). apply (PK l k' x); [|done].
      apply wbelow_snoc. exists m. split; [done|]. by apply alookup_in.
    - apply Forall_forall. intros [k x] Hin. assert (Ex : wbelow (l ++ [k]) (WObj d) = Some x).
      { apply wbelow_snoc. exists m. split; [done|]. by apply alookup_in. }
      apply (IH (k, x) Hin (l ++ [k])); [done|by destruct l|by apply (Hk (k, x))|].
      intros l0 n Hn C. by apply (N l k l0 n). }
  pose proof K as [Hnd Hk]%keyed_map. rewrite Forall_forall in Hk.
  assert (Hno : forall l0 n, leaf l0 n -> ~ l0 `prefix_of` []).
  { intros l0 n Hn ->%prefix_nil_inv. by destruct (HL _ _ Hn). }
  constructor; [done| |]; apply Forall_forall.
  - intros k Hin. apply elem_of_list_fmap in Hin as ([k' x] & -> & Hin). apply (PK [] k' x); [|done].
    cbn [app]. by rewrite wbelow_cons, (alookup_in k' x).
  - intros [k x] Hin. apply (G x [k]); [by rewrite wbelow_cons, (alookup_in k x)|done|by apply (Hk (k, x))|].
    intros l0 n Hn C. by apply (N [] k l0 n).
Qed.

(** ** Reading it back *)
Lemma decoded_prim v j : decoded (write_prim v) j -> j = json_of_prim v.
Proof. intros H. inversion H as [w H1 H2 E1 E2| |]; subst; destruct v; try done. Qed.
Lemma decoded_leaf v t j : decoded (leaf_obj "timestamp" v t) j -> transform j = json_of_prim v.
Proof.
  intros H. inversion H as [w H1 H2 E1 E2| |m m1 m2 HP HF E1 E2]; subst; [by destruct (H2 _ eq_refl)|].
  assert (V : json_of_prim v ≠ JNull) by (by destruct v).
  assert (A : forall b a m2, alookup "timestamp" m2 = Some a -> alookup "value" m2 = Some b -> b = json_of_prim v -> transform (JObj m2) = json_of_prim v).
  { intros b a m3 Ea Eb ->. cbn [transform]. rewrite Ea, Eb. by destruct v. }
  apply Permutation_length_2_inv in HP as [->| ->];
    (destruct m2 as [|[k1 x1] [|[k2 x2] [|]]]; try (by inversion HF as [|? ? ? ? ? HF1]; subst; inversion HF1 as [|? ? ? ? ? HF2]; subst; inversion HF2));
    inversion HF as [|? ? ? ? [Ek1 D1] HF1]; subst; inversion HF1 as [|? ? ? ? [Ek2 D2] _]; subst; cbn [fst snd] in *; subst.
  - apply (A x1 x2); [done|done|]. by apply decoded_prim.
  - apply (A x2 x1); [done|done|]. by apply decoded_prim.
Qed.
Lemma decoded_keys (m1 : list (string * wjson)) m2 : Forall2 (fun x y => fst x = fst y ∧ decoded (snd x) (snd y)) m1 m2 -> akeys m2 = akeys m1.
Proof. induction 1 as [|x y m1 m2 [E _] _ IH]; [done|]. unfold akeys in *. cbn [map]. by rewrite E, IH. Qed.
Lemma decoded_lookup k (m1 : list (string * wjson)) m2 : Forall2 (fun x y => fst x = fst y ∧ decoded (snd x) (snd y)) m1 m2 ->
  match alookup k m1, alookup k m2 with Some x, Some y => decoded x y | None, None => True | _, _ => False end.
Proof.
  induction 1 as [|[a x] [b y] m1 m2 [E D] _ IH]; [done|]. cbn [fst snd] in *. subst b. cbn [alookup]. by destruct (decide (k = a)).
Qed.
Lemma alookup_transform k m : alookup k (map (fun kv => (fst kv, transform (snd kv))) m) = transform <$> alookup k m.
Proof. induction m as [|[a x] m IH]; [done|]. cbn [map alookup fst snd]. by destruct (decide (k = a)). Qed.
Lemma transform_obj m : alookup "value" m = None -> transform (JObj m) = JObj (map (fun kv => (fst kv, transform (snd kv))) m).
Proof. intros E. cbn [transform]. rewrite E. by destruct (alookup "timestamp" m). Qed.

Definition member (k : string) : Prop := both_name k ∧ k ≠ "value".
Record restored (w : wjson) (j : json) : Prop := {
  rs_named : named both_name j; rs_enc : json_encodable j = true; rs_full : jnull_free j = true;
  rs_down : forall l v t, wbelow l w = Some (leaf_obj "timestamp" v t) -> below l j = Some (json_of_prim v);
  rs_up : forall l x, below l j = Some x -> scalar x -> exists v t, wbelow l w = Some (leaf_obj "timestamp" v t) ∧ x = json_of_prim v;
  rs_flat : forall q d x z, plain_json d = j -> at_path d q = Some (TLeaf x z) -> exists l, q = keys l ∧ below l j = Some (json_of_prim x) }.
Lemma prim_scalar v : scalar (json_of_prim v).
Proof. unfold scalar, jcontainer. destruct v; intros [[? ?]|[? ?]]; done. Qed.
Lemma restored_leaf v t : finite v = true -> restored (leaf_obj "timestamp" v t) (json_of_prim v).
Proof.
  intros Hv. split.
  - apply nd_scalar, prim_scalar.
  - by destruct v.
  - by destruct v.
  - intros [|k l] v' t' E; cbn [wbelow] in E.
    + unfold leaf_obj in E. injection E as E1 E2. cbn [below]. f_equal. destruct v, v'; cbn in E1; congruence.
    + exfalso. unfold leaf_obj in E. cbn [wbelow alookup] in E. destruct (decide (k = "value")); [|destruct (decide (k = "timestamp")); [|done]].
      * destruct v, l; done.
      * destruct l; done.
  - intros [|k l] x E Hx; cbn [below] in E.
    + injection E as <-. by exists v, t.
    + by destruct v.
  - intros q d x z E H. destruct d as [|y z'|m|xs]; try (by destruct v). cbn [plain_json] in E.
    destruct q as [|[k|i] q]; cbn [at_path] in H; [|done|done]. injection H as -> ->. exists []. split; [done|]. cbn. by rewrite E.
Qed.
Lemma member_free (m : doc) : Forall member (akeys m) -> alookup "value" m = None.
Proof.
  intros H. destruct (alookup "value" m) as [x|] eqn:E; [|done]. apply alookup_Some_in in E. rewrite Forall_forall in H.
  destruct (H "value") as [_ N]; [apply elem_of_list_fmap; by exists ("value", x)|done].
Qed.
Lemma alookup_perm' {V} (m m' : list (string * V)) k : NoDup (akeys m) -> Permutation m m' -> alookup k m' = alookup k m.
Proof. intros H P. apply alookup_perm; [done|by symmetry]. Qed.
Lemma restored_obj m m1 m2 : NoDup (akeys m) -> Forall member (akeys m) -> Permutation m m1 ->
  Forall2 (fun x y => fst x = fst y ∧ decoded (snd x) (snd y)) m1 m2 ->
  Forall (fun kv => forall j, decoded (snd kv) j -> restored (snd kv) (transform j)) m ->
  transform (JObj m2) = JObj (map (fun kv => (fst kv, transform (snd kv))) m2) ∧ restored (WObj m) (transform (JObj m2)).
Proof.
  intros Hnd HP Hp HF IH.
  assert (Pk : Permutation (akeys m1) (akeys m)) by (symmetry; by apply Permutation_map).
  assert (Hnd2 : NoDup (akeys m2)) by (by rewrite (decoded_keys _ _ HF), Pk).
  assert (HP2 : Forall member (akeys m2)) by (by rewrite (decoded_keys _ _ HF), Pk).
  assert (E : transform (JObj m2) = JObj (map (fun kv => (fst kv, transform (snd kv))) m2)).
  { apply transform_obj. pose proof (decoded_lookup "value" _ _ HF) as D. rewrite (alookup_perm' m m1) in D by done. rewrite member_free in D by done.
    by destruct (alookup "value" m2). }
  split; [done|]. rewrite E.
  assert (IN : forall k y, (k, y) ∈ m2 -> exists x, alookup k m = Some x ∧ restored x (transform y)).
  { intros k y Hin. pose proof (decoded_lookup k _ _ HF) as D. rewrite (alookup_perm' m m1) in D by done.
    rewrite (alookup_in k y m2) in D by done. destruct (alookup k m) as [x|] eqn:Ex; [|done]. exists x. split; [done|].
    apply alookup_Some_in in Ex. rewrite Forall_forall in IH. by apply (IH (k, x)). }
  assert (KM : map fst (map (fun kv : string * json => (fst kv, transform (snd kv))) m2) = akeys m2).
  { rewrite map_map. done. }
  split.
  - apply nd_obj; rewrite ?KM; [done| |].
    + eapply List.Forall_impl; [|exact HP2]. by intros k [].
    + apply Forall_map, Forall_forall. intros [k y] Hin. cbn [snd]. destruct (IN k y Hin) as (x & _ & R). apply R.
  - cbn [json_encodable]. rewrite forallb_forall. intros [k z] Hin. apply in_map_iff in Hin as ([k' y] & Ey & Hin). injection Ey as <- <-.
    cbn [snd]. apply elem_of_list_In in Hin. destruct (IN _ y Hin) as (x & _ & R). apply R.
  - cbn [jnull_free]. rewrite forallb_forall. intros [k z] Hin. apply in_map_iff in Hin as ([k' y] & Ey & Hin). injection Ey as <- <-.
    cbn [snd]. apply elem_of_list_In in Hin. destruct (IN _ y Hin) as (x & _ & R). apply R.
  - intros [|k l] v t H.
    + exfalso. cbn [wbelow] in H. injection H as ->. inversion HP as [|? ? [_ N] _]. by apply N.
    + rewrite wbelow_cons in H. cbn [below]. rewrite alookup_transform. destruct (alookup k m) as [x|] eqn:Ex; [|done].
      pose proof (decoded_lookup k _ _ HF) as D. rewrite (alookup_perm' m m1), Ex in D by done. destruct (alookup k m2) as [y|] eqn:Ey; [|done].
      apply alookup_Some_in in Ey. destruct (IN k y Ey) as (x' & Ex' & R). rewrite Ex in Ex'. injection Ex' as <-. cbn. by apply (rs_down _ _ R) in H.
  - intros [|k l] z H Hz.
    + exfalso. cbn in H. injection H as <-. apply Hz. left. by eexists.
    + cbn [below] in H. rewrite alookup_transform in H. destruct (alookup k m2) as [y|] eqn:Ey; [|done]. cbn in H.
      apply alookup_Some_in in Ey. destruct (IN k y Ey) as (x & Ex & R). rewrite wbelow_cons, Ex. by apply (rs_up _ _ R).
  - intros q d x z Ed H. destruct d as [|y z'|dm|xs]; try done.
    { cbn [plain_json] in Ed. by destruct y. }
    cbn [plain_json] in Ed. injection Ed as Ed. destruct q as [|[k|i] q]; [done| |done]. rewrite at_key in H.
    destruct (alookup k dm) as [c|] eqn:Ec; [|done]. cbn in H.
    assert (El : alookup k (map (fun kv => (fst kv, plain_json (snd kv))) dm) = Some (plain_json c)).
    { clear -Ec. induction dm as [|[a y] dm IH]; [done|]. cbn [map alookup fst snd] in *. destruct (decide (k = a)); [congruence|by apply IH]. }
    rewrite Ed, alookup_transform in El. destruct (alookup k m2) as [y|] eqn:Ey; [|done]. cbn in El. injection El as El.
    pose proof Ey as Hin. apply alookup_Some_in in Hin. destruct (IN k y Hin) as (x' & _ & R).
    destruct (rs_flat _ _ R q c x z (eq_sym El) H) as (l & -> & Hl). exists (k :: l). split; [done|].
    cbn [below]. by rewrite alookup_transform, Ey.
Qed.
Lemma restored_tidy w j : tidy member (fun v => finite v = true) w -> decoded w j -> restored w (transform j).
Proof.
  revert j. induction w as [|b|f|z|s|l _|m IH] using wjson_ind'; intros j HT HD; try (by inversion HT).
  inversion HT as [v t Hv E|m' Hnd HP HF E]; subst.
  - change (WObj [("value", write_prim v); ("timestamp", WInt t)]) with (leaf_obj "timestamp" v t) in *.
    rewrite (decoded_leaf v t j HD). by apply restored_leaf.
  - inversion HD as [w H1 H2 E1 E2| |m0 m1 m2 Hp HF2 E1 E2]; subst; [by destruct (H2 _ eq_refl)|].
    apply (restored_obj m m1 m2); try done. apply Forall_forall. intros kv Hin j Hj. rewrite Forall_forall in IH, HF. apply IH; auto.
Qed.
(** The document of a run. *)
Lemma start_restored w v sc m0 file : start w v sc = Ok m0 -> orders_ok w -> separate v -> plain_paths v ->
  (forall p s, (p, s) ∈ sensors v -> finite (s_value s) = true) -> decoded (WObj (m_json m0)) file ->
  (exists m, transform file = JObj m) ∧ restored (WObj (m_json m0)) (transform file) ∧
  holds_leaves (m_json m0) (leaves "timestamp" (akeys (sensors v)) (init_of (sensors v))).
Proof.
  intros H0 Ho Hs HP HV HD. destruct (separate_apart v Hs) as [Hnd Ha].
  destruct (start_leaves w v sc Ho Hs) as (m1 & E1 & Lj & _). rewrite H0 in E1. injection E1 as <-.
  assert (HL : forall l n, leaves "timestamp" (akeys (sensors v)) (init_of (sensors v)) l n ->
    l ≠ [] ∧ Forall member l ∧ exists x t, finite x = true ∧ n = leaf_obj "timestamp" x t).
  { intros l n (p & Hp & -> & ->). split; [apply split_not_nil|]. apply elem_of_list_fmap in Hp as ([q s] & -> & Hin). cbn [fst] in *.
    split; [apply (HP q s _ Hin); by apply names_split|]. unfold init_of. rewrite (alookup_in q s) by done. cbn [fst snd].
    exists (s_value s), (s_stamp s). split; [by apply (HV q)|done]. }
  assert (HA : forall l n l' n', leaves "timestamp" (akeys (sensors v)) (init_of (sensors v)) l n ->
    leaves "timestamp" (akeys (sensors v)) (init_of (sensors v)) l' n' -> l `prefix_of` l' -> l = l').
  { intros l n l' n' (p & Hp & -> & _) (q & Hq & -> & _) Hpre. destruct (decide (p = q)) as [->|Hne]; [done|]. by destruct (Ha p q). }
  pose proof (tidy_doc _ _ member (fun x => finite x = true) (start_keyed _ _ _ _ H0) Lj HL HA) as HT.
  split; [|split; [by apply restored_tidy|done]].
  inversion HT as [x t Hx E|m' Hnd' HP' HF' E]; subst.
  - exfalso. pose proof (proj2 Lj ["value"] (write_prim x)) as N. rewrite <- E in N. destruct N as (l0 & n & Hn & C); [done|done|].
    destruct (HL _ _ Hn) as (Hl0 & Hm & _). destruct C as [[C _]|C].
    + destruct l0 as [|k l0]; [done|]. apply prefix_cons_inv_1 in C as <-. inversion Hm as [|? ? [_ N] _]. done.
    + destruct l0 as [|k l0]; [done|]. apply prefix_cons_inv_1 in C as ->. inversion Hm as [|? ? [_ N] _]. done.
  - inversion HD as [w' H1 H2 E1 E2| |m2 m3 m4 Hp HF E1 E2]; subst; [by destruct (H2 _ eq_refl)|].
    eexists. eapply (restored_obj (m_json m0) m3 m4); try done. apply Forall_forall. intros kv Hin j Hj. rewrite Forall_forall in HF'.
    apply restored_tidy; auto.
Qed.
