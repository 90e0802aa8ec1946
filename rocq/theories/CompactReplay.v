(** Replaying a compacted log. *)
From Verif Require Import Base BaseSpec BaseSpecLemmas F64 Tson TsonInd TsonSpec F64Lemmas BaseLemmas TsonLemmas Heap HeapSpec Patch Own PatchSpec TreePatch PatchLemmas
  Logument LogSpec LogLemmas ChangeLemmas CompactLemmas ReplaySpec ReplayLemmas SetLemmas.
From Coq Require Import Lia.

Definition eqv (p q : prim) : Prop := p = q ∨ prim_eq p q.
Lemma prim_eq_trans p q r : prim_eq p q -> prim_eq q r -> prim_eq p r.
Proof.
  destruct p, q; try done; destruct r; try done; cbn; [congruence| |congruence].
  intros H1 H2. by rewrite (f64_eq_trans _ _ _ H1).
Qed.
Lemma eqv_trans p q r : eqv p q -> eqv q r -> eqv p r.
Proof. intros [->|H1] [->|H2]; unfold eqv; auto. right. by eapply prim_eq_trans. Qed.
Lemma any_eq_payload a b p : any_eq a b = Some true -> payload a p -> exists q, payload b q ∧ eqv p q.
Proof.
  intros E Hp. destruct Hp; destruct b; try done; cbn in E; injection E as E.
  - apply bool_decide_eq_true in E as ->. eexists. split; [constructor|by left].
  - eexists. split; [constructor|by right].
  - apply Z.eqb_eq in E as ->. eexists. split; [constructor|by left].
  - apply eqb_prop in E as ->. eexists. split; [constructor|by left].
Qed.
Lemma payload_fun v p q : payload v p -> payload v q -> p = q.
Proof. intros H1 H2. apply payload_scalar in H1, H2. congruence. Qed.

(** Setting a leaf, as a function. *)
Definition child_obj (m : list (string * tson)) (k : string) : tson :=
  match alookup k m with Some (TObj m') => TObj m' | _ => TObj [] end.
Fixpoint put (t : tson) (ks : list string) (lf : tson) : tson :=
  match t with
  | TObj m =>
      match ks with
      | [] => t
      | [k] => TObj (ainsert k lf m)
      | k :: ks' => TObj (ainsert k (put (child_obj m k) ks' lf) m)
      end
  | _ => t
  end.
Lemma put_more m k k2 ks lf : put (TObj m) (k :: k2 :: ks) lf = TObj (ainsert k (put (child_obj m k) (k2 :: ks) lf) m).
Proof. done. Qed.
Lemma child_in m k c ks : alookup k m = Some c -> free_way c ks -> child_obj m k = c.
Proof. intros H Hw. unfold child_obj. rewrite H. destruct (free_obj _ _ Hw) as [m' ->]. done. Qed.
Lemma child_new m k : alookup k m = None ∨ alookup k m = Some TNil -> child_obj m k = TObj [].
Proof. intros [H|H]; unfold child_obj; by rewrite H. Qed.

Lemma ptrav_put op p ks : forall t, free_way t ks -> is_set (op_kind op) = true -> scalar_of (op_value op) = Some p ->
  ptrav op ks t = (put t ks (TLeaf p (op_ts op)), Ok tt).
Proof.
  induction ks as [|k ks IH]; intros t Hw Hk Hp; [inversion Hw|].
  destruct (free_obj _ _ Hw) as [m ->]. destruct ks as [|k2 ks].
  - rewrite ptrav_cons. cbv beta iota. rewrite Hp. by destruct (op_kind op).
  - rewrite put_more, ptrav_cons. cbv beta iota. rewrite Hk.
    inversion Hw as [|? ? c ? Hc Hw'|? ? ? Hm Hne HF]; subst.
    + rewrite Hc, (child_in _ _ _ _ Hc Hw'). destruct (free_obj _ _ Hw') as [m' ->].
      by rewrite (IH (TObj m') Hw' Hk Hp).
    + rewrite (child_new _ _ Hm). inversion HF as [|? ? Hk2 _]; subst. apply parse_int_none in Hk2.
      destruct Hm as [Hm|Hm]; rewrite Hm, Hk2; by rewrite (IH (TObj []) (free_new _ Hne HF) Hk Hp).
Qed.

(** ** Alike documents *)
Lemma alike_refl t : alike t t.
Proof.
  induction t as [|p ts|m IH|l IH] using tson_ind'.
  - constructor.
  - constructor. by left.
  - constructor. induction IH; constructor; auto.
  - constructor. induction IH; constructor; auto.
Qed.
Definition alikes (m m' : list (string * tson)) : Prop :=
  Forall2 (fun a b => fst a = fst b ∧ alike (snd a) (snd b)) m m'.
Lemma alikes_lookup m m' k : alikes m m' ->
  match alookup k m, alookup k m' with Some a, Some b => alike a b | None, None => True | _, _ => False end.
Proof.
  induction 1 as [|[k1 a] [k2 b] m m' [E Ha] HF IH]; [done|]. cbn in *. subst k2. by case_decide.
Qed.
Lemma alikes_insert m m' k a b : alikes m m' -> alike a b -> alikes (ainsert k a m) (ainsert k b m').
Proof.
  intros HA Hab. induction HA as [|[k1 x] [k2 y] m m' [E Ha] HF IH]; cbn in *; [constructor; done|]. subst k2.
  case_decide; constructor; try done.
Qed.
Lemma alikes_insert_l m m' k a b : alikes m m' -> alookup k m' = Some b -> alike a b -> alikes (ainsert k a m) m'.
Proof.
  intros HA Hk Hab. induction HA as [|[k1 x] [k2 y] m m' [E Ha] HF IH]; cbn in *; [done|]. subst k2.
  case_decide; constructor; try done.
  - cbn. split; [done|]. congruence.
  - by apply IH.
Qed.
Lemma child_alike m m' k : alikes m m' -> alike (child_obj m k) (child_obj m' k).
Proof.
  intros HA. pose proof (alikes_lookup _ _ k HA) as H. unfold child_obj.
  destruct (alookup k m) as [a|], (alookup k m') as [b|]; try done; [|apply alike_refl].
  inversion H; subst; try apply alike_refl. done.
Qed.
Lemma put_alike ks : forall t t' a b, alike t t' -> alike a b -> alike (put t ks a) (put t' ks b).
Proof.
  induction ks as [|k ks IH]; intros t t' a b HA Hab; inversion HA as [|p q ts ts' Hpq|l l' HF|m m' HF]; subst; try done.
  destruct ks as [|k2 ks].
  - cbn. constructor. by apply alikes_insert.
  - rewrite !put_more. constructor. apply alikes_insert; [done|]. apply IH; [by apply child_alike|done].
Qed.
Lemma put_alike_l ks : forall t t' a b, ks <> [] -> alike t t' -> at_path t' (keys ks) = Some b -> alike a b -> alike (put t ks a) t'.
Proof.
  induction ks as [|k ks IH]; intros t t' a b Hne HA Hat Hab; [done|].
  destruct t' as [| |m'|]; try done. inversion HA as [| | |m m'' HF]; subst.
  cbn [map] in Hat. rewrite at_key in Hat. destruct (alookup k m') as [c|] eqn:Hk; [|done]. cbn [mbind option_bind] in Hat.
  destruct ks as [|k2 ks].
  - cbn in *. injection Hat as ->. constructor. by apply (alikes_insert_l _ _ _ _ b).
  - rewrite put_more. constructor. apply (alikes_insert_l _ _ _ _ c); [done|done|].
    apply (IH _ _ _ b); [done| |done|done].
    assert (Hc : exists mc, c = TObj mc) by (destruct c; try done; by eexists). destruct Hc as [mc ->].
    pose proof (child_alike m m' k HF) as H. unfold child_obj in H at 2. by rewrite Hk in H.
Qed.
Lemma alike_free ks : forall t t', alike t t' -> free_way t ks -> free_way t' ks.
Proof.
  induction ks as [|k ks IH]; intros t t' HA Hw; [inversion Hw|].
  destruct (free_obj _ _ Hw) as [m ->]. inversion HA as [| | |? m' HF]; subst.
  pose proof (alikes_lookup _ _ k HF) as Hl.
  inversion Hw as [|? ? c ? Hc Hw'|? ? ? Hm Hne HF']; subst.
  - constructor.
  - rewrite Hc in Hl. destruct (alookup k m') as [c'|] eqn:Hc'; [|done]. apply (fw_in _ _ c'); [done|]. by apply (IH c).
  - apply fw_new; [|done|done]. destruct Hm as [Hm|Hm]; rewrite Hm in Hl; destruct (alookup k m'); try done; auto.
    right. by inversion Hl; subst.
Qed.
(** A write elsewhere keeps the way free. *)
Lemma put_free ks : forall ks' t lf, free_way t ks -> free_way t ks' -> apart (keys ks') (keys ks) -> free_way (put t ks' lf) ks.
Proof.
  induction ks as [|k ks IH]; intros ks' t lf Hw Hw' Hap; [inversion Hw|].
  destruct (free_obj _ _ Hw) as [m ->]. destruct ks' as [|k' ks']; [inversion Hw'|].
  destruct (decide (k = k')) as [<-|Hkk].
  - cbn [map] in Hap. apply apart_cons in Hap.
    destruct ks as [|k2 ks]; [by destruct Hap as [_ Hap]; destruct Hap; apply prefix_nil|].
    destruct ks' as [|k2' ks']; [by destruct Hap as [Hap _]; destruct Hap; apply prefix_nil|].
    rewrite put_more. eapply fw_in; [apply alookup_ainsert_eq|].
    assert (Hcw : free_way (child_obj m k) (k2 :: ks)).
    { inversion Hw as [|? ? c ? Hc Hw1|? ? ? Hm Hne HF]; subst; [by rewrite (child_in _ _ _ _ Hc Hw1)|].
      rewrite (child_new _ _ Hm). by apply free_new. }
    assert (Hcw' : free_way (child_obj m k) (k2' :: ks')).
    { inversion Hw' as [|? ? c ? Hc Hw1|? ? ? Hm Hne HF]; subst; [by rewrite (child_in _ _ _ _ Hc Hw1)|].
      rewrite (child_new _ _ Hm). by apply free_new. }
    by apply IH.
  - assert (Hput : exists c, put (TObj m) (k' :: ks') lf = TObj (ainsert k' c m)).
    { destruct ks' as [|k2' ks']; [cbn; by eexists|]. rewrite put_more. by eexists. }
    destruct Hput as [c ->]. inversion Hw as [|? ? c0 ? Hc Hw1|? ? ? Hm Hne HF]; subst.
    + constructor.
    + apply (fw_in _ _ c0); [by rewrite alookup_ainsert_ne|done].
    + apply fw_new; [by rewrite alookup_ainsert_ne|done|done].
Qed.

Lemma put_set_at op p t ks : free_way t ks -> is_set (op_kind op) = true -> scalar_of (op_value op) = Some p ->
  set_at t ks (TLeaf p (op_ts op)) (put t ks (TLeaf p (op_ts op))).
Proof.
  intros Hw Hk Hp. destruct (ptrav_set op p ks t Hw Hk Hp) as (t' & E & HS). rewrite (ptrav_put op p ks t Hw Hk Hp) in E.
  by injection E as <-.
Qed.

(** ** Replay of the filtered operations *)
Notation parts p := (op_parts (op_path p)).
Definition good (t : tson) (all : list operation) : Prop :=
  (forall p, p ∈ all -> writes p ∧ (exists x, payload (op_value p) x) ∧ free_way t (parts p)) ∧
  (forall p q, p ∈ all -> q ∈ all -> op_path p = op_path q ∨ apart (keys (parts p)) (keys (parts q))).
Lemma independent_good t all : independent t all -> good t all.
Proof.
  intros [H1 H2]. split.
  - intros p Hp. destruct (H1 p Hp) as (Hw & Hx & ks & Hs & Hf). split; [done|]. split; [done|].
    by rewrite (spells_parts _ _ Hs).
  - intros p q Hp Hq. destruct (H1 p Hp) as (_ & _ & ks & Hs & _). destruct (H1 q Hq) as (_ & _ & ks' & Hs' & _).
    rewrite (spells_parts _ _ Hs), (spells_parts _ _ Hs'). by apply H2.
Qed.
Lemma good_put t all p x : good t all -> p ∈ all -> payload (op_value p) x ->
  good (put t (parts p) (TLeaf x (op_ts p))) all.
Proof.
  intros [H1 H2] Hp Hx. split; [|done]. intros q Hq. destruct (H1 q Hq) as (Hw & Hxq & Hf). split; [done|]. split; [done|].
  destruct (H1 p Hp) as (Hwp & _ & Hfp). destruct (H2 p q Hp Hq) as [E|Hap]; [|by apply put_free].
  rewrite <- E. apply objects_free; [apply op_parts_ne|].
  destruct (put_set_at p x t (parts p) Hfp (writes_set _ Hwp) (payload_scalar _ _ Hx)) as (_ & _ & _ & H4). done.
Qed.
Lemma good_alike t t' all : alike t t' -> good t all -> good t' all.
Proof. intros HA [H1 H2]. split; [|done]. intros p Hp. destruct (H1 p Hp) as (? & ? & ?). split; [done|]. split; [done|]. by apply (alike_free _ t). Qed.

Definition in_place (t : tson) (seen : list operation) : Prop :=
  forall k q, last_on k seen = Some q -> exists x ts y,
    at_path t (keys (op_parts k)) = Some (TLeaf x ts) ∧ payload (op_value q) y ∧ eqv x y.

Section replay.
Context (P : operation -> Prop) {Pdec : forall p, Decision (P p)}.
Context (HP : forall p q, op_path p = op_path q -> P p -> P q).
Context (all : list operation).

Lemma last_on_in k seen q : last_on k seen = Some q -> q ∈ seen ∧ op_path q = k.
Proof.
  unfold last_on. intros E. apply last_Some in E as [l E].
  assert (Hin : q ∈ filter (fun p => op_path p = k) seen) by (rewrite E; apply elem_of_app; right; apply elem_of_list_here).
  apply elem_of_list_filter in Hin. tauto.
Qed.
Lemma in_place_put t seen p x : good t all -> p ∈ all -> (forall q, q ∈ seen -> q ∈ all) -> payload (op_value p) x ->
  in_place t seen -> in_place (put t (parts p) (TLeaf x (op_ts p))) (seen ++ [p]).
Proof.
  intros [H1 H2] Hp Hsub Hx HI k q Hq. destruct (H1 p Hp) as (Hwp & _ & Hfp).
  destruct (put_set_at p x t (parts p) Hfp (writes_set _ Hwp) (payload_scalar _ _ Hx)) as (_ & S2 & S3 & _).
  rewrite last_on_snoc in Hq. case_decide as Hk.
  - injection Hq as <-. subst k. exists x, (op_ts p), x. split; [done|]. split; [done|by left].
  - destruct (HI k q Hq) as (y & ts & z & Hy & Hz & Hyz). exists y, ts, z. split; [|done].
    rewrite S3; [done|]. destruct (last_on_in _ _ _ Hq) as [Hin <-].
    destruct (H2 p q Hp (Hsub q Hin)) as [E|Hap]; [done|done].
Qed.
Lemma in_place_other t seen p x : good t all -> p ∈ all -> (forall q, q ∈ seen -> q ∈ all ∧ P q) -> ~ P p -> payload (op_value p) x ->
  in_place t seen -> in_place (put t (parts p) (TLeaf x (op_ts p))) seen.
Proof.
  intros [H1 H2] Hp Hsub HnP Hx HI k q Hq. destruct (H1 p Hp) as (Hwp & _ & Hfp).
  destruct (put_set_at p x t (parts p) Hfp (writes_set _ Hwp) (payload_scalar _ _ Hx)) as (_ & S2 & S3 & _).
  destruct (HI k q Hq) as (y & ts & z & Hy & Hz & Hyz). exists y, ts, z. split; [|done].
  rewrite S3; [done|]. destruct (last_on_in _ _ _ Hq) as [Hin <-].
  destruct (H2 p q Hp (proj1 (Hsub q Hin))) as [E|Hap]; [|done].
  exfalso. apply HnP. by apply (HP q), Hsub.
Qed.
Lemma in_place_skip t seen p : p ∈ all -> good t all -> ~ changed seen p -> in_place t seen -> in_place t (seen ++ [p]).
Proof.
  intros Hp [H1 H2] Hc HI k q Hq. rewrite last_on_snoc in Hq. case_decide as Hk; [|by apply HI].
  injection Hq as <-. subst k. rewrite changed_model in Hc. destruct (last_on (op_path p) seen) as [q|] eqn:El; [|by destruct Hc].
  destruct (HI _ _ El) as (x & ts & y & Hat & Hy & Hxy).
  assert (Heq : any_eq (op_value q) (op_value p) = Some true).
  { destruct (any_eq (op_value q) (op_value p)) as [[]|]; [done|..]; by destruct Hc. }
  destruct (any_eq_payload _ _ _ Heq Hy) as (z & Hz & Hyz). exists x, ts, z. split; [done|]. split; [done|]. by eapply eqv_trans.
Qed.
Lemma prim_eq_sym p q : prim_eq p q -> prim_eq q p.
Proof.
  destruct p, q; try done; cbn; try congruence. intros H. destruct (f64_eq_true _ _ H) as [->|(s & s' & -> & ->)]; done.
Qed.
Lemma eqv_sym p q : eqv p q -> eqv q p.
Proof. intros [->|H]; [by left|right; by apply prim_eq_sym]. Qed.

Lemma replay_filtered l : forall seen t1 t2, alike t1 t2 -> good t2 all -> in_place t2 seen ->
  (forall q, q ∈ seen -> q ∈ all ∧ P q) -> (forall q, q ∈ l -> q ∈ all) ->
  exists t1' t2', papply t1 l = (t1', Ok tt) ∧ papply t2 (changes_among P seen l) = (t2', Ok tt) ∧ alike t1' t2'.
Proof.
  induction l as [|p l IH]; intros seen t1 t2 HA HG HI Hseen Hl; [by exists t1, t2|].
  assert (Hp : p ∈ all) by (apply Hl, elem_of_list_here).
  assert (Hl' : forall q, q ∈ l -> q ∈ all) by (intros q Hq; apply Hl; by apply elem_of_list_further).
  assert (HA' : alike t2 t1).
  { clear -HA. revert t1 HA. induction t2 as [|x ts|m IHm|xs IHx] using tson_ind'; intros t1 HA; inversion HA as [|p q a b Hpq|l l' HF|m0 m' HF]; subst.
    - constructor.
    - constructor. by apply eqv_sym.
    - constructor. clear HA. induction HF as [|u v m0 m [E Hv] HF IH]; [constructor|]. inversion IHm; subst. constructor; [|auto]. split; [done|auto].
    - constructor. clear HA. induction HF as [|u v m0 m Hv HF IH]; [constructor|]. inversion IHx; subst. constructor; auto. }
  pose proof HG as [G1 _]. destruct (G1 p Hp) as (Hw & [x Hx] & Hf2).
  pose proof (alike_free _ _ _ HA' Hf2) as Hf1.
  pose proof (ptrav_put p x _ t1 Hf1 (writes_set _ Hw) (payload_scalar _ _ Hx)) as E1.
  pose proof (ptrav_put p x _ t2 Hf2 (writes_set _ Hw) (payload_scalar _ _ Hx)) as E2.
  assert (HAp : alike (put t1 (parts p) (TLeaf x (op_ts p))) (put t2 (parts p) (TLeaf x (op_ts p)))).
  { apply put_alike; [done|apply alike_refl]. }
  assert (HGp : good (put t2 (parts p) (TLeaf x (op_ts p))) all) by (by apply good_put).
  cbn [changes_among]. case_decide as HPp; [case_decide as Hc|]; cbn [app papply]; rewrite E1.
  - rewrite E2. apply IH; try done.
    + apply in_place_put; try done. intros q Hq. by apply Hseen.
    + intros q Hq. apply elem_of_app in Hq as [Hq|Hq]; [by apply Hseen|]. by apply elem_of_list_singleton in Hq as ->.
  - apply IH; try done.
    + destruct (in_place_skip _ _ _ Hp HG Hc HI (op_path p) p) as (y & ts & z & Hat & Hz & Hyz).
      { rewrite last_on_snoc. by rewrite decide_True. }
      apply (put_alike_l _ _ _ _ (TLeaf y ts)); [apply op_parts_ne|done|done|].
      constructor. rewrite (payload_fun _ _ _ Hx Hz). by apply eqv_sym.
    + by apply in_place_skip.
    + intros q Hq. apply elem_of_app in Hq as [Hq|Hq]; [by apply Hseen|]. by apply elem_of_list_singleton in Hq as ->.
  - rewrite E2. apply IH; try done. by apply in_place_other.
Qed.
End replay.

Lemma changes_among_app (P : operation -> Prop) {Pdec : forall p, Decision (P p)} a b : forall seen,
  changes_among P seen (a ++ b) = changes_among P seen a ++ changes_among P (seen ++ filter P a) b.
Proof.
  induction a as [|p a IH]; intros seen; [cbn; by rewrite app_nil_r|].
  cbn [app changes_among]. rewrite filter_cons. case_decide as HP.
  - rewrite IH, <- !app_assoc. done.
  - by rewrite IH.
Qed.
Lemma compact_ops target h L h' L' k : consistent L -> compact target (h, L) = ((h', L'), Ok tt) ->
  ops_between L' 0 k = changes_among (under target) [] (ops_between L 0 k).
Proof.
  intros HC E. pose proof (compact_spec target h L HC) as HS. rewrite E in HS. destruct HS as (_ & HS & _).
  remember (N.to_nat k) as d eqn:Ed. revert k Ed. induction d as [|d IH]; intros k Ed.
  - rewrite !ops_between_empty by lia. done.
  - assert (Ek : k = (k - 1 + 1)%N) by lia. rewrite Ek, !ops_between_snoc by lia.
    rewrite changes_among_app, (IH (k - 1)%N) by lia. f_equal. cbn [app].
    unfold patch_at. rewrite HS. by destruct (l_patches L !! (k - 1)%N).
Qed.
Lemma ops_from_one L k : consistent L -> (1 <= k)%N -> ops_between L 0 k = ops_between L 1 k.
Proof.
  intros HC Hk. rewrite (ops_between_le L 0 1) by lia.
  change (ops_between L 0 1) with (patch_at L 0 ++ []). rewrite no_patch_empty; [done|].
  destruct HC as (n' & _ & Hp & _). rewrite Hp. lia.
Qed.
Lemma ops_beyond L n k : consistent L -> l_version L = nats (S n) -> (N.of_nat n + 1 <= k)%N -> ops_between L 0 k = all_ops L.
Proof.
  intros HC Hn Hk. unfold all_ops. rewrite Hn, nats_last. rewrite (ops_between_le L 0 (N.of_nat n + 1)) by lia.
  assert (E : ops_between L (N.of_nat n + 1) k = []); [|by rewrite E, app_nil_r].
  rewrite ops_between_range. assert (HF : forall v, v ∈ range (N.of_nat n + 1) k -> patch_at L v = []).
  { intros v Hv. apply range_elem in Hv. apply no_patch_empty. destruct HC as (n' & Hn' & Hp & _).
    assert (n' = n) as -> by (by eapply version_count). rewrite Hp. lia. }
  induction (range (N.of_nat n + 1) k) as [|v vs IH]; [done|]. cbn. rewrite HF by apply elem_of_list_here. cbn.
  apply IH. intros w Hw. apply HF. by apply elem_of_list_further.
Qed.
Lemma ops_in_all L lo hi p : consistent L -> p ∈ ops_between L lo hi -> p ∈ all_ops L.
Proof.
  intros HC Hp. destruct (versions_of L HC) as [n Hn].
  rewrite ops_between_range in Hp. apply elem_of_list_In, in_concat in Hp as (ps & Hps & Hp).
  apply in_map_iff in Hps as (v & <- & Hv). apply elem_of_list_In in Hp.
  assert (Hin : p ∈ ops_between L 0 (N.max (v + 1) (N.of_nat n + 1))).
  { rewrite ops_between_range. apply elem_of_list_In, in_concat. exists (patch_at L v). split; [|by apply elem_of_list_In].
    apply in_map, elem_of_list_In, range_elem. lia. }
  by rewrite (ops_beyond L n) in Hin by (done || lia).
Qed.
Lemma under_path target p q : op_path p = op_path q -> under target p -> under target q.
Proof. intros E. unfold under. by rewrite E. Qed.

Lemma compact_replay target h L t0 : reachable (h, L) -> is_obj t0 -> independent t0 (all_ops L) ->
  exists L', compact target (h, L) = ((h, L'), Ok tt) ∧
  forall k, (1 <= k)%N -> exists t t', applied t0 (ops_between L 1 k) t ∧ applied t0 (ops_between L' 1 k) t' ∧ alike t t'.
Proof.
  intros HR Ht0 HI. apply reachable_consistent in HR. cbn in HR. apply independent_good in HI.
  pose proof (compact_spec target h L HR) as HS.
  assert (HC' : consistent (snd (fst (compact target (h, L))))) by (by apply (run_call_consistent (CCompact target))).
  destruct (compact target (h, L)) as [[h' L'] r] eqn:E. destruct r as [[]| |]; [|done|].
  - destruct HS as ((-> & _) & _). exists L'. split; [done|]. intros k Hk. cbn in HC'.
    rewrite <- (ops_from_one L), <- (ops_from_one L') by done. rewrite (compact_ops target h L h L' k HR E).
    destruct (replay_filtered (under target) (under_path target) (all_ops L) (ops_between L 0 k) [] t0 t0) as (t1 & t2 & E1 & E2 & HA).
    + apply alike_refl.
    + done.
    + intros j q Hq. done.
    + by intros q ?%elem_of_nil.
    + intros q Hq. by eapply ops_in_all.
    + exists t1, t2. split; [by apply papply_applied|]. split; [by apply papply_applied|done].
  - exfalso. destruct HS as (pre & p & q & post & El & Hl & Hn). destruct HI as [H1 _].
    assert (Hp : p ∈ all_ops L).
    { destruct (last_on_in _ _ _ Hl) as [Hin _]. assert (HX : p ∈ filter (under target) (all_ops L)) by (rewrite El; apply elem_of_app; by left).
      by apply elem_of_list_filter in HX as [_ ?]. }
    destruct (H1 p Hp) as (_ & [x Hx] & _). destruct Hx; inversion Hn.
Qed.
Lemma compact_replay_obj target h L t0 : reachable (h, L) -> (exists m, t0 = TObj m) -> independent t0 (all_ops L) ->
  exists L', compact target (h, L) = ((h, L'), Ok tt) ∧
  forall k, (1 <= k)%N -> exists t t', applied t0 (ops_between L 1 k) t ∧ applied t0 (ops_between L' 1 k) t' ∧ alike t t'.
Proof. intros HR [m ->]. by apply compact_replay. Qed.
