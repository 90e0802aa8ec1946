(** The documents of a run. *)
From Verif Require Import Base BaseSpec BaseLemmas F64 Tson Bytes TjsonSpec TjsonLemmas Vss Sensor Scenario Sim SimSpec SimTrace SimLemmas SimTimes.

(** ** One update of a document *)
Definition apart (l l' : list string) : Prop := ~ l `prefix_of` l' ∧ ~ l' `prefix_of` l.
Lemma wbelow_cons k l m : wbelow (k :: l) (WObj m) = match alookup k m with Some c => wbelow l c | None => None end.
Proof. done. Qed.
Lemma update_more put k k2 r m :
  update_doc put (k :: k2 :: r) m = ainsert k (WObj (update_doc put (k2 :: r) (sub_map (alookup k m)))) m.
Proof. done. Qed.
Lemma below_sub k2 r o : match o with Some c => wbelow (k2 :: r) c | None => None end = wbelow (k2 :: r) (WObj (sub_map o)).
Proof. by destruct o as [[]|]. Qed.
Lemma update_here put l m : l ≠ [] -> wbelow l (WObj (update_doc put l m)) = Some (put (wbelow l (WObj m))).
Proof.
  revert m. induction l as [|k [|k2 r] IH]; intros m Hl; [done| |].
  - cbn [update_doc]. rewrite !wbelow_cons, alookup_ainsert_eq. cbn [wbelow]. by destruct (alookup k m).
  - rewrite update_more, wbelow_cons, alookup_ainsert_eq, IH; [|done]. by rewrite (wbelow_cons k), below_sub.
Qed.
Lemma update_apart put l l' m : apart l l' -> wbelow l' (WObj (update_doc put l m)) = wbelow l' (WObj m).
Proof.
  revert l' m. induction l as [|k [|k2 r] IH]; intros l' m [H1 H2]; [by destruct H1; apply prefix_nil| |].
  - destruct l' as [|k' r']; [by destruct H2; apply prefix_nil|]. cbn [update_doc]. rewrite !wbelow_cons, alookup_ainsert_ne; [done|].
    intros ->. apply H1. apply prefix_cons, prefix_nil.
  - destruct l' as [|k' r']; [by destruct H2; apply prefix_nil|]. rewrite update_more, !wbelow_cons.
    destruct (decide (k' = k)) as [->|Hne]; [|by rewrite alookup_ainsert_ne].
    rewrite alookup_ainsert_eq. destruct r' as [|k3 r']; [by destruct H2; apply prefix_cons, prefix_nil|].
    rewrite IH; [by rewrite below_sub|]. split; intros H; [apply H1|apply H2]; by apply prefix_cons.
Qed.
Lemma update_way put l l' m : l' `prefix_of` l -> l' ≠ l -> exists m', wbelow l' (WObj (update_doc put l m)) = Some (WObj m').
Proof.
  revert l' m. induction l as [|k [|k2 r] IH]; intros l' m Hp Hne.
  - apply prefix_nil_inv in Hp. by subst.
  - destruct l' as [|k' r']; [by eexists|]. pose proof (prefix_cons_inv_1 _ _ _ _ Hp) as E. apply prefix_cons_inv_2 in Hp.
    apply prefix_nil_inv in Hp. by subst.
  - destruct l' as [|k' r']; [by eexists|]. pose proof (prefix_cons_inv_1 _ _ _ _ Hp) as ->. apply prefix_cons_inv_2 in Hp.
    rewrite update_more, wbelow_cons, alookup_ainsert_eq. apply IH; [done|congruence].
Qed.

Lemma add_path_update stamp l v t m : l ≠ [] ->
  (forall k x, k `prefix_of` l -> k ≠ l -> wbelow k (WObj m) = Some x -> exists m', x = WObj m') ->
  add_path stamp l v t m = Ok (update_doc (fun _ => leaf_obj stamp v t) l m).
Proof.
  revert m. induction l as [|k [|k2 r] IH]; intros m Hl H; [done|done|].
  rewrite update_more. change (add_path stamp (k :: k2 :: r) v t m) with
    (match alookup k m with
     | None => do c <- add_path stamp (k2 :: r) v t []; Ok (ainsert k (WObj c) m)
     | Some (WObj c) => do c' <- add_path stamp (k2 :: r) v t c; Ok (ainsert k (WObj c') m)
     | Some _ => Panic
     end).
  assert (G : forall m0, sub_map (alookup k m) = m0 -> add_path stamp (k2 :: r) v t m0 = Ok (update_doc (fun _ => leaf_obj stamp v t) (k2 :: r) m0)).
  { intros m0 E. apply IH; [done|]. intros k' x Hp Hne Hx. destruct k' as [|a k']; [cbn in Hx; injection Hx as <-; by eexists|].
    apply (H (k :: a :: k') x); [by apply prefix_cons|congruence|]. rewrite wbelow_cons, below_sub. by rewrite E. }
  destruct (alookup k m) as [c|] eqn:E; [|by rewrite (G [])].
  destruct (H [k] c) as [m' ->]; [apply prefix_cons, prefix_nil|done|by rewrite wbelow_cons, E|]. by rewrite (G m').
Qed.

(** ** The leaves of a document *)
Lemma holds_iff d P Q : (forall l n, P l n <-> Q l n) -> holds_leaves d P -> holds_leaves d Q.
Proof.
  intros E [H1 H2]. split; [intros l n Hq; apply H1; by apply E|]. intros l x Hx Hl.
  destruct (H2 l x Hx Hl) as (l0 & n & Hn & C). exists l0, n. split; [by apply E|done].
Qed.
Lemma holds_nil : holds_leaves [] (fun _ _ => False).
Proof. split; [done|]. intros [|k l] x Hx Hl; done. Qed.
Lemma holds_update d (leaf : list string -> wjson -> Prop) put l : holds_leaves d leaf -> l ≠ [] ->
  (forall l0 n, leaf l0 n -> l0 = l ∨ apart l l0) ->
  holds_leaves (update_doc put l d) (fun l' n => (l' = l ∧ n = put (wbelow l (WObj d))) ∨ (l' ≠ l ∧ leaf l' n)).
Proof.
  intros [H1 H2] Hl Ha. split.
  - intros l' n [[-> ->]|[Hne Hn]]; [by apply update_here|]. destruct (Ha l' n Hn) as [|Hap]; [done|].
    rewrite update_apart; [by apply H1|done].
  - intros l' x Hx Hl'. destruct (decide (l' = l)) as [->|Hne].
    { exists l, (put (wbelow l (WObj d))). split; [by left|right; done]. }
    destruct (decide (l `prefix_of` l')) as [Hp|Hnp].
    { exists l, (put (wbelow l (WObj d))). split; [by left|by right]. }
    destruct (decide (l' `prefix_of` l)) as [Hp|Hnp'].
    { destruct (update_way put l l' d Hp Hne) as [m' E]. rewrite Hx in E. injection E as ->.
      exists l, (put (wbelow l (WObj d))). split; [by left|left]. split; [done|by eexists]. }
    rewrite update_apart in Hx by (by split). destruct (H2 l' x Hx Hl') as (l0 & n & Hn & C).
    destruct (decide (l0 = l)) as [->|Hne0].
    + exfalso. destruct C as [[C _]|C]; done.
    + exists l0, n. split; [by right|done].
Qed.

(** Paths of which none is below another. *)
Definition apart_paths (ks : list string) : Prop :=
  forall p q, p ∈ ks -> q ∈ ks -> p ≠ q -> ~ split_on dot p `prefix_of` split_on dot q.
Definition leaves (stamp : string) (ks : list string) (cur : string -> prim * Z) (l : list string) (n : wjson) : Prop :=
  exists p, p ∈ ks ∧ l = split_on dot p ∧ n = leaf_obj stamp (fst (cur p)) (snd (cur p)).
Definition put_cur (p : string) (v : prim) (t : Z) (cur : string -> prim * Z) (q : string) : prim * Z :=
  if decide (q = p) then (v, t) else cur q.
Lemma split_not_nil p : split_on dot p ≠ [].
Proof.
  destruct (split_on dot p) eqn:E; [|done]. apply (names_split dot) in E. inversion E.
Qed.
Lemma apart_split ks p q : apart_paths ks -> p ∈ ks -> q ∈ ks -> split_on dot q = split_on dot p ∨ apart (split_on dot p) (split_on dot q).
Proof.
  intros Ha Hp Hq. destruct (decide (p = q)) as [->|Hne]; [by left|]. right. split; apply Ha; auto.
Qed.
Lemma leaves_update stamp ks cur d p v t (put : option wjson -> wjson) :
  apart_paths ks -> p ∈ ks -> holds_leaves d (leaves stamp ks cur) ->
  (forall x z, put (Some (leaf_obj stamp x z)) = leaf_obj stamp v t) ->
  holds_leaves (update_doc put (split_on dot p) d) (leaves stamp ks (put_cur p v t cur)).
Proof.
  intros Ha Hp Hd Hput. eapply holds_iff; [|apply (holds_update d _ put (split_on dot p) Hd)].
  - intros l n. cbn. assert (Eb : wbelow (split_on dot p) (WObj d) = Some (leaf_obj stamp (fst (cur p)) (snd (cur p)))).
    { apply Hd. by exists p. }
    rewrite Eb, Hput. unfold leaves, put_cur. split.
    + intros [[-> ->]|[Hne (q & Hq & -> & ->)]].
      * exists p. by rewrite decide_True.
      * exists q. rewrite decide_False; [done|]. by intros ->.
    + intros (q & Hq & -> & ->). destruct (decide (q = p)) as [->|Hne]; [by left|]. right. split; [|by exists q].
      intros E. apply (Ha p q); auto. by rewrite E.
  - apply split_not_nil.
  - intros l0 n (q & Hq & -> & _). by apply (apart_split ks).
Qed.
Lemma leaves_add stamp ks cur d p v t : apart_paths (p :: ks) -> p ∉ ks -> holds_leaves d (leaves stamp ks cur) ->
  exists d', add_path stamp (split_on dot p) v t d = Ok d' ∧ holds_leaves d' (leaves stamp (p :: ks) (put_cur p v t cur)).
Proof.
  intros Ha Hp Hd.
  assert (Hsep : forall q, q ∈ ks -> apart (split_on dot p) (split_on dot q)).
  { intros q Hq. assert (p ≠ q) by (by intros ->). split; apply Ha; auto; try (by left); by right. }
  eexists. split.
  - apply add_path_update; [apply split_not_nil|]. intros k x Hk Hne Hx. destruct k as [|a k]; [cbn in Hx; injection Hx as <-; by eexists|].
    destruct Hd as [_ H2]. destruct (H2 _ _ Hx) as (l0 & n & (q & Hq & -> & _) & C); [done|]. destruct (Hsep q Hq) as [N1 N2].
    destruct C as [[_ C]|C]; [done|]. destruct N2. by etransitivity.
  - eapply holds_iff; [|apply (holds_update d _ _ (split_on dot p) Hd)].
    + intros l n. cbn. unfold leaves, put_cur. split.
      * intros [[-> ->]|[Hne (q & Hq & -> & ->)]].
        -- exists p. split; [by left|]. by rewrite decide_True.
        -- exists q. split; [by right|]. rewrite decide_False; [done|]. by intros ->.
      * intros (q & Hq & -> & ->). destruct (decide (q = p)) as [->|Hne]; [by left|].
        apply elem_of_cons in Hq as [|Hq]; [done|]. right. split; [|by exists q].
        intros E. apply (Hsep q Hq). by rewrite E.
    + apply split_not_nil.
    + intros l0 n (q & Hq & -> & _). right. by apply Hsep.
Qed.

(** ** The first documents *)
Definition init_of (xs : smap) (p : string) : prim * Z :=
  match alookup p xs with Some s => (s_value s, s_stamp s) | None => (PBool false, 0) end.
Lemma leaves_cur stamp ks cur cur' d : (forall p, p ∈ ks -> cur p = cur' p) -> holds_leaves d (leaves stamp ks cur) ->
  holds_leaves d (leaves stamp ks cur').
Proof.
  intros E. apply holds_iff. intros l n. split; intros (p & Hp & -> & ->); exists p; by rewrite (E p Hp).
Qed.
Lemma leaves_keys stamp ks ks' cur d : (forall p, p ∈ ks <-> p ∈ ks') -> holds_leaves d (leaves stamp ks cur) ->
  holds_leaves d (leaves stamp ks' cur).
Proof.
  intros E. apply holds_iff. intros l n. split; intros (p & Hp & -> & ->); exists p; split; [by apply E|done|by apply E|done].
Qed.
Lemma add_all_leaves stamp (xs : smap) ks cur d : apart_paths (akeys xs ++ ks) -> NoDup (akeys xs ++ ks) ->
  holds_leaves d (leaves stamp ks cur) ->
  exists d', add_all stamp xs d = Ok d' ∧
    holds_leaves d' (leaves stamp (akeys xs ++ ks) (fun p => if decide (p ∈ akeys xs) then init_of xs p else cur p)).
Proof.
  revert ks cur d. induction xs as [|[p s] xs IH]; intros ks cur d Ha Hnd Hd; cbn [akeys map fst app add_all] in *.
  - exists d. split; [done|]. eapply leaves_cur; [|exact Hd]. intros q _. rewrite decide_False; [done|]. by intros ?%elem_of_nil.
  - apply NoDup_cons in Hnd as [Hp Hnd]. rewrite not_elem_of_app in Hp. destruct Hp as [Hp1 Hp2].
    destruct (leaves_add stamp ks cur d p (s_value s) (s_stamp s)) as (d1 & E1 & H1).
    { intros a b Ha' Hb'. apply Ha; [apply elem_of_cons in Ha' as [->|]|apply elem_of_cons in Hb' as [->|]];
        rewrite elem_of_cons, elem_of_app; auto. }
    { done. } { done. }
    unfold add_sensor. cbn [fst snd]. rewrite E1. cbn [rbind].
    destruct (IH (p :: ks) (put_cur p (s_value s) (s_stamp s) cur) d1) as (d2 & E2 & H2).
    { intros a b Ha' Hb'. apply Ha; [clear Hb'; set_solver|set_solver]. }
    { apply NoDup_app. apply NoDup_app in Hnd as (N1 & N2 & N3). split; [done|]. split.
      - intros x Hx. rewrite elem_of_cons. intros [->|]; [done|]. by apply (N2 x).
      - by constructor. }
    { done. }
    exists d2. split; [done|]. eapply leaves_keys, leaves_cur; [| |exact H2].
    + intros q. set_solver.
    + intros q Hq. cbn. unfold put_cur, init_of. cbn [alookup]. destruct (decide (q = p)) as [->|Hne].
      * rewrite decide_False by done. rewrite decide_True by (by left). done.
      * destruct (decide (q ∈ akeys xs)) as [Hin|Hnin].
        -- rewrite decide_True by (by right). done.
        -- rewrite decide_False; [done|]. intros [|]%elem_of_cons; done.
Qed.

Lemma separate_apart v : separate v -> NoDup (akeys (sensors v)) ∧ apart_paths (akeys (sensors v)).
Proof.
  intros [H1 H2]. split; [done|]. intros p q Hp Hq Hne. apply (H2 p q); auto; by apply names_split.
Qed.
Lemma reorder_permutation ord i v : (forall i g, Permutation (ord i g) g) -> Permutation (concat (reorder ord i v)) (concat v).
Proof.
  intros Ho. revert i. induction v as [|g v IH]; intros i; [done|]. cbn [reorder concat]. by rewrite Ho, IH.
Qed.
Lemma vehicle_doc_leaves stamp v xs : Permutation (concat v) xs -> NoDup (akeys xs) -> apart_paths (akeys xs) ->
  exists d, vehicle_doc stamp v = Ok d ∧ holds_leaves d (leaves stamp (akeys xs) (init_of xs)).
Proof.
  intros P Hnd Ha. unfold vehicle_doc.
  assert (Pk : Permutation (akeys (concat v)) (akeys xs)) by (by apply Permutation_map).
  destruct (add_all_leaves stamp (concat v) [] (fun _ => (PBool false, 0)) []) as (d & E & H).
  - rewrite app_nil_r. intros p q Hp Hq. apply Ha; by rewrite <- Pk.
  - rewrite app_nil_r. by rewrite Pk.
  - eapply holds_iff; [|apply holds_nil]. intros l n. split; [done|]. intros (p & Hp & _). by apply elem_of_nil in Hp.
  - exists d. split; [done|]. eapply leaves_keys, leaves_cur; [| |exact H].
    + intros p. rewrite app_nil_r. by rewrite Pk.
    + intros p Hp. rewrite app_nil_r in Hp. cbn. rewrite decide_True by done. unfold init_of.
      rewrite (alookup_perm (concat v) xs p); [done|by rewrite Pk|done].
Qed.
Lemma start_leaves w v sc : orders_ok w -> separate v ->
  exists m, start w v sc = Ok m ∧
    holds_leaves (m_json m) (leaves "timestamp" (akeys (sensors v)) (init_of (sensors v))) ∧
    holds_leaves (m_tson m) (leaves "_ts" (akeys (sensors v)) (init_of (sensors v))).
Proof.
  intros [_ Ho] [Hnd Ha]%separate_apart. unfold start.
  destruct (vehicle_doc_leaves "timestamp" (reorder (w_doc_order w "timestamp") 0 v) (sensors v)) as (j & -> & Hj);
    [apply reorder_permutation; auto|done|done|].
  destruct (vehicle_doc_leaves "_ts" (reorder (w_doc_order w "_ts") 0 v) (sensors v)) as (s & -> & Hs);
    [apply reorder_permutation; auto|done|done|].
  cbn [rbind]. eexists. split; [done|]. by split.
Qed.

(** ** After the updates *)
Definition cur_json (us : list upd) (cur : string -> prim * Z) : string -> prim * Z :=
  fold_left (fun cur u => put_cur (u_path u) (u_value u) (u_time u) cur) us cur.
Lemma json_leaves us ks cur d : apart_paths ks -> Forall (fun u => u_path u ∈ ks) us ->
  holds_leaves d (leaves "timestamp" ks cur) -> holds_leaves (json_after us d) (leaves "timestamp" ks (cur_json us cur)).
Proof.
  intros Ha Hu. revert cur d. induction Hu as [|u us Hu _ IH]; intros cur d Hd; [done|]. unfold json_after, cur_json. cbn [fold_left].
  apply IH. unfold update_json. apply leaves_update; [done..|]. done.
Qed.
Lemma tson_leaves us ks cur d : apart_paths ks -> Forall (fun u => u_path u ∈ ks) us ->
  holds_leaves d (leaves "_ts" ks cur) -> holds_leaves (tson_after us d) (leaves "_ts" ks (cur_json (changed_only us) cur)).
Proof.
  intros Ha Hu. revert cur d. induction Hu as [|u us Hu _ IH]; intros cur d Hd; [done|]. unfold tson_after, changed_only. cbn [fold_left List.filter].
  destruct (u_changed u); [|by apply IH]. cbn [fold_left cur_json]. apply IH. unfold update_tson. by apply leaves_update.
Qed.
Lemma cur_snoc us u cur p : cur_json (us ++ [u]) cur p = if decide (p = u_path u) then (u_value u, u_time u) else cur_json us cur p.
Proof. unfold cur_json. by rewrite fold_left_app. Qed.
Lemma cur_latest us cur p : latest (map set_of us) p (fst (cur p)) (snd (cur p)) (fst (cur_json us cur p)) (snd (cur_json us cur p)).
Proof.
  induction us as [|u us IH] using rev_ind; [constructor; by intros q ?%elem_of_nil|].
  rewrite cur_snoc, map_app. cbn [map].
  destruct (decide (p = u_path u)) as [->|Hne].
  - apply (lt_last _ _ _ _ (map set_of us) (set_of u) []); [done|done|]. by intros q ?%elem_of_nil.
  - inversion IH as [Hno E1 E2|a q b E Hq Hb E1 E2].
    + apply lt_none. intros q [Hq|Hq%elem_of_list_singleton]%elem_of_app; [by apply Hno|]. subst q. cbn. congruence.
    + apply (lt_last _ _ _ _ a q (b ++ [set_of u])).
      * rewrite E. by rewrite <- app_assoc.
      * done.
      * intros q' [Hq'|Hq'%elem_of_list_singleton]%elem_of_app; [by apply Hb|]. subst q'. cbn. congruence.
Qed.
Lemma latest_det ps p v0 z0 v z v' z' : latest ps p v0 z0 v z -> latest ps p v0 z0 v' z' -> v = v' ∧ z = z'.
Proof.
  intros H H'. inversion H as [Hno E1 E2|a q b E Hq Hb E1 E2]; inversion H' as [Hno' F1 F2|a' q' b' E' Hq' Hb' F1 F2]; subst.
  - done.
  - exfalso. by apply (Hno q'); [set_solver|].
  - exfalso. apply (Hno' q); [set_solver|done].
  - assert (q = q'); [|by subst].
    clear H H'. revert a' E'. induction a as [|x a IH]; intros [|x' a'] E'; cbn in E'.
    + congruence.
    + injection E' as -> ->. exfalso. apply (Hb q'); [set_solver|done].
    + injection E' as -> E'. exfalso. apply (Hb' q); [set_solver|done].
    + injection E' as -> E'. by apply (IH a').
Qed.

Lemma leaves_spec stamp v us d : NoDup (akeys (sensors v)) ->
  holds_leaves d (leaves stamp (akeys (sensors v)) (cur_json us (init_of (sensors v)))) ->
  holds_leaves d (fun l n => exists p s x z, (p, s) ∈ sensors v ∧ dotted p l ∧
    latest (map set_of us) p (s_value s) (s_stamp s) x z ∧ leaf_of stamp x z n).
Proof.
  intros Hnd. apply holds_iff. intros l n. split.
  - intros (p & Hp & -> & ->). apply elem_of_list_fmap in Hp as ([q s] & -> & Hin). exists q, s.
    pose proof (cur_latest us (init_of (sensors v)) q) as L. unfold init_of at 1 2 in L.
    rewrite (alookup_in q s (sensors v) Hnd Hin) in L. do 2 eexists. split; [done|]. split; [by apply names_split|]. by split; [exact L|].
  - intros (p & s & x & z & Hin & Hl & L & ->). exists p. split; [apply elem_of_list_fmap; by exists (p, s)|].
    split; [symmetry; by apply names_split|].
    pose proof (cur_latest us (init_of (sensors v)) p) as L'. unfold init_of at 1 2 in L'.
    rewrite (alookup_in p s (sensors v) Hnd Hin) in L'. destruct (latest_det _ _ _ _ _ _ _ _ L L') as [-> ->]. done.
Qed.

Lemma documents w v sc sec inc m : simulate w v sc sec inc = Ok m -> orders_ok w -> separate v ->
  0 < inc ->
  holds_leaves (m_json m) (fun l n => exists p s x z, (p, s) ∈ sensors v ∧ dotted p l ∧
    latest (m_spatches m) p (s_value s) (s_stamp s) x z ∧ leaf_of "timestamp" x z n) ∧
  holds_leaves (m_tson m) (fun l n => exists p s x z, (p, s) ∈ sensors v ∧ dotted p l ∧
    latest (m_tpatches m) p (s_value s) (s_stamp s) x z ∧ leaf_of "_ts" x z n).
Proof.
  intros (m0 & H0 & H)%simulate_inv Ho Hs Hi. destruct (separate_apart v Hs) as [Hnd Ha].
  destruct (start_leaves w v sc Ho Hs) as (m1 & E1 & Lj & Lt). rewrite H0 in E1. injection E1 as <-.
  apply start_zero in H0 as (V & _ & _ & J & T & S & _).
  apply run_times_times in H as (us & A & _ & F & _); [|apply Ho|by rewrite V|by apply loop_times_sorted].
  assert (F' : Forall (fun u => u_path u ∈ akeys (sensors v)) us).
  { eapply List.Forall_impl; [|exact F]. intros u [_ Hu]. by rewrite V in Hu. }
  destruct A. rewrite af_json, af_tson, af_tp, af_sp, T, S. cbn [app].
  split; apply leaves_spec; [done|by apply json_leaves|done|by apply tson_leaves].
Qed.
