(** Lemmas on the initial patches. *)
From stdpp Require Import pretty.
From Verif Require Import Base BaseSpec BaseSpecLemmas BaseLemmas F64 Tson TsonInd TextSpec TsonSpec.
From Verif Require Import Tjson TjsonSpec TjsonLemmas Initial InitialSpec.
From Coq Require Import Lia.

(** ** transformJsonStructure *)
Lemma alookup_none {V} k (m : list (string * V)) : k ∉ map fst m -> alookup k m = None.
Proof.
  induction m as [|[k' v] m IH]; [done|]. simpl. intros H. apply not_elem_of_cons in H as [H1 H2].
  rewrite decide_False by done. auto.
Qed.
Lemma transform_obj m :
  ~ ("timestamp" ∈ map fst m ∧ "value" ∈ map fst m) ->
  transform (JObj m) = JObj (map (fun kv => (fst kv, transform (snd kv))) m).
Proof.
  intros H. cbn [transform].
  destruct (decide ("timestamp" ∈ map fst m)) as [H1|H1]; [|by rewrite (alookup_none _ _ H1)].
  destruct (decide ("value" ∈ map fst m)) as [H2|H2]; [by destruct H|].
  rewrite (alookup_none _ _ H2). by destruct (alookup "timestamp" m).
Qed.
Lemma transform_plain j : unstamped_json j -> transform j = j.
Proof.
  induction j as [|b|f|s|l IH|m IH] using json_ind'; try done; intros H; inversion H as [j' Hc|l' HF|m' Hn HF]; subst.
  - exfalso. apply Hc. right. eauto.
  - cbn [transform]. f_equal. clear H. induction IH as [|x l Hx IH IHl]; [done|]. inversion HF; subst.
    simpl. f_equal; auto.
  - exfalso. apply Hc. left. eauto.
  - rewrite transform_obj by done. f_equal. clear H Hn. induction IH as [|[k x] l Hx IH IHl]; [done|].
    inversion HF; subst. simpl in *. f_equal; [f_equal|]; auto.
Qed.
Lemma transform_compat t : unstamped t -> transform (compat_image t) = plain_json t.
Proof.
  induction t as [|p ts|m IH|l IH] using tson_ind'; intros Hu.
  - done.
  - by destruct p.
  - inversion Hu as [| | |m' Hc HF]; subst. cbn [compat_image]. rewrite transform_obj.
    2:{ rewrite map_map. simpl. done. }
    cbn [plain_json]. f_equal. rewrite map_map. simpl. clear Hu Hc.
    induction IH as [|[k x] m Hx IH IHm]; [done|]. inversion HF; subst. simpl in *.
    f_equal; [f_equal|]; auto.
  - inversion Hu as [| |l' HF|]; subst. cbn [compat_image transform plain_json]. f_equal. rewrite map_map. clear Hu.
    induction IH as [|x l Hx IH IHl]; [done|]. inversion HF; subst. simpl in *.
    f_equal; auto.
Qed.
Lemma transform_file t j : unstamped t -> to_compatible t = Ok j -> transform j = plain_json t.
Proof.
  unfold to_compatible. destruct (encodable t); [|done]. intros H [= <-]. by apply transform_compat.
Qed.
Lemma transform_stripped j : named (fun _ => True) j -> stripped j (transform j).
Proof.
  induction j as [|b|f|s|l IH|m IH] using json_ind'; intros H; try (apply st_scalar; by intros [[? ?]|[? ?]]).
  - inversion H as [j' Hc|l' HF|]; subst; [exfalso; apply Hc; right; eauto|].
    cbn [transform]. apply st_arr. clear H. induction IH as [|x l Hx IH IHl]; [constructor|]. inversion HF; subst.
    cbn [map]. constructor; auto.
  - inversion H as [j' Hc| |m' ND _ HF]; subst; [exfalso; apply Hc; left; eauto|].
    destruct (decide ("timestamp" ∈ map fst m ∧ "value" ∈ map fst m)) as [[H1 H2]|Hn].
    + cbn [transform]. destruct (alookup "timestamp" m) eqn:E1; [|by apply alookup_None_iff in E1].
      destruct (alookup "value" m) as [v|] eqn:E2; [|by apply alookup_None_iff in E2].
      apply alookup_Some_in in E2. destruct v; try (by apply st_leaf). by apply st_null.
    + rewrite transform_obj by done. apply st_obj; [done|]. clear H Hn ND. induction IH as [|[k x] l Hx IH IHl]; [constructor|].
      inversion HF; subst. cbn [map fst snd]. constructor; [split; [done|auto]|auto].
Qed.
Lemma member_once (m : list (string * json)) k v w : NoDup (map fst m) -> (k, v) ∈ m -> (k, w) ∈ m -> v = w.
Proof. intros ND H1 H2. apply (alookup_in _ _ _ ND) in H1, H2. congruence. Qed.
Lemma stripped_fun j : forall a b, named (fun _ => True) j -> stripped j a -> stripped j b -> a = b.
Proof.
  assert (HS : forall (x : json), (forall m, x ≠ JObj m) -> (forall l, x ≠ JArr l) -> forall a b, stripped x a -> stripped x b -> a = b).
  { intros x H1 H2 a b Ha Hb. inversion Ha; inversion Hb; subst; try done; try (exfalso; by eapply H1); exfalso; by eapply H2. }
  assert (HC : forall m, scalar (JObj m) -> False) by (intros m Hc; apply Hc; left; eauto).
  assert (HA : forall l, scalar (JArr l) -> False) by (intros m Hc; apply Hc; right; eauto).
  induction j as [|b|f|s|l IH|m IH] using json_ind'; intros a b' H Ha Hb; try (by refine (HS _ _ _ _ _ Ha Hb)).
  - inversion H as [j' Hc|l' HF|]; subst; [by apply HA in Hc|].
    inversion Ha as [? Hc|? l1 F1| | |]; subst; [by apply HA in Hc|]. inversion Hb as [? Hc|? l2 F2| | |]; subst; [by apply HA in Hc|].
    f_equal. clear H Ha Hb. revert l1 l2 F1 F2. induction IH as [|x l Hx IH IHl]; intros l1 l2 F1 F2.
    + inversion F1; inversion F2; by subst.
    + inversion F1 as [|? y ? l1' R1 F1']; inversion F2 as [|? z ? l2' R2 F2']; subst. inversion HF; subst. f_equal; [by apply Hx|by apply IHl].
  - inversion H as [j' Hc| |m' ND _ HF]; subst; [by apply HC in Hc|].
    inversion Ha as [? Hc| |? T1 V1|? v1 T1 V1 N1|? m1 N1 F1]; subst; [by apply HC in Hc|..];
      inversion Hb as [? Hc| |? T2 V2|? v2 T2 V2 N2|? m2 N2 F2]; subst; try (by apply HC in Hc); try done.
    + by destruct (member_once _ _ _ _ ND V1 V2).
    + exfalso. apply N2. split; [done|]. apply elem_of_list_fmap. by eexists (_, _).
    + by destruct (member_once _ _ _ _ ND V1 V2).
    + by apply (member_once _ _ _ _ ND V1 V2).
    + exfalso. apply N2. split; [done|]. apply elem_of_list_fmap. by eexists (_, _).
    + exfalso. apply N1. split; [done|]. apply elem_of_list_fmap. by eexists (_, _).
    + exfalso. apply N1. split; [done|]. apply elem_of_list_fmap. by eexists (_, _).
    + f_equal. clear H Ha Hb N1 N2 ND. revert m1 m2 F1 F2. induction IH as [|[k x] l Hx IH IHl]; intros m1 m2 F1 F2.
      * inversion F1; inversion F2; by subst.
      * inversion F1 as [|? [k1 y] ? l1' [R1 R1'] F1']; inversion F2 as [|? [k2 z] ? l2' [R2 R2'] F2']; subst. inversion HF; subst.
        cbn [fst snd] in *. subst. f_equal; [f_equal; by apply Hx|by apply IHl].
Qed.
Lemma transform_spec j j' : named (fun _ => True) j -> transform j = j' <-> stripped j j'.
Proof.
  intros H. pose proof (transform_stripped j H) as HT. split; [by intros <-|]. intros Hs. by apply (stripped_fun j).
Qed.

(** ** generateInitialPatches *)
Lemma primitive_scalar j : is_primitive j = true <-> scalar j.
Proof.
  unfold scalar, jcontainer. split.
  - intros H [[m ->]|[l ->]]; done.
  - destruct j; try done; intros H; exfalso; apply H; eauto.
Qed.
Definition under (path : string) (l : list string) : string :=
  match l with
  | [] => path
  | _ => if decide (path = "") then String.concat "." l else path +++ "." +++ String.concat "." l
  end.
Definition prims (m : list (string * json)) := List.filter (fun kv => is_primitive (snd kv)) m.
Fixpoint gen_members (path : string) (ps m : list (string * json)) : list tpatch :=
  match m with
  | [] => []
  | (key, value) :: m' =>
      (match ps with [] => [] | _ => [add_patch path (JObj ps)] end)
      ++ gen_initial (if decide (path = "") then key else path +++ "." +++ key) value
      ++ gen_members path ps m'
  end.
Fixpoint gen_elems (path : string) (i : nat) (l : list json) : list tpatch :=
  match l with
  | [] => []
  | item :: l' => gen_initial (path +++ "." +++ pretty i) item ++ gen_elems path (S i) l'
  end.
Lemma gen_obj path m : gen_initial path (JObj m) = gen_members path (prims m) m.
Proof.
  cbn [gen_initial]. unfold prims at 1.
  generalize (List.filter (fun kv : string * json => is_primitive (snd kv)) m) as ps. intros ps.
  induction m as [|[k v] m IH]; [done|]. cbn [gen_members]. by rewrite IH.
Qed.
Lemma dot_ne path s : path +++ "." +++ s ≠ "".
Proof. by destruct path. Qed.
Lemma gen_arr path l : gen_initial path (JArr l) = gen_elems path 0 l.
Proof.
  cbn [gen_initial]. generalize 0%nat as i. induction l as [|x l IH]; intros i; [done|].
  cbn [gen_elems]. rewrite IH. f_equal.
  replace (z_text (Z.of_nat i)) with (pretty i).
  2:{ unfold z_text. destruct (Z.ltb_spec (Z.of_nat i) 0); [lia|]. rewrite dec_text_pretty.
      unfold pretty at 1, pretty_nat. f_equal. lia. }
  destruct (is_primitive x) eqn:E; [|done].
  pose proof (dot_ne path (pretty i)) as Hn. destruct x; try done; cbn [gen_initial]; by rewrite decide_False.
Qed.
Lemma concat_cons k l : String.concat "." (k :: l) = match l with [] => k | _ => k +++ "." +++ String.concat "." l end.
Proof. by destruct l. Qed.
Lemma under_member path k l : k ≠ "" ->
  under (if decide (path = "") then k else path +++ "." +++ k) l = under path (k :: l).
Proof.
  intros Hk. unfold under. rewrite concat_cons. destruct l as [|k' l]; [done|].
  destruct (decide (path = "")) as [Hp|Hp]; [by rewrite decide_False|]. rewrite decide_False by apply dot_ne.
  by rewrite !sapp_assoc.
Qed.
Lemma under_elem path k l : path ≠ "" -> under (path +++ "." +++ k) l = under path (k :: l).
Proof.
  intros Hk. unfold under. rewrite concat_cons. destruct l as [|k' l]; [by rewrite decide_False|].
  rewrite decide_False by apply dot_ne. rewrite decide_False by done. by rewrite !sapp_assoc.
Qed.
Lemma filter_sublist {A} (f : A -> bool) m : sublist (List.filter f m) m.
Proof. induction m as [|x m IH]; simpl; [constructor|]. destruct (f x); by constructor. Qed.
Lemma elem_of_sublist_in {A} (c m : list A) x : sublist c m -> x ∈ c -> x ∈ m.
Proof. induction 1; set_solver. Qed.
Lemma sublist_unique {A} (f : A -> bool) c m : NoDup m -> sublist c m ->
  (forall x, x ∈ m -> x ∈ c <-> f x = true) -> c = List.filter f m.
Proof.
  intros Hn Hs. induction Hs as [|x c m Hs IH|x c m Hs IH]; intros H; [done|..]; inversion Hn; subst.
  - simpl. rewrite (proj1 (H x ltac:(set_solver)) ltac:(set_solver)). f_equal. apply IH; [done|].
    intros y Hy. assert (y ≠ x) by set_solver. specialize (H y ltac:(set_solver)). set_solver.
  - simpl. destruct (f x) eqn:E.
    + apply (H x) in E; [|set_solver]. exfalso. by apply (elem_of_sublist_in c m x Hs) in E.
    + apply IH; [done|]. intros y Hy. apply H. set_solver.
Qed.
Lemma NoDup_fst {V} (m : list (string * V)) : NoDup (map fst m) -> NoDup m.
Proof. exact (NoDup_fmap_1 fst m). Qed.
Lemma content_obj m v : NoDup (map fst m) -> content (JObj m) v <-> prims m ≠ [] ∧ v = JObj (prims m).
Proof.
  intros Hn%NoDup_fst. split.
  - intros H. inversion H as [j Hj|m' c Hc Hs Hi]; subst.
    + exfalso. apply Hj. left. eauto.
    + assert (c = prims m) as <-; [|done]. apply sublist_unique; [done|done|].
      intros x Hx. rewrite primitive_scalar. auto.
  - intros [H ->]. constructor; [done|apply filter_sublist|].
    intros kv Hkv. unfold prims. rewrite elem_filter_b, primitive_scalar. tauto.
Qed.
Lemma gen_members_iff path ps m p :
  p ∈ gen_members path ps m <->
  (m ≠ [] ∧ ps ≠ [] ∧ p = add_patch path (JObj ps)) ∨
  exists k v, (k, v) ∈ m ∧ p ∈ gen_initial (if decide (path = "") then k else path +++ "." +++ k) v.
Proof.
  induction m as [|[k v] m IH]; cbn [gen_members].
  - split; [by intros ?%elem_of_nil|]. intros [[? _]|(k & v & H%elem_of_nil & _)]; done.
  - rewrite !elem_of_app, IH. split.
    + intros [H|[H|[H|(k' & v' & H & Hp)]]].
      * left. destruct ps; [by apply elem_of_nil in H|]. apply elem_of_list_singleton in H. done.
      * right. exists k, v. split; [set_solver|done].
      * left. destruct H as (_ & ? & ?). done.
      * right. exists k', v'. split; [set_solver|done].
    + intros [(_ & H & ->)|(k' & v' & [[= -> ->]|H]%elem_of_cons & Hp)].
      * left. destruct ps; [done|]. by apply elem_of_list_singleton.
      * auto.
      * right. right. right. eauto.
Qed.
Lemma gen_elems_iff path l : forall i p,
  p ∈ gen_elems path i l <-> exists n x, l !! n = Some x ∧ p ∈ gen_initial (path +++ "." +++ pretty (i + n)%nat) x.
Proof.
  induction l as [|x l IH]; intros i p; cbn [gen_elems].
  - split; [by intros ?%elem_of_nil|]. intros (n & x & [=] & _).
  - rewrite elem_of_app, IH. split.
    + intros [H|(n & y & H & Hp)].
      * exists 0%nat, x. by rewrite Nat.add_0_r.
      * exists (S n), y. split; [done|]. by rewrite Nat.add_succ_r.
    + intros ([|n] & y & H & Hp).
      * left. injection H as ->. by rewrite Nat.add_0_r in Hp.
      * right. exists n, y. split; [done|]. by rewrite Nat.add_succ_r in Hp.
Qed.
Lemma content_scalar j v : scalar j -> content j v <-> v = j.
Proof.
  intros Hj. split; [|intros ->; by constructor]. intros H. inversion H as [|m c]; subst; [done|].
  exfalso. apply Hj. left. eauto.
Qed.
Lemma place_nil j n : place j [] n <-> n = j.
Proof. split; [by inversion 1|intros ->; constructor]. Qed.
Lemma place_scalar j l n : scalar j -> place j l n <-> l = [] ∧ n = j.
Proof.
  intros Hj. split; [|intros [-> ->]; constructor]. intros H. inversion H; subst; [done|..];
    exfalso; apply Hj; [left|right]; eauto.
Qed.
Lemma gen_scalar path j p : scalar j -> p ∈ gen_initial path j <-> path ≠ "" ∧ p = add_patch path j.
Proof.
  intros Hj%primitive_scalar. 
  assert (E : gen_initial path j = if decide (path = "") then [] else [add_patch path j]) by (by destruct j).
  rewrite E. case_decide as Hp; [|rewrite elem_of_list_singleton; tauto].
  split; [by intros ?%elem_of_nil|]. by intros [? _].
Qed.
Lemma gen_iff j : forall path p, named nonempty j -> (path = "" -> forall xs, j ≠ JArr xs) ->
  p ∈ gen_initial path j <->
  exists l n v, place j l n ∧ content n v ∧ p = add_patch (under path l) v ∧
    (path = "" -> l = [] -> ~ scalar j).
Proof.
  assert (SC : forall j path p, scalar j -> 
    p ∈ gen_initial path j <->
    exists l n v, place j l n ∧ content n v ∧ p = add_patch (under path l) v ∧
    (path = "" -> l = [] -> ~ scalar j)).
  { intros x path p Hx. rewrite gen_scalar by done. split.
    - intros [Hp ->]. exists [], x, x. rewrite content_scalar by done. split; [constructor|done].
    - intros (l & n & v & Hl & Hc & Hp & Hn). apply place_scalar in Hl as [-> ->]; [|done].
      apply content_scalar in Hc; [|done]. subst v. split; [|done]. intros ->. by apply Hn. }
  induction j as [|b|f|s|xs IH|m IH] using json_ind'; intros path p Hj Hr;
    try (apply SC; by apply primitive_scalar); clear SC.
  - inversion Hj as [? Hc|? HF|]; subst; [exfalso; apply Hc; right; eauto|].
    assert (Hp : path ≠ "") by (intros E; by apply (Hr E xs)).
    rewrite gen_arr, gen_elems_iff. rewrite Forall_forall in IH, HF. split.
    + intros (i & x & Hx & H). rewrite Nat.add_0_l in H. apply elem_of_list_lookup_2 in Hx as Hx'.
      apply (IH x Hx') in H; [|by apply HF|by intros E; apply dot_ne in E].
      destruct H as (l & n & v & Hl & Hc & -> & _). exists (pretty i :: l), n, v.
      split; [by econstructor|]. split; [done|]. split; [|done]. by rewrite under_elem.
    + intros (l & n & v & Hl & Hc & -> & _). inversion Hl as [|?|? i x ? ? Hx Hl']; subst.
      { inversion Hc as [? Hs|]; subst. exfalso. apply Hs. right. eauto. }
      exists i, x. split; [done|]. rewrite Nat.add_0_l. apply elem_of_list_lookup_2 in Hx as Hx'.
      apply (IH x Hx'); [by apply HF|by intros E; apply dot_ne in E|].
      eexists _, _, _. split; [done|]. split; [done|]. split; [by rewrite under_elem|]. intros E; by apply dot_ne in E.
  - inversion Hj as [? Hc| |? Hn HP HF]; subst; [exfalso; apply Hc; left; eauto|].
    assert (Hs : ~ scalar (JObj m)) by (intros Hc; apply Hc; left; eauto).
    rewrite gen_obj, gen_members_iff. rewrite Forall_forall in IH, HF. rewrite Forall_forall in HP. split.
    + intros [(Hm & Hc & ->)|(k & x & Hx & H)].
      * eexists [], _, _. split; [constructor|]. split; [by apply content_obj|]. done.
      * assert (Hk : k ≠ "") by (apply HP; by apply (elem_of_list_fmap_1 fst _ (k, x))).
        apply (IH (k, x) Hx) in H; [|by apply (HF (k, x))|].
        2:{ case_decide; [done|]. intros E. by apply dot_ne in E. }
        destruct H as (l & n & v & Hl & Hc & -> & _). exists (k :: l), n, v.
        split; [by econstructor|]. split; [done|]. split; [|done]. by rewrite under_member.
    + intros (l & n & v & Hl & Hc & -> & _). inversion Hl as [|? k x ? ? Hx Hl'|]; subst.
      * left. apply content_obj in Hc as [Hc ->]; [|done]. split; [|done]. intros ->. done.
      * right. exists k, x. split; [done|].
        assert (Hk : k ≠ "") by (apply HP; by apply (elem_of_list_fmap_1 fst _ (k, x))).
        apply (IH (k, x) Hx); [by apply (HF (k, x))|case_decide; [done|by intros E; apply dot_ne in E]|].
        eexists _, _, _. split; [done|]. split; [done|]. split; [by rewrite under_member|].
        case_decide; [done|by intros E; apply dot_ne in E].
Qed.
Lemma initial_iff m p : named nonempty (JObj m) ->
  p ∈ gen_initial "" (JObj m) <->
  exists l n v, place (JObj m) l n ∧ content n v ∧ p = TPatch "add" (String.concat "." l) v 0.
Proof.
  intros H. rewrite gen_iff by done. unfold add_patch, under.
  assert (Hs : ~ scalar (JObj m)) by (intros Hc; apply Hc; left; eauto).
  split; intros (l & n & v & Hl & Hc & Hp).
  - exists l, n, v. destruct Hp as [-> _]. by destruct l.
  - exists l, n, v. subst. by destruct l.
Qed.

(** ** The document of initial patches and updates *)
Lemma named_impl (P Q : string -> Prop) j : (forall k, P k -> Q k) -> named P j -> named Q j.
Proof.
  intros HPQ. induction j as [|b|f|s|l IH|m IH] using json_ind'; intros H;
    try (by apply nd_scalar, primitive_scalar); inversion H as [? Hc|? HF|? Hn HP HF]; subst.
  - by apply nd_scalar.
  - apply nd_arr. rewrite Forall_forall in *. auto.
  - by apply nd_scalar.
  - apply nd_obj; [done|by eapply Forall_impl|]. rewrite Forall_forall in IH, HF. apply Forall_forall. auto.
Qed.
Lemma digits_free s : all_digits s = true -> free_of ["/"; "."]%char s.
Proof.
  induction s as [|a s IH]; [constructor|]. simpl. intros [Ha Hs]%andb_true_iff. constructor; [|auto].
  intros [<-|[<-|[]]]; done.
Qed.
Lemma pretty_simple (i : nat) : simple_name (pretty i).
Proof.
  change (pretty i) with (pretty (N.of_nat i)). rewrite <- dec_text_pretty.
  destruct (dec_text_spec (N.of_nat i)) as (A & B & _). split; [done|by apply digits_free].
Qed.
Lemma place_names j l n : named simple_name j -> place j l n -> Forall simple_name l ∧ named simple_name n.
Proof.
  intros Hj H. induction H as [j|m k v l n Hk H IH|xs i v l n Hi H IH].
  - done.
  - inversion Hj as [? Hc| |? Hn HP HF]; subst; [exfalso; apply Hc; left; eauto|].
    rewrite Forall_forall in HF. rewrite Forall_forall in HP.
    destruct IH as [IH1 IH2]; [by apply (HF (k, v))|]. split; [|done]. constructor; [|done].
    apply HP. by apply (elem_of_list_fmap_1 fst _ (k, v)).
  - inversion Hj as [? Hc|? HF|]; subst; [exfalso; apply Hc; right; eauto|].
    rewrite Forall_forall in HF. apply elem_of_list_lookup_2 in Hi as Hi'.
    destruct IH as [IH1 IH2]; [by apply HF|]. split; [|done]. constructor; [apply pretty_simple|done].
Qed.
Lemma fst_unique {V} (m : list (string * V)) k v v' :
  NoDup (map fst m) -> (k, v) ∈ m -> (k, v') ∈ m -> v = v'.
Proof.
  intros Hn H H'. induction m as [|[k0 v0] m IH]; [by apply elem_of_nil in H|].
  inversion Hn as [|? ? Hk Hn']; subst.
  assert (Hin : forall w, (k0, w) ∈ m -> False).
  { intros w Hw. apply Hk. by apply (elem_of_list_fmap_1 fst _ (k0, w)). }
  apply elem_of_cons in H as [[= -> ->]|H]; apply elem_of_cons in H' as [[= ->]|H']; subst; auto;
    exfalso; eauto.
Qed.
Lemma place_elem_inv xs k l n : place (JArr xs) (k :: l) n ->
  exists i v, k = pretty i ∧ xs !! i = Some v ∧ place v l n.
Proof. inversion 1; subst. eauto. Qed.
Lemma place_fun P j l n n' : named P j -> place j l n -> place j l n' -> n = n'.
Proof.
  intros Hj H. revert n'. induction H as [j|m k v l n Hk H IH|xs i v l n Hi H IH]; intros n' H'.
  - by apply place_nil in H'.
  - inversion Hj as [? Hc| |? Hn HP HF]; subst; [exfalso; apply Hc; left; eauto|].
    inversion H' as [|? ? v' ? ? Hk' Hl'|]; subst. rewrite (fst_unique _ _ _ _ Hn Hk' Hk) in Hl'.
    apply IH; [|done]. rewrite Forall_forall in HF. by apply (HF (k, v)).
  - inversion Hj as [? Hc|? HF|]; subst; [exfalso; apply Hc; right; eauto|].
    apply place_elem_inv in H' as (i' & v' & Ei & Hi' & Hl'). apply (inj pretty) in Ei. subst i'.
    rewrite Hi in Hi'. injection Hi' as <-. apply IH; [|done]. rewrite Forall_forall in HF.
    apply HF. by eapply elem_of_list_lookup_2.
Qed.
Lemma place_split j pre r n : place j (pre ++ r) n -> exists c, place j pre c ∧ place c r n.
Proof.
  revert j. induction pre as [|k pre IH]; intros j H; [exists j; split; [constructor|done]|].
  inversion H as [|? ? v ? ? Hk Hl|? i v ? ? Hi Hl]; subst; destruct (IH _ Hl) as (c & Hc & Hr);
    exists c; (split; [|done]); by econstructor.
Qed.
Lemma place_deeper c k r n : place c (k :: r) n -> ~ scalar c.
Proof. inversion 1; subst; intros Hc; apply Hc; [left|right]; eauto. Qed.
Lemma names_concat l : l ≠ [] -> Forall simple_name l -> names ["/"; "."]%char (String.concat "." l) l
  ∧ names ["."%char] (String.concat "." l) l.
Proof.
  induction l as [|k l IH]; [done|]. intros _ H. inversion H as [|? ? [Hk1 Hk2] Hl]; subst.
  assert (Hk3 : free_of ["."%char] k).
  { clear -Hk2. induction Hk2; constructor; [|done]. intros [<-|[]]. apply H. simpl. auto. }
  rewrite concat_cons. destruct l as [|k' l].
  - split; by constructor.
  - destruct IH as [IH1 IH2]; [done|done|]. split.
    + apply (nm_more _ k "."%char); [done|simpl; auto|done].
    + apply (nm_more _ k "."%char); [done|simpl; auto|done].
Qed.
Lemma route_concat l : l ≠ [] -> Forall simple_name l -> route (String.concat "." l) l.
Proof.
  intros Hl Hf. apply rt_plain; [|by apply names_concat].
  destruct l as [|k l]; [done|]. rewrite concat_cons. inversion Hf as [|? ? [Hk1 Hk2] _]; subst.
  destruct k as [|a k]; [done|]. inversion Hk2 as [|? ? Ha _]; subst.
  intros r E. assert (a = "/"%char) as -> by (destruct l; by injection E). apply Ha. simpl. auto.
Qed.
Lemma route_fun s l l' : route s l -> route s l' -> l = l'.
Proof. rewrite !route_split. congruence. Qed.

Lemma value_last l t L p : StronglySorted (fun x y => tp_ts x <= tp_ts y) L -> p ∈ L -> sets p l -> tp_ts p <= t ->
  (forall p', p' ∈ L -> route (tp_path p') l -> tp_ts p' <= t ->
     tp_ts p' < tp_ts p ∨ sets p' l ∧ tp_value p' = tp_value p) ->
  value_at l t L (Some (tp_value p)).
Proof.
  intros Hs Hp [Hp1 Hp2] Ht. revert p Hp Hp1 Hp2 Ht.
  induction L as [|q L IH] using rev_ind; intros p Hp Hp1 Hp2 Ht H; [by apply elem_of_nil in Hp|].
  assert (T : forall q', q' ∈ L -> tp_ts q' <= tp_ts q).
  { intros q' Hq'. clear -Hs Hq'. induction L as [|x L IH]; [by apply elem_of_nil in Hq'|].
    simpl in Hs. inversion Hs as [|? ? Hs' Hf]; subst. rewrite Forall_forall in Hf.
    apply elem_of_cons in Hq' as [->|Hq']; [apply Hf; set_solver|auto]. }
  assert (Hs' : StronglySorted (fun x y => tp_ts x <= tp_ts y) L).
  { clear -Hs. induction L as [|x L IH]; [constructor|]. simpl in Hs. inversion Hs as [|? ? Hs' Hf]; subst.
    constructor; [auto|]. rewrite Forall_app in Hf. tauto. }
  assert (V : exists r, value_at l t L r).
  { destruct l as [|k l'] eqn:El.
    - exfalso. destruct (split_on_ne dot (tj_path (tp_path p))). by apply route_split.
    - rewrite <- El in *. pose proof Hp2 as Hp2'. apply route_split in Hp2' as E. rewrite <- E.
      eexists. apply value_at_fun. done. }
  assert (Hq : value_at l t (L ++ [q]) (Some (tp_value q)) ∧ tp_value q = tp_value p ∨
    (~ route (tp_path q) l ∨ t < tp_ts q)).
  { destruct (decide (tp_ts q <= t)) as [Hq|Hq]; [|right; right; lia].
    destruct (decide (split_on dot (tj_path (tp_path q)) = l)) as [Hr|Hr]; rewrite <- route_split in Hr;
      [|by right; left].
    left. destruct (H q ltac:(set_solver) Hr Hq) as [Hlt|[[Hset _] Hv]].
    - exfalso. apply elem_of_app in Hp as [Hp|Hp%elem_of_list_singleton]; [|subst p; lia]. specialize (T _ Hp). lia.
    - split; [|done]. destruct V as [r V]. by eapply va_set. }
  destruct Hq as [[Hq <-]|Hq]; [done|].
  apply va_other; [|tauto]. apply IH; [done| |done|done|done|].
  - apply elem_of_app in Hp as [Hp|Hp%elem_of_list_singleton]; [done|subst p]. destruct Hq; [done|lia].
  - intros p' Hp'. apply H. set_solver.
Qed.

Lemma encodable_place j l n : json_encodable j = true -> place j l n -> json_encodable n = true.
Proof.
  intros Hj H. induction H as [j|m k v l n Hk H IH|xs i v l n Hi H IH]; [done|..]; apply IH.
  - cbn [json_encodable] in Hj. rewrite forallb_forall in Hj. apply (Hj (k, v)). by apply elem_of_list_In.
  - cbn [json_encodable] in Hj. rewrite forallb_forall in Hj. apply Hj. apply elem_of_list_In.
    by eapply elem_of_list_lookup_2.
Qed.
Lemma f64_eq_refl f : f64_finite f = true -> f64_eq f f = true.
Proof.
  destruct f as [s| | |s m e]; try done. intros _. unfold f64_eq, SFeqb, SFcompare.
  destruct s; rewrite Z.compare_refl, Pos.compare_cont_refl; done.
Qed.
Lemma scalar_same j : scalar j -> json_encodable j = true -> same_json j j.
Proof.
  intros Hj%primitive_scalar He. destruct j; try done; constructor. by apply f64_eq_refl.
Qed.

Section shown.
Context (m : list (string * json)) (us : list tpatch).
Let j := JObj m.
Hypothesis Hj : named simple_name j.
Hypothesis He : json_encodable j = true.
Hypothesis Hu : forall u, u ∈ us -> 0 <= tp_ts u < 2 ^ 63 ∧
  exists l v, place j l v ∧ scalar v ∧ sets u l.
Let ps := gen_initial "" j ++ us.

Lemma gen_in p : p ∈ gen_initial "" j <->
  exists l n v, place j l n ∧ content n v ∧ p = TPatch "add" (String.concat "." l) v 0.
Proof. apply initial_iff. eapply named_impl; [|exact Hj]. by intros k [? _]. Qed.
Lemma gen_on p l n : p ∈ gen_initial "" j -> place j l n -> l ≠ [] -> route (tp_path p) l ->
  tp_op p = "add" ∧ tp_ts p = 0 ∧ content n (tp_value p).
Proof.
  intros (l' & n' & v & Hl' & Hc & ->)%gen_in Hl Hne Hr. simpl in *. split; [done|]. split; [done|].
  destruct (place_names _ _ _ Hj Hl) as [Hs _]. destruct (place_names _ _ _ Hj Hl') as [Hs' _].
  destruct (decide (l' = [])) as [->|Hne'].
  - exfalso. simpl in Hr. assert (R : route "" [""]) by (by apply rt_plain; [intros r [=]|repeat constructor]).
    rewrite (route_fun _ _ _ Hr R) in Hs. inversion Hs as [|? ? [? _] _]; subst. done.
  - rewrite (route_fun _ _ _ Hr (route_concat _ Hne' Hs')) in Hl. by rewrite (place_fun _ _ _ _ _ Hj Hl Hl').
Qed.
Lemma ps_on p l n : p ∈ ps -> place j l n -> l ≠ [] -> route (tp_path p) l ->
  sets p l ∧ (tp_ts p = 0 ∧ content n (tp_value p) ∨ p ∈ us ∧ 0 <= tp_ts p < 2 ^ 63 ∧ scalar n).
Proof.
  intros [Hp|Hp]%elem_of_app Hl Hne Hr.
  - destruct (gen_on _ _ _ Hp Hl Hne Hr) as (H1 & H2 & H3). split; [split; [by left|done]|]. by left.
  - destruct (Hu p Hp) as (H1 & l' & v' & Hl' & Hs & Hset). destruct Hset as [Ho Hr'].
    rewrite (route_fun _ _ _ Hr' Hr) in Hl'. split; [by split|]. right. split; [done|]. split; [done|].
    by rewrite (place_fun _ _ _ _ _ Hj Hl Hl').
Qed.

Lemma value_zero l v p : place j l v -> scalar v -> l ≠ [] -> (forall u, u ∈ us -> sets u l -> 1 <= tp_ts u) ->
  p ∈ ps -> route (tp_path p) l -> tp_ts p = 0 -> tp_value p = v.
Proof.
  intros Hl Hv Hne Hpos Hp Hrp H0. destruct (ps_on _ _ _ Hp Hl Hne Hrp) as [Hset [[_ Hc]|[Hin [_ _]]]].
  - by apply content_scalar in Hc.
  - specialize (Hpos _ Hin Hset). lia.
Qed.
Lemma times_shown l v : place j l v -> scalar v -> l ≠ [] -> (forall u, u ∈ us -> sets u l -> 1 <= tp_ts u) -> times_ok l ps.
Proof.
  intros Hl Hv Hne Hpos. split.
  - intros p Hp Hrp. destruct (ps_on _ _ _ Hp Hl Hne Hrp) as [_ [[-> _]|[_ [? _]]]]; lia.
  - right. intros p p' Hp Hp' Hrp Hrp' H0 H0'. split; [by apply (ps_on _ _ _ Hp Hl Hne Hrp)|].
    rewrite (value_zero l v p), (value_zero l v p') by done. apply scalar_same; [done|]. by eapply encodable_place.
Qed.
Lemma value_shown srt l v t w : sorting tp_ts srt -> place j l v -> scalar v -> l ≠ [] -> 0 <= t ->
  (forall u, u ∈ us -> sets u l -> 1 <= tp_ts u) -> shown us l v t w -> value_at l t (srt ps) (Some w).
Proof.
  intros Hsrt Hl Hv Hne Ht Hpos Hsh.
  destruct (place_names _ _ _ Hj Hl) as [Hs _]. pose proof (route_concat l Hne Hs) as Hr.
  destruct (Hsrt ps) as [HP HS].
  assert (Hin : forall p, p ∈ srt ps <-> p ∈ ps) by (intros p; by rewrite HP).
  assert (Hfirst : TPatch "add" (String.concat "." l) v 0 ∈ ps).
  { apply elem_of_app. left. apply gen_in. exists l, v, v. split; [done|]. split; [by constructor|done]. }
  destruct Hsh as [Hno|u Hu1 Hu2 Hu3 Hu4].
  - apply (value_last l t (srt ps) (TPatch "add" (String.concat "." l) v 0)); simpl; [done|by apply Hin|by split; [left|]|lia|].
    intros p' Hp' Hrp' Ht'. right. apply Hin in Hp'.
    destruct (ps_on _ _ _ Hp' Hl Hne Hrp') as [Hset [[_ Hc]|[Hin' _]]].
    + split; [done|]. by apply content_scalar in Hc.
    + exfalso. specialize (Hno _ Hin' Hset). lia.
  - apply (value_last l t (srt ps) u); simpl; [done|apply Hin, elem_of_app; by right|done|done|].
    intros p' Hp' Hrp' Ht'. apply Hin in Hp'.
    destruct (ps_on _ _ _ Hp' Hl Hne Hrp') as [Hset [[H0 _]|[Hin' _]]].
    + left. pose proof (Hpos _ Hu1 Hu2). lia.
    + destruct (Hu4 _ Hin' Hset Ht') as [->|Hlt]; [by right|by left].
Qed.
Lemma shown_spec srt ord now l v t w :
  sorting tp_ts srt -> (forall m, Permutation (ord m) m) -> 0 <= now < 2 ^ 63 ->
  place j l v -> scalar v -> (2 <= length l)%nat -> 0 <= t <= now ->
  (forall u, u ∈ us -> sets u l -> 1 <= tp_ts u) ->
  shown us l v t w -> w ≠ JNull -> (forall c, w ≠ JObj c) ->
  exists w', below l (JObj (tj_snapshot (from_patches srt ord now ps) t)) = Some w' ∧ alike w' w.
Proof.
  intros Hsrt Hord Hnow Hl Hv Hlen Ht Hpos Hsh Hw1 Hw2.
  assert (Hne : l ≠ []) by (intros ->; simpl in Hlen; lia).
  destruct (place_names _ _ _ Hj Hl) as [Hs _]. destruct (names_concat l Hne Hs) as [_ Hq].
  apply (snapshot_spec srt ord now ps (String.concat "." l) l t w); try done.
  - by eapply times_shown.
  - lia.
  - apply (value_shown srt l v); try done. lia.
  - by left.
  - intros p pre k r Hp -> Hpre [Ho Hrp]. destruct (place_split _ _ _ _ Hl) as (c & Hc & Hr2).
    assert (Hpne : pre ≠ []) by (intros ->; simpl in Hpre; lia).
    destruct (ps_on _ _ _ Hp Hc Hpne Hrp) as [_ [[_ Hcc]|[_ [_ Hsc]]]].
    + inversion Hcc as [? Hsc|]; subst; [|eauto]. exfalso. by eapply place_deeper.
    + exfalso. by eapply place_deeper.
Qed.
End shown.
Lemma shown_file srt ord now file m us l v t w :
  transform file = JObj m -> named simple_name (JObj m) -> json_encodable (JObj m) = true ->
  (forall u, u ∈ us -> 0 <= tp_ts u < 2 ^ 63 ∧
     exists l' v', place (JObj m) l' v' ∧ scalar v' ∧ sets u l') ->
  sorting tp_ts srt -> (forall x, Permutation (ord x) x) -> 0 <= now < 2 ^ 63 ->
  place (JObj m) l v -> scalar v -> (2 <= length l)%nat -> 0 <= t <= now ->
  (forall u, u ∈ us -> sets u l -> 1 <= tp_ts u) ->
  shown us l v t w -> w ≠ JNull -> (forall c, w ≠ JObj c) ->
  exists w', below l (JObj (tj_snapshot (from_patches srt ord now (initial_patches file ++ us)) t)) = Some w'
    ∧ alike w' w.
Proof. unfold initial_patches. intros ->. intros. by eapply shown_spec. Qed.
Lemma initial_file file m p : transform file = JObj m -> named nonempty (JObj m) ->
  p ∈ initial_patches file <->
  exists l n v, place (JObj m) l n ∧ content n v ∧ p = TPatch "add" (String.concat "." l) v 0.
Proof. unfold initial_patches. intros ->. apply initial_iff. Qed.
