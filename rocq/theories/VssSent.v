(** Facts about the documents the web demo sends. *)
From stdpp Require Import pretty.
From Verif Require Import TjsonLemmas Base BaseLemmas BaseSpec BaseSpecLemmas Tson TsonInd TsonSpec F64 F64Round Json JsonSpec Serial TextSpec Heap HeapSpec Patch PatchSpec Own TreePatch PatchLemmas Diff DiffSpec DiffPaths DiffApply Bytes
  Vss VssSpec VssLemmas VssPlace VssPatchSpec VssFileSpec VssPatchFileSpec ReadLemmas VssRead VssRenew DiffLemmas Logument VssRun VssRunSpec VssRunLemmas VssWeb VssSentSpec.
From Coq Require Import Lia.

(** ** Growing a partial copy of a frame *)
Definition flat (c : tson) : Prop := c = TNil ∨ exists p t, c = TLeaf p t.
Inductive part_of : tson -> tson -> Prop :=
| po_nil f : part_of TNil f
| po_leaf p t p' t' : part_of (TLeaf p t) (TLeaf p' t')
| po_arr xs xf : Forall flat xs -> part_of (TArr xs) (TArr xf)
| po_obj m mf : (forall k c, alookup k m = Some c -> part_of c (default TNil (alookup k mf))) -> part_of (TObj m) (TObj mf).
Inductive cell_shape : list step -> Prop :=
| cs_key k : cell_shape [Key k]
| cs_elem k i : cell_shape [Key k; Elem i]
| cs_in k q : cell_shape q -> cell_shape (Key k :: q).
Definition steady (s : step) : Prop := match s with Key k => parse_int k = None | Elem i => Z.of_nat i <= int64_max end.

Lemma put_leaves k q1 p ts c' m :
  (forall q y z, at_path c' q = Some (TLeaf y z) <-> q = q1 ∧ y = p ∧ z = ts ∨ q ≠ q1 ∧ (alookup k m ≫= fun c => at_path c q) = Some (TLeaf y z)) ->
  forall q y z, at_path (TObj (ainsert k c' m)) q = Some (TLeaf y z) <-> q = Key k :: q1 ∧ y = p ∧ z = ts ∨ q ≠ Key k :: q1 ∧ at_path (TObj m) q = Some (TLeaf y z).
Proof.
  intros H q y z. destruct q as [|[k'|i] q].
  - cbn. split; [done|]. by intros [[? _]|[_ ?]].
  - rewrite !at_key. destruct (decide (k' = k)) as [->|Hk].
    + rewrite alookup_ainsert_eq. cbn [mbind option_bind]. rewrite H. split.
      * intros [(-> & ?)|[? ?]]; [by left|]. right. split; [congruence|done].
      * intros [(E & ?)|[? ?]]; [injection E as ->; by left|]. right. split; [congruence|done].
    + rewrite alookup_ainsert_ne by done. split; [|by intros [([= -> _] & _)|[_ ?]]].
      intros E. right. split; [congruence|done].
  - cbn. split; [done|]. by intros [[? _]|[_ ?]].
Qed.
Lemma put_part k c' m mf f : alookup k mf = Some f -> part_of c' f -> part_of (TObj m) (TObj mf) -> part_of (TObj (ainsert k c' m)) (TObj mf).
Proof.
  intros Ef Hc HP. inversion HP as [| | |? ? HM]; subst. constructor. intros k' c. rewrite alookup_ainsert. case_decide as Hk.
  - subst k'. intros [= <-]. by rewrite Ef.
  - apply HM.
Qed.
Lemma flat_below c q p z : flat c -> at_path c q = Some (TLeaf p z) -> q = [].
Proof. intros [->|(? & ? & ->)]; destruct q as [|[]]; done. Qed.
Lemma elem_leaves xs i p ts : Forall flat xs -> forall q y z,
  at_path (TArr (set_elem xs i (TLeaf p ts))) q = Some (TLeaf y z) <-> q = [Elem i] ∧ y = p ∧ z = ts ∨ q ≠ [Elem i] ∧ at_path (TArr xs) q = Some (TLeaf y z).
Proof.
  intros HF q y z. destruct q as [|[k|j] q].
  - cbn. split; [done|]. by intros [[? _]|[_ ?]].
  - cbn. split; [done|]. by intros [[? _]|[_ ?]].
  - cbn [at_path]. unfold set_elem. destruct (decide (j = i)) as [->|Hj].
    + rewrite list_lookup_insert by (rewrite app_length, replicate_length; lia). cbn [mbind option_bind]. split.
      * intros E. left. destruct q as [|[]]; try done. cbn in E. by injection E as <- <-.
      * intros [([= ->] & -> & ->)|[Hq E]]; [done|]. exfalso. destruct (xs !! i) as [c|] eqn:Ei; [|done]. cbn in E.
        rewrite Forall_lookup in HF. apply (flat_below c q) in E; [by subst|by eapply HF].
    + rewrite list_lookup_insert_ne by done. destruct (xs !! j) as [c|] eqn:Ej.
      * rewrite lookup_app_l by (by eapply lookup_lt_Some). rewrite Ej. split; [|by intros [([= ?] & _)|[_ ?]]].
        intros E. right. split; [congruence|done].
      * rewrite lookup_app_r by (by apply lookup_ge_None). split; [|by intros [([= ?] & _)|[_ ?]]].
        destruct (replicate _ _ !! _) as [c|] eqn:Er; [|done]. apply lookup_replicate in Er as [-> _]. by destruct q as [|[]].
Qed.
Lemma elem_flat xs i p ts : Forall flat xs -> Forall flat (set_elem xs i (TLeaf p ts)).
Proof.
  intros HF. unfold set_elem. apply Forall_insert; [|by right; eexists _, _]. apply Forall_app. split; [done|].
  apply Forall_replicate. by left.
Qed.
Lemma grow op p q : is_set (op_kind op) = true -> scalar_of (op_value op) = Some p -> cell_shape q -> Forall steady q ->
  forall mf m x z0, at_path (TObj mf) q = Some (TLeaf x z0) -> part_of (TObj m) (TObj mf) ->
  exists m', ptrav op (map step_name q) (TObj m) = (TObj m', Ok tt) ∧ part_of (TObj m') (TObj mf) ∧
    forall q' y z, at_path (TObj m') q' = Some (TLeaf y z) <-> q' = q ∧ y = p ∧ z = op_ts op ∨ q' ≠ q ∧ at_path (TObj m) q' = Some (TLeaf y z).
Proof.
  intros Hk Hv HS. induction HS as [k|k i|k q HS IH]; intros HF mf m x z0 Ef HP.
  - cbn [map step_name ptrav]. exists (ainsert k (TLeaf p (op_ts op)) m).
    assert (E : ptrav op [k] (TObj m) = (TObj (ainsert k (TLeaf p (op_ts op)) m), Ok tt)).
    { cbn [ptrav]. destruct (op_kind op); try done; by rewrite Hv. }
    split; [exact E|]. rewrite at_key in Ef. destruct (alookup k mf) as [f|] eqn:Ek; [|done]. cbn in Ef. injection Ef as ->.
    split; [by eapply put_part; [exact Ek|constructor|done]|].
    apply put_leaves. intros q y z. split.
    + destruct q as [|[]]; try done. cbn. intros [= <- <-]. by left.
    + intros [(-> & -> & ->)|[Hq E1]]; [done|]. exfalso. destruct (alookup k m) as [c|] eqn:Em; [|done]. cbn in E1.
      inversion HP as [| | |? ? HM]; subst. specialize (HM _ _ Em). rewrite Ek in HM. cbn in HM.
      apply Hq. apply (flat_below c q y z); [|done]. inversion HM; [by left|by right; eexists _, _].
  - apply Forall_cons_1 in HF as [Hs1 HF]. apply Forall_cons_1 in HF as [Hs2 _]. cbn [steady] in Hs1, Hs2.
    cbn [map step_name]. assert (Hi : parse_int (pretty i) = Some (Z.of_nat i)).
    { rewrite pretty_elem, parse_int_dec_text by lia. by rewrite nat_N_Z. }
    rewrite at_key in Ef. destruct (alookup k mf) as [f|] eqn:Ek; [|done]. cbn in Ef. destruct f as [| |xf|]; try done.
    assert (Hneg : (Z.of_nat i <? 0) = false) by (apply Z.ltb_ge; lia).
    assert (HX : exists xs, Forall flat xs ∧ (alookup k m = Some (TArr xs) ∨ xs = [] ∧ (alookup k m = None ∨ alookup k m = Some TNil))).
    { inversion HP as [| | |? ? HM]; subst. destruct (alookup k m) as [c|] eqn:Em; [|exists []; split; [done|]; right; split; [done|by left]].
      specialize (HM _ _ Em). rewrite Ek in HM. cbn in HM. inversion HM; subst; [exists []; split; [done|]; right; split; [done|by right]|].
      by eexists; split; [|left]. }
    destruct HX as (xs & HFx & HX). exists (ainsert k (TArr (set_elem xs i (TLeaf p (op_ts op)))) m). split; [|split].
    + rewrite ptrav_cons. cbv beta iota. destruct HX as [->|(-> & HX)].
      * rewrite Hi. destruct (op_kind op); try done; rewrite Hv, Hneg, Nat2Z.id, pad_set; done.
      * assert (E : ptrav op [pretty i] (TArr []) = (TArr (set_elem [] i (TLeaf p (op_ts op))), Ok tt)).
        { cbn [ptrav]. rewrite Hi, Hk. cbn [negb]. rewrite andb_false_r.
          destruct (op_kind op); try done; by rewrite Hv, Hneg, Nat2Z.id, pad_set. }
        destruct HX as [->| ->]; rewrite Hk, Hi, E; done.
    + eapply put_part; [exact Ek|constructor; by apply elem_flat|done].
    + apply put_leaves. intros q y z. rewrite elem_leaves by done. destruct HX as [->|(-> & HX)]; [done|].
      assert (E : at_path (TArr []) q ≠ Some (TLeaf y z)) by (by destruct q as [|[]]).
      assert (E' : (alookup k m ≫= fun c => at_path c q) ≠ Some (TLeaf y z)) by (destruct HX as [->| ->]; [done|by destruct q as [|[]]]).
      split; (intros [?|[? ?]]; [by left|done]).
  - apply Forall_cons_1 in HF as [Hs1 HF]. cbn [steady] in Hs1.
    rewrite at_key in Ef. destruct (alookup k mf) as [f|] eqn:Ek; [|done]. cbn in Ef.
    assert (Hq : exists k2 q2, q = Key k2 :: q2) by (inversion HS; by eexists _, _). destruct Hq as (k2 & q2 & Eq).
    assert (Hf : exists mf2, f = TObj mf2) by (subst q; destruct f; try done; by eexists). destruct Hf as (mf2 & ->).
    assert (Hs2 : parse_int k2 = None) by (subst q; by apply Forall_cons_1 in HF as [? _]).
    assert (HX : exists mc, part_of (TObj mc) (TObj mf2) ∧ (alookup k m = Some (TObj mc) ∨ mc = [] ∧ (alookup k m = None ∨ alookup k m = Some TNil))).
    { inversion HP as [| | |? ? HM]; subst. destruct (alookup k m) as [c|] eqn:Em; [|exists []; split; [by constructor|]; right; split; [done|by left]].
      specialize (HM _ _ Em). rewrite Ek in HM. cbn in HM. inversion HM; subst; [exists []; split; [by constructor|]; right; split; [done|by right]|].
      by eexists; split; [|left]. }
    destruct HX as (mc & HPc & HX). destruct (IH HF mf2 mc x z0 Ef HPc) as (mc' & E1 & HP1 & HL1).
    exists (ainsert k (TObj mc') m). split; [|split].
    + cbn [map step_name]. rewrite ptrav_cons. cbv beta iota. subst q. cbn [map step_name] in E1 |- *.
      destruct HX as [->|(-> & HX)]; [by rewrite E1|]. destruct HX as [->| ->]; rewrite Hk, Hs2, E1; done.
    + by eapply put_part.
    + apply put_leaves. intros q' y z. rewrite HL1. destruct HX as [->|(-> & HX)]; [done|].
      assert (E : at_path (TObj []) q' ≠ Some (TLeaf y z)) by (by destruct q' as [|[]]).
      assert (E' : (alookup k m ≫= fun c => at_path c q') ≠ Some (TLeaf y z)) by (destruct HX as [->| ->]; [done|by destruct q' as [|[]]]).
      split; (intros [?|[? ?]]; [by left|done]).
Qed.
(** Operations for cells of the frame, of which those for one cell write the same. *)
Definition target : Type := list step * (prim * Z).
Definition aims (mf : list (string * tson)) (o : operation) (x : target) : Prop :=
  is_set (op_kind o) = true ∧ scalar_of (op_value o) = Some (x.2.1) ∧ op_ts o = x.2.2 ∧ op_parts (op_path o) = map step_name x.1 ∧
  cell_shape x.1 ∧ Forall steady x.1 ∧ exists y z, at_path (TObj mf) x.1 = Some (TLeaf y z).
Lemma grow_all mf ops xs : Forall2 (aims mf) ops xs -> (forall q w w', (q, w) ∈ xs -> (q, w') ∈ xs -> w = w') ->
  forall m, part_of (TObj m) (TObj mf) -> exists m', papply (TObj m) ops = (TObj m', Ok tt) ∧ part_of (TObj m') (TObj mf) ∧
    forall q y z, at_path (TObj m') q = Some (TLeaf y z) <-> (q, (y, z)) ∈ xs ∨ (forall w, (q, w) ∉ xs) ∧ at_path (TObj m) q = Some (TLeaf y z).
Proof.
  induction 1 as [|o [qx [px zx]] ops xs Ho HF IH]; intros HU m HP.
  - exists m. split; [done|]. split; [done|]. intros q y z. split; [intros ?; right; split; [intros ?; apply not_elem_of_nil|done]|].
    intros [H|[_ H]]; [by apply elem_of_nil in H|done].
  - destruct Ho as (H1 & H2 & H3 & H4 & H5 & H6 & x & z0 & H7). cbn [fst snd] in *.
    destruct (grow o px qx H1 H2 H5 H6 mf m x z0 H7 HP) as (m1 & E1 & HP1 & HL1).
    destruct (IH ltac:(intros q w w' Hw Hw'; apply (HU q); by right) m1 HP1) as (m2 & E2 & HP2 & HL2).
    exists m2. split; [cbn [papply]; by rewrite H4, E1|]. split; [done|]. intros q y z. rewrite HL2, HL1. split.
    + intros [H|[Hn [(-> & -> & ->)|[Hq H]]]].
      * left. by right.
      * left. rewrite H3. by left.
      * right. split; [|done]. intros w Hw. apply elem_of_cons in Hw as [[= -> _]|Hw]; [done|]. by apply (Hn w).
    + intros [H|[Hn H]].
      * apply elem_of_cons in H as [[= -> -> ->]|H]; [|by left].
        destruct (decide (qx ∈ map fst xs)) as [Hq|Hq].
        -- apply elem_of_list_fmap in Hq as ([q' w] & -> & Hq). left. cbn [fst] in *. rewrite <- (HU q' w (px, zx)); [done|by right|by left].
        -- right. split; [|by left]. intros w Hw. apply Hq. apply elem_of_list_fmap. by exists (qx, w).
      * right. split; [intros w Hw; apply (Hn w); by right|]. right. split; [|done]. intros ->. apply (Hn (px, zx)). by left.
Qed.

(** ** Cells *)
Section cells.
Context (T : textlib) (num : f64 -> string) (d : wjson) (m0 : list (string * tson)).
Hypothesis TD : telemetry T num d.
Hypothesis names : forall l x, leaf_at d l x -> Forall (fun k => ~ has_char slash k ∧ parse_int k = None) l.
Hypothesis short : forall l xs, leaf_at d l (WArr xs) -> (length xs <= 5)%nat.
Hypothesis HT : VssFileSpec.shown d (TObj m0).
Lemma shape_keys l : l ≠ [] -> cell_shape (keys l) ∧ forall i, cell_shape (keys l ++ [Elem i]).
Proof.
  induction l as [|k [|k2 l] IH]; [done|intros _; split; [constructor|intros i; constructor]|].
  intros _. destruct IH as [IH1 IH2]; [done|]. split; [by constructor|]. intros i. apply (cs_in k (keys (k2 :: l) ++ [Elem i])). apply IH2.
Qed.
Lemma cell_good r v t : cell d r v t -> cell_shape r ∧ Forall steady r ∧ Forall named r.
Proof.
  intros (l & x & Hl & HC). assert (Hne : l ≠ []).
  { intros ->. inversion Hl as [? H|]; subst. destruct TD as [HM HO _ _ _ _]. by destruct H. }
  destruct (shape_keys l Hne) as [S1 S2]. assert (HN := leaf_at_names _ _ _ _ (tl_names T num d TD) Hl).
  assert (HN2 := names _ _ Hl).
  assert (HS : Forall steady (keys l)) by (apply Forall_fmap; eapply Forall_impl; [exact HN2|]; by intros k [_ ?]).
  assert (HM : Forall named (keys l)).
  { apply Forall_fmap. rewrite Forall_forall in HN, HN2 |- *. intros k Hk. destruct (HN k Hk) as [[H1 H2] _], (HN2 k Hk) as [H3 _].
    split; [done|]. split; [done|]. apply contains_has_char. by apply free_contains. }
  destruct HC as [[-> _]|(i & xs & y & -> & -> & Hy & _)]; [done|]. split; [apply S2|]. split; apply Forall_app; (split; [done|]).
  - constructor; [|constructor]. cbn [steady]. apply short in Hl. apply lookup_lt_Some in Hy. unfold int64_max. lia.
  - constructor; [|constructor]. apply named_elem.
Qed.
Lemma self_part t : forall l, at_path (TObj m0) (keys l) = Some t -> part_of t t.
Proof.
  induction t as [|p ts|m IH|xs IH] using tson_ind'; intros l E; [constructor|constructor| |].
  - constructor. intros k c Hk. rewrite Hk. cbn. rewrite Forall_forall in IH. apply (IH (k, c)) with (l ++ [k]).
    + by apply alookup_Some_in.
    + rewrite map_app, at_path_app, E. cbn. by rewrite Hk.
  - constructor. apply Forall_lookup. intros i c Hi.
    destruct (proj1 (sn_array _ _ HT l (length xs))) as (ws & Hl & Hlen); [by exists xs|].
    destruct (tl_leaf T num d TD l _ Hl) as [(v & ts & (? & ? & _) & _)|(ws' & [= <-] & HF)]; [done|].
    destruct (lookup_lt_is_Some_2 ws i) as (y & Hy); [rewrite Hlen; by eapply lookup_lt_Some|].
    rewrite Forall_lookup in HF. destruct (HF i y Hy) as (v & ts & Hh & _).
    assert (EL : at_path (TObj m0) (keys l ++ [Elem i]) = Some (TLeaf (as_prim v) ts)).
    { apply (sn_cell _ _ HT). exists v. split; [|done]. exists l, (WArr ws). split; [done|]. right. by exists i, ws, y. }
    rewrite at_path_app, E in EL. cbn in EL. rewrite Hi in EL. cbn in EL. injection EL as ->. right. by eexists _, _.
Qed.
Definition frame : list (string * tson) := ("", TObj m0) :: m0.
Lemma start_part : part_of (TObj m0) (TObj frame).
Proof.
  assert (HS := self_part (TObj m0) [] eq_refl). inversion HS as [| | |? ? HM]; subst.
  constructor. intros k c Hk. unfold frame. cbn [alookup]. case_decide as Ek; [|by apply HM]. subst k. cbn.
  assert (HK := tl_names T num d TD). destruct c as [|p ts|m|xs]; [constructor|exfalso..].
  - destruct (proj1 (sn_cell _ _ HT [Key ""] p ts)) as (v & C & _); [by rewrite at_key, Hk|].
    destruct (cell_good _ _ _ C) as (_ & _ & HN). apply Forall_cons_1 in HN as [[? _] _]. done.
  - assert (HB : branch d [""]) by (apply (sn_branch _ _ HT); exists m; cbn [map]; by rewrite at_key, Hk).
    inversion HB as [|? ? ? ? ? Hin]; subst. apply keyed_map in HK as [_ HF]. rewrite Forall_forall in HF.
    destruct (HF _ Hin) as [[[? _] _] _]. done.
  - destruct (proj1 (sn_array _ _ HT [""] (length xs))) as (ws & Hl & _); [exists xs; cbn [map]; by rewrite at_key, Hk|].
    apply (leaf_at_names _ _ _ _ HK), Forall_cons_1 in Hl as [[[? _] _] _]. done.
Qed.
Definition hit (d' : wjson) (q : list step) (y : prim) (z : Z) : Prop :=
  exists r v t, q = Key "" :: r ∧ changed d d' r ∧ cell d' r v t ∧ y = as_prim v ∧ read_stamp (f64_of_Z t) z.
Lemma step_name_inj s s' : steady s -> steady s' -> step_name s = step_name s' -> s = s'.
Proof.
  assert (HE : forall i : nat, Z.of_nat i <= int64_max -> parse_int (pretty i) = Some (Z.of_nat i)).
  { intros i Hi. rewrite pretty_elem, parse_int_dec_text by lia. by rewrite nat_N_Z. }
  destruct s as [k|i], s' as [k'|i']; cbn [steady step_name]; intros H H' E.
  - by subst.
  - subst k. by rewrite HE in H.
  - subst k'. by rewrite HE in H'.
  - f_equal. apply Nat2Z.inj. apply (f_equal parse_int) in E. rewrite !HE in E by done. by injection E.
Qed.
Lemma names_inj q : forall q', Forall steady q -> Forall steady q' -> map step_name q = map step_name q' -> q = q'.
Proof.
  induction q as [|s q IH]; intros [|s' q'] H H' E; try done. inversion H; inversion H'; subst. injection E as E1 E2.
  f_equal; [by apply step_name_inj|by apply IH].
Qed.
Lemma Forall_choice {A B} (R : A -> B -> Prop) l : Forall (fun a => exists b, R a b) l -> exists bs, Forall2 R l bs.
Proof.
  induction 1 as [|a l (b & Hb) _ (bs & IH)]; [by exists []|]. exists (b :: bs). by apply List.Forall2_cons.
Qed.
Lemma cell_unique d' t' r v t v1 t1 : VssFileSpec.shown d' t' -> cell d' r v t -> cell d' r v1 t1 -> as_prim v = as_prim v1 ∧ t = t1.
Proof.
  intros HS C C1. assert (E : at_path t' r = Some (TLeaf (as_prim v) t)) by (apply (sn_cell _ _ HS); by exists v).
  assert (E1 : at_path t' r = Some (TLeaf (as_prim v1) t1)) by (apply (sn_cell _ _ HS); by exists v1).
  rewrite E in E1. by injection E1.
Qed.
Lemma block d' t' s ps m : VssFileSpec.shown d' t' -> (forall r v t, cell d' r v t -> int64 t) -> patch_file T d d' s -> Json.unmarshal T s = Ok (Some ps) ->
  part_of (TObj m) (TObj frame) -> exists m', papply (TObj m) ps = (TObj m', Ok tt) ∧ part_of (TObj m') (TObj frame) ∧
    forall q y z, at_path (TObj m') q = Some (TLeaf y z) <-> hit d' q y z ∨ (forall y z, ~ hit d' q y z) ∧ at_path (TObj m) q = Some (TLeaf y z).
Proof.
  intros HS HI (ops & ps' & _ & Eu & HF & _ & HO) Eu' HP. rewrite Eu in Eu'. injection Eu' as ->.
  assert (HR : Forall (fun o => exists x, aims frame o x ∧ hit d' x.1 x.2.1 x.2.2) ps).
  { apply Forall_forall. intros p Hp. apply elem_of_list_lookup in Hp as [i Hi].
    destruct (Forall2_lookup_r _ _ _ _ _ HF Hi) as (o & Ho & k & v' & f & Eo & Hk & Hv & Hf).
    apply elem_of_list_lookup_2 in Ho. apply HO in Ho as (r & v0 & t0 & v & t & C0 & C & HD & z & Hz & Er).
    rewrite Eo in Er. injection Er as -> Ep -> ->. destruct (cell_good _ _ _ C0) as (G1 & G2 & G3).
    assert (Ez : op_ts p = z).
    { apply read_stamp_spec in Hf, Hz. rewrite <- Hf. apply (f64_round_stable t); [|done]. specialize (HI _ _ _ C). unfold int64 in HI. lia. }
    exists (Key "" :: r, (as_prim v, z)). split.
    - split; [|split; [|split; [done|split; [|split; [by constructor|split; [by constructor|]]]]]]; cbn [fst snd].
      + destruct Hk as [Hk|[_ Hk]]; [|exfalso; by apply (Hk OReplace); repeat constructor].
        assert (op_kind p = OReplace) as ->; [|done]. unfold standard in Hk. rewrite !elem_of_cons, elem_of_nil in Hk. by intuition congruence.
      + by destruct (as_prim v); cbn in Hv; rewrite Hv.
      + assert (Hr : r ≠ []) by (by inversion G1). destruct (written_slash r Hr) as (rest & Ew). rewrite Ep, Ew, op_parts_slash. cbn [map step_name]. f_equal.
        rewrite <- (parts_written p r Ep Hr G3). unfold parts, unslash. cbn [op_path]. by rewrite Ep, Ew.
      + unfold frame. rewrite at_key. cbn [alookup]. rewrite decide_True by done. cbn [mbind option_bind].
        exists (as_prim v0), t0. apply (sn_cell _ _ HT). by exists v0.
    - exists r, v, t. cbn [fst snd]. split; [done|]. split; [by exists v0, t0, v, t|]. done. }
  apply Forall_choice in HR as (xs & HR).
  assert (HX : forall q y z, (q, (y, z)) ∈ xs <-> hit d' q y z).
  { intros q y z. split.
    - intros Hx. apply elem_of_list_lookup in Hx as [i Hi]. destruct (Forall2_lookup_r _ _ _ _ _ HR Hi) as (o & _ & _ & Hh). done.
    - intros (r & v & t & -> & (v0 & t0 & v1 & t1 & C0 & C1 & HD) & C & -> & Hz).
      destruct (cell_unique _ _ _ _ _ _ _ HS C C1) as [Ev <-].
      assert (HI1 : JObj [("op", JStr "replace"); ("path", JStr (written r)); ("value", json_of_prim (as_prim v1)); ("timestamp", JNum (f64_of_Z z))] ∈ ops).
      { apply HO. exists r, v0, t0, v1, t. split; [done|]. split; [done|]. split; [done|]. by exists z. }
      apply elem_of_list_lookup in HI1 as [i Hi]. destruct (Forall2_lookup_l _ _ _ _ _ HF Hi) as (p & Hp & k & v' & f & Eo & _).
      injection Eo as _ Ep _ _.
      destruct (Forall2_lookup_l _ _ _ _ _ HR Hp) as ([q' [y' z']] & Hx & (_ & _ & _ & Hpa & _ & Hst & _) & (r' & v2 & t2 & Eq' & (v3 & t3 & v4 & t4 & C3 & C4 & _) & C2 & Ey & Hz2)).
      cbn [fst snd] in *. subst q'. destruct (cell_good _ _ _ C0) as (G1 & G2 & G3). apply Forall_cons_1 in Hst as [_ Hst].
      assert (Hr : r ≠ []) by (by inversion G1). destruct (written_slash r Hr) as (rest & Ew).
      assert (E : r' = r).
      { apply names_inj; [done|done|]. rewrite <- Ep, Ew, op_parts_slash in Hpa. cbn [map step_name] in Hpa. injection Hpa as <-.
        rewrite <- (parts_written p r (eq_sym Ep) Hr G3). unfold parts, unslash. cbn [op_path]. by rewrite <- Ep, Ew. }
      subst r'. destruct (cell_unique _ _ _ _ _ _ _ HS C C2) as [Ev2 <-]. subst y'. rewrite Ev2, (read_stamp_fun _ _ _ Hz Hz2).
      by eapply elem_of_list_lookup_2. }
  destruct (grow_all frame ps xs) with (m := m) as (m' & E & HP' & HL).
  - eapply Forall2_impl; [exact HR|]. by intros o x [? _].
  - intros q [y z] [y' z'] H1%HX H2%HX. destruct H1 as (r & v & t & -> & _ & C & -> & Hz), H2 as (r' & v' & t1 & [= <-] & _ & C' & -> & Hz').
    destruct (cell_unique _ _ _ _ _ _ _ HS C C') as [-> <-]. by rewrite (read_stamp_fun _ _ _ Hz Hz').
  - done.
  - exists m'. split; [done|]. split; [done|]. intros q y z. rewrite HL, HX. split; (intros [H|[H1 H2]]; [by left|right; split; [|done]]).
    + intros y1 z1 H. apply HX in H. by apply (H1 (y1, z1)).
    + intros [y1 z1] H. apply HX in H. by apply (H1 y1 z1).
Qed.
End cells.

(** ** All patches *)
Lemma changed_cell d d' r : changed d d' r -> exists v t, cell d' r v t.
Proof. intros (? & ? & v & t & _ & C & _). by exists v, t. Qed.
Lemma changed_hit d d' r : changed d d' r -> exists y z, hit d d' (Key "" :: r) y z.
Proof.
  intros H. destruct (changed_cell _ _ _ H) as (v & t & C). destruct (read_stamp_total (f64_of_Z t)) as (z & Hz).
  exists (as_prim v), z, r, v, t. done.
Qed.
Lemma hit_changed d d' r y z : hit d d' (Key "" :: r) y z -> changed d d' r.
Proof. by intros (r' & v & t & [= <-] & H & _). Qed.
Lemma blocks T num (D : Z -> wjson) m0 (P : Z -> list operation) S :
  telemetry T num (D 1) ->
  (forall l x, leaf_at (D 1) l x -> Forall (fun k => ~ has_char slash k ∧ parse_int k = None) l) ->
  (forall l xs, leaf_at (D 1) l (WArr xs) -> (length xs <= 5)%nat) ->
  VssFileSpec.shown (D 1) (TObj m0) -> forall n : nat,
  (forall j, 2 <= j <= Z.of_nat n + 1 -> (exists t, VssFileSpec.shown (D j) t) ∧ (forall r v t, cell (D j) r v t -> int64 t) ∧
    patch_file T (D 1) (D j) (S j) ∧ Json.unmarshal T (S j) = Ok (Some (P j))) ->
  exists m', papply (TObj m0) (concat (map P (seqZ 2 (Z.of_nat n)))) = (TObj m', Ok tt) ∧ part_of (TObj m') (TObj (frame m0)) ∧
    forall q p z, at_path (TObj m') q = Some (TLeaf p z) <->
      (exists v, cell (D 1) q v z ∧ p = as_prim v) ∨ exists r, q = Key "" :: r ∧ newest D (Z.of_nat n + 1) r p z.
Proof.
  intros TD HN HL HT. induction n as [|n IH]; intros HJ.
  - exists m0. split; [done|]. split; [by apply (start_part T num (D 1))|]. intros q p z. rewrite (sn_cell _ _ HT). split; [by left|].
    intros [H|(r & _ & j & v & t & Hj & _)]; [done|]. lia.
  - destruct IH as (m1 & E1 & HP1 & HL1); [intros j Hj; apply HJ; lia|].
    destruct (HJ (2 + Z.of_nat n)) as ((t' & HS) & HI & HF & HU); [lia|].
    destruct (block T num (D 1) m0 TD HN HL HT (D (2 + Z.of_nat n)) t' (S (2 + Z.of_nat n)) (P (2 + Z.of_nat n)) m1 HS HI HF HU HP1) as (m2 & E2 & HP2 & HL2).
    exists m2. split; [|split; [done|]].
    { rewrite Nat2Z.inj_succ, <- Z.add_1_r, seqZ_app by lia. rewrite map_app, concat_app, papply_app, E1. cbn [seqZ]. 
      replace (seqZ (2 + Z.of_nat n) 1) with [2 + Z.of_nat n] by (cbn; f_equal; lia). cbn [map concat]. by rewrite app_nil_r. }
    intros q p z. rewrite HL2, HL1. split.
    + intros [(r & v & t & -> & HC & C & -> & Hz)|[Hn [H|(r & -> & j & v & t & Hj & HC & HLast & C & -> & Hz)]]].
      * right. exists r. split; [done|]. exists (2 + Z.of_nat n), v, t. split; [lia|]. split; [done|]. split; [intros j' Hj'; lia|done].
      * by left.
      * right. exists r. split; [done|]. exists j, v, t. split; [lia|]. split; [done|]. split; [|done].
        intros j' Hj' HC'. destruct (decide (j' = 2 + Z.of_nat n)) as [->|Hne]; [|apply (HLast j'); [lia|done]].
        destruct (changed_hit _ _ _ HC') as (y1 & z1 & Hh). by apply (Hn y1 z1).
    + intros [(v & C & ->)|(r & -> & j & v & t & Hj & HC & HLast & C & -> & Hz)].
      * right. split; [|left; by exists v]. intros y1 z1 (r & _ & _ & -> & _).
        destruct (cell_good T num (D 1) m0 TD HN HL HT _ _ _ C) as (_ & _ & HNm). apply Forall_cons_1 in HNm as [[? _] _]. done.
      * destruct (decide (j = 2 + Z.of_nat n)) as [->|Hne].
        -- left. by exists r, v, t.
        -- right. split.
           ++ intros y1 z1 Hh. apply hit_changed in Hh. apply (HLast (2 + Z.of_nat n)); [lia|done].
           ++ right. exists r. split; [done|]. exists j, v, t. split; [lia|]. split; [done|]. split; [intros j' Hj'; apply HLast; lia|done].
Qed.
Lemma file_empty T d d' s ps : patch_file T d d' s -> Json.unmarshal T s = Ok (Some ps) -> ps = [] <-> forall r, ~ changed d d' r.
Proof.
  intros (ops & ps' & _ & Eu & HF & _ & HO) Eu'. rewrite Eu in Eu'. injection Eu' as ->. split.
  - intros -> r (v0 & t0 & v & t & C0 & C & HD). inversion HF; subst. destruct (read_stamp_total (f64_of_Z t)) as (z & Hz).
    assert (HI : JObj [("op", JStr "replace"); ("path", JStr (written r)); ("value", json_of_prim (as_prim v)); ("timestamp", JNum (f64_of_Z z))] ∈ @nil json).
    { apply HO. exists r, v0, t0, v, t. split; [done|]. split; [done|]. split; [done|]. by exists z. }
    by apply elem_of_nil in HI.
  - intros H. destruct ops as [|o ops]; [by inversion HF|]. exfalso.
    destruct (proj1 (HO o)) as (r & v0 & t0 & v & t & C0 & C & HD & _); [by left|]. apply (H r). by exists v0, t0, v, t.
Qed.
Lemma handler_answers T num car k fs h (D : Z -> wjson) s0 S :
  telemetry T num (D 1) ->
  (forall l x, leaf_at (D 1) l x -> Forall (fun k => ~ has_char slash k ∧ parse_int k = None) l) ->
  (forall l xs, leaf_at (D 1) l (WArr xs) -> (length xs <= 5)%nat) ->
  alookup (tson_path car 1) fs = Some s0 -> data_file T (D 1) s0 -> 2 <= k ->
  (forall j, 2 <= j <= k -> (exists t, VssFileSpec.shown (D j) t) ∧ (forall r v t, cell (D j) r v t -> int64 t) ∧
    alookup (patch_path car j) fs = Some (S j) ∧ patch_file T (D 1) (D j) (S j)) ->
  exists h' s, patch_handler T car k fs h = (h', Ok s) ∧ sent T D k s.
Proof.
  intros TD HN HL E0 (t0 & Et & HT) Hk HJ. destruct (data_root (D 1) t0 (tl_map T num _ TD) (tl_open T num _ TD) HT) as (m & ->).
  pose (P j := match Json.unmarshal T (S j) with Ok (Some ps) => ps | _ => [] end).
  assert (HP : forall j, 2 <= j <= k -> Json.unmarshal T (S j) = Ok (Some (P j))).
  { intros j Hj. destruct (HJ j Hj) as (_ & _ & _ & ops & ps & _ & Eu & _). unfold P. by rewrite Eu. }
  destruct (handler_runs T car k fs h m P) as (h' & r & E & HX); [unfold read_file; by rewrite tson_named, E0|done| |].
  { intros j Hj. unfold read_file. destruct (HJ j Hj) as (_ & _ & Ej & _). rewrite patch_named, Ej. by apply HP. }
  destruct (blocks T num D m P S TD HN HL HT (Z.to_nat (k - 1))) as (m' & Em & _ & HLv).
  { intros j Hj. destruct (HJ j) as (H1 & H2 & _ & H3); [lia|]. split; [done|]. split; [done|]. split; [done|]. apply HP. lia. }
  rewrite Z2Nat.id in Em, HLv by lia. replace (k - 1 + 1) with k in HLv by lia. rewrite Em in HX. subst r. exists h'. eexists. split; [exact E|].
  assert (HE : forall j, 2 <= j <= k -> P j = [] <-> forall r, ~ changed (D 1) (D j) r).
  { intros j Hj. destruct (HJ j Hj) as (_ & _ & _ & H3). by apply (file_empty T _ _ (S j)); [|apply HP]. }
  assert (HC : forall o, o ∈ concat (map P (seqZ 2 (k - 1))) <-> exists j, 2 <= j <= k ∧ o ∈ P j).
  { intros o. rewrite elem_of_list_In, in_concat. split.
    - intros (l & Hl & Ho). apply in_map_iff in Hl as (j & <- & Hj%elem_of_list_In%elem_of_seqZ). exists j. rewrite elem_of_list_In. split; [lia|done].
    - intros (j & Hj & Ho). exists (P j). split; [|by apply elem_of_list_In]. apply in_map, elem_of_list_In, elem_of_seqZ. lia. }
  destruct (decide (concat (map P (seqZ 2 (k - 1))) = [])) as [He|He].
  - left. split; [|done]. intros j r Hj. revert r. apply (HE j Hj). destruct (P j) as [|o l] eqn:EP; [done|].
    assert (Ho : o ∈ concat (map P (seqZ 2 (k - 1)))) by (apply HC; exists j; split; [done|]; rewrite EP; left). rewrite He in Ho. by apply elem_of_nil in Ho.
  - right. split; [|by exists (TObj m')].
    destruct (concat (map P (seqZ 2 (k - 1)))) as [|o l] eqn:EC; [done|]. destruct (proj1 (HC o)) as (j & Hj & Ho); [by left|].
    destruct (HJ j Hj) as (_ & _ & _ & ops & ps & _ & Eu & HF & _ & HO). rewrite (HP j Hj) in Eu. injection Eu as <-.
    apply elem_of_list_lookup in Ho as [i Hi]. destruct (Forall2_lookup_r _ _ _ _ _ HF Hi) as (w & Hw & _). apply elem_of_list_lookup_2 in Hw.
    apply HO in Hw as (r & v0 & t0' & v & t & C0 & C & HD & _). exists j, r. split; [done|]. by exists v0, t0', v, t.
Qed.
(** After a run. *)
Lemma web_answers T num fmt0 compound no_text e o dataset cars n c m size b d fs :
  alookup "dataset" o = Some (WStr dataset) -> alookup "cars" o = Some (WInt cars) -> alookup "files" o = Some (WInt n) ->
  alookup "change_rate" o = Some (WNum c) -> alookup "maintain_rate" o = Some (WNum m) -> alookup "size" o = Some (WNum size) ->
  new_vss (e_read e dataset) = Ok (Vss b d) -> good_schema T num d -> good_env T num e -> web_names d ->
  exists fs' D, run_generate T num fmt0 compound no_text e o fs = (fs', Ok tt) ∧ forall i, 1 <= i <= cars ->
    (forall j, wanted n j -> exists s, alookup (tson_path i j) fs' = Some s ∧ data_file T (D i j) s) ∧
    forall k h, 2 <= k <= n -> exists h' s, patch_handler T i k fs' h = (h', Ok s) ∧ sent T (D i) k s.
Proof.
  intros O1 O2 O3 O4 O5 O6 EV GS GE WN.
  destruct (run_good T num fmt0 compound no_text e o dataset cars n c m size b d fs O1 O2 O3 O4 O5 O6 EV GS GE) as (fs' & D & E & _ & HI).
  exists fs', D. split; [done|]. intros i Hi. destruct (HI i Hi) as (H1 & _ & H3 & HNd & HTm & HRn & HFt). split.
  { intros j Hj. destruct (H1 j Hj) as (_ & s & ?). by exists s. }
  intros k h Hk. destruct (H1 1 ltac:(by left)) as (TD & s0 & E0 & F0).
  assert (GT : forall j, int64 (e_time e i j)).
  { intros j. destruct (ge_time T num e GE i j) as [_ Ht]. unfold int64, int64_max in *. lia. }
  apply (handler_answers T num i k fs' h (D i) s0 (fun j => default "" (alookup (patch_path i j) fs')) TD); [| |done|done|lia|].
  - intros l x Hl. apply Forall_forall. intros k0 Hk0. destruct (proj1 (HNd l)) as [HNl _]; [by exists x|].
    destruct (WN l k0 HNl Hk0) as [? ?]. split; [done|]. by apply parse_int_none.
  - intros l xs Hl. specialize (HFt _ _ Hl). inversion HFt; subst; lia.
  - intros j Hj. destruct (H1 j ltac:(right; lia)) as (_ & s1 & _ & t1 & _ & HS1). split; [by exists t1|]. split.
    + intros r v t C. destruct (HRn j ltac:(lia)) as [_ HR]. destruct (HR r v t C) as (v0 & t0 & C0 & [->|[_ <-]]); [apply GT|].
      rewrite (HTm _ _ _ C0). apply GT.
    + destruct (H3 j ltac:(lia)) as (s & -> & Hs). done.
Qed.
