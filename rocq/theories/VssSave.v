(** Facts about the files of the vehicle data generator: data sets. *)
From Verif Require Import Base BaseLemmas BaseSpec BaseSpecLemmas Tjson TjsonSpec TjsonLemmas Tson TsonInd TsonSpec F64 Serial JsonSpec TextSpec ParseComplete MarshalText
  Heap Patch PatchSpec PatchLemmas Bytes BytesLemmas Vss VssSpec VssLemmas VssPlace VssData VssPatchSpec VssTidy VssPatch VssFileSpec.
From Coq Require Import Lia.

Section saves.
Context (L : textlib) (fmt0 : f64 -> string).
Definition scell (x : wjson) (t : tson) : Prop :=
  exists v ts, holds x v ts ∧ value_saves L v ∧ 0 <= ts <= int64_max ∧ t = TLeaf (as_prim v) ts.
Inductive saved : wjson -> tson -> Prop :=
| sv_leaf x t : scell x t -> saved x t
| sv_arr l l' : Forall2 scell l l' -> saved (WArr l) (TArr l')
| sv_obj m m' : "timestamp" ∉ map fst m -> NoDup (map fst m) ->
    Forall2 (fun a b => fst a = fst b ∧ clean L (fst a) ∧ saved (snd a) (snd b)) m m' -> saved (WObj m) (TObj m').
Lemma cell_scell x : cell_saves L x -> exists t, scell x t.
Proof. intros (v & ts & H1 & H2 & H3). eexists. by exists v, ts. Qed.
Lemma forall2_exists {A B} (R : A -> B -> Prop) (l : list A) : (forall x, x ∈ l -> exists y, R x y) -> exists l', Forall2 R l l'.
Proof.
  induction l as [|x l IH]; intros H; [by exists []|]. destruct (H x) as (y & Hy); [by left|].
  destruct IH as (l' & HF); [intros x' Hx; apply H; by right|]. exists (y :: l'). by constructor.
Qed.
Lemma saved_of d : keyed (clean L) d -> (forall l x, leaf_at d l x -> cell_saves L x ∨ exists xs, x = WArr xs ∧ Forall (cell_saves L) xs) ->
  exists t, saved d t.
Proof.
  assert (Hl : forall x, cell_saves L x ∨ (exists xs, x = WArr xs ∧ Forall (cell_saves L) xs) -> exists t, saved x t).
  { intros x [H|(xs & -> & HF)].
    - destruct (cell_scell x H) as (t & Ht). exists t. by constructor.
    - destruct (forall2_exists scell xs) as (l' & Hl'); [|exists (TArr l'); by constructor].
      rewrite Forall_forall in HF. intros x Hx. by apply cell_scell, HF. }
  induction d as [|b|f|z|s|l IH|m IH] using wjson_ind'; intros HK H;
    try (apply Hl, (H []), la_here; left; by intros [? ?]).
  destruct (decide ("timestamp" ∈ map fst m)) as [Hs|Hs].
  - apply Hl, (H []), la_here. right. by exists m.
  - apply keyed_map in HK as [HN HF]. rewrite Forall_forall in IH, HF.
    destruct (forall2_exists (fun a (b : string * tson) => fst a = fst b ∧ clean L (fst a) ∧ saved (snd a) (snd b)) m) as (m' & Hm').
    + intros [k v] Hin. destruct (HF _ Hin) as [Hk Kv]. destruct (IH (k, v) Hin) as (t & Ht); [done| |by exists (k, t)].
      intros l x Hx. apply (H (k :: l)). econstructor; [|done|done]. intros (m' & [= <-] & ?). done.
    + exists (TObj m'). by constructor.
Qed.

(** ** The text *)
Lemma z_text_number z : int_kept L z -> number L (z_text z) (f64_of_Z z) false.
Proof.
  intros H. unfold int_kept in H. unfold z_text in *. destruct (z <? 0).
  - replace (String "-" (dec_text (Z.to_N (- z)))) with ("-" +++ dec_text (Z.to_N (- z)) +++ "") in * by (by rewrite sapp_nil_r).
    apply number_intro; [by left|right; eexists; apply dec_text_digits|by left|done].
  - replace (dec_text (Z.to_N z)) with ("" +++ dec_text (Z.to_N z) +++ "") in * by (by rewrite sapp_nil_r).
    apply number_intro; [right; split; [done|]|right; eexists; apply dec_text_digits|by left|done].
    destruct (dec_text_spec (Z.to_N z)) as (_ & ? & _). done.
Qed.
Lemma value_text v : value_saves L v -> exists s k, format_primitive L v = Ok s ∧ scalar_text L k (as_prim v) s.
Proof.
  destruct v as [|b|f|z|s|l|m]; try done; cbn [value_saves as_prim format_primitive].
  - intros _. eexists _, closed. split; [done|]. destruct b; constructor.
  - intros [d H]. eexists _, _. split; [done|]. by apply st_num.
  - intros H. eexists _, _. split; [done|]. by apply st_num, z_text_number.
  - intros H. eexists _, _. split; [done|]. apply st_str. by apply quote_body_literal.
Qed.
Lemma holds_any_leaf m v ts : holds (WObj m) v ts -> any_leaf m = Some (v, ts).
Proof.
  intros (m' & [= <-] & HP). unfold any_leaf. rewrite decide_True by (by rewrite HP).
  assert (HN : NoDup (map fst m)) by (rewrite HP; apply NoDup_cons; split; [simpl; set_solver|apply NoDup_singleton]).
  rewrite (alookup_in "value" v), (alookup_in "timestamp" (WInt ts)); [done|done| |done|]; rewrite HP; [right; by left|by left].
Qed.
Lemma open_any_leaf m : "timestamp" ∉ map fst m -> any_leaf m = None.
Proof.
  intros H. unfold any_leaf. case_decide; [|done]. apply alookup_None_iff in H. rewrite H. by destruct (alookup "value" m).
Qed.
Lemma member_leaf k p s kk ts : clean L k -> scalar_text L kk p s -> 0 <= ts <= int64_max ->
  member_text L k (TLeaf p ts) (quote L k +++ " " +++ ts_text ts +++ ": " +++ s).
Proof.
  intros Hk Hs Hts.
  pose proof (member_intro L "" (quote_body L k) k " " (ts_text ts) _ "" " "
    _ _ _ "" blank_nil (quote_body_literal L k Hk) blank_space (os_some _ _ (ts_text_stamp ts (proj2 Hts)))
    blank_nil blank_space (vt_scalar L _ _ _ Hs) ltac:(done) blank_nil) as H.
  replace (0 <=? ts) with true in H by (symmetry; apply Z.leb_le; lia). cbn [retime] in H.
  replace (0 <=? ts) with true in H by (symmetry; apply Z.leb_le; lia).
  unfold quote. rewrite quoted_app. rewrite sapp_nil_r in H. exact H.
Qed.
Lemma elem_leaf p s kk ts : scalar_text L kk p s -> 0 <= ts <= int64_max ->
  elem_text L (TLeaf p ts) (ts_text ts +++ " " +++ s).
Proof.
  intros Hs Hts.
  pose proof (elem_intro L "" (ts_text ts) _ " " _ _ _ "" blank_nil
    (os_some _ _ (ts_text_stamp ts (proj2 Hts))) blank_space (vt_scalar L _ _ _ Hs) ltac:(done)
    ltac:(done) blank_nil) as H.
  replace (0 <=? ts) with true in H by (symmetry; apply Z.leb_le; lia). cbn [retime] in H.
  replace (0 <=? ts) with true in H by (symmetry; apply Z.leb_le; lia).
  rewrite sapp_nil_r in H. exact H.
Qed.
Definition any_members (cur ind : string) := fix go (first : bool) (m : members) : res string :=
  match m with
  | [] => Ok ""
  | (k, v) :: m' =>
      do here <- match v with
                 | WObj n => match any_leaf n with
                             | Some (x, ts) => do p <- format_primitive L x; Ok (" " +++ ts_text ts +++ ": " +++ p)
                             | None => do s <- indent_any L fmt0 (cur +++ ind) ind CObject v; Ok (": " +++ s)
                             end
                 | _ => do s <- indent_any L fmt0 (cur +++ ind) ind CObject v; Ok (": " +++ s)
                 end;
      do rest <- go false m';
      Ok ((if first then "" else "," +++ newline) +++ cur +++ ind +++ quote L k +++ here +++ rest)
  end.
Definition any_elems (cur ind : string) := fix go (first : bool) (l : list wjson) : res string :=
  match l with
  | [] => Ok ""
  | v :: l' =>
      do s <- indent_any L fmt0 (cur +++ ind) ind CArray v;
      do rest <- go false l';
      Ok ((if first then "" else "," +++ newline) +++ cur +++ ind +++ s +++ rest)
  end.
Lemma any_obj_eq cur ind c m : any_leaf m = None -> indent_any L fmt0 cur ind c (WObj m)
  = do body <- any_members cur ind true m; Ok ("{" +++ newline +++ body +++ newline +++ cur +++ "}").
Proof. intros E. cbn [indent_any]. rewrite E. reflexivity. Qed.
Lemma any_arr_eq cur ind c l : indent_any L fmt0 cur ind c (WArr l)
  = do body <- any_elems cur ind true l; Ok ("[" +++ newline +++ body +++ newline +++ cur +++ "]").
Proof. reflexivity. Qed.
Lemma any_elems_cons cur ind first v l : any_elems cur ind first (v :: l) =
  do s <- indent_any L fmt0 (cur +++ ind) ind CArray v;
  do rest <- any_elems cur ind false l;
  Ok ((if first then "" else "," +++ newline) +++ cur +++ ind +++ s +++ rest).
Proof. reflexivity. Qed.
Definition any_member (cur ind : string) (v : wjson) : res string :=
  match v with
  | WObj n => match any_leaf n with
              | Some (x, ts) => do p <- format_primitive L x; Ok (" " +++ ts_text ts +++ ": " +++ p)
              | None => do s <- indent_any L fmt0 (cur +++ ind) ind CObject v; Ok (": " +++ s)
              end
  | _ => do s <- indent_any L fmt0 (cur +++ ind) ind CObject v; Ok (": " +++ s)
  end.
Lemma any_members_cons cur ind first k v m : any_members cur ind first ((k, v) :: m) =
  do here <- any_member cur ind v;
  do rest <- any_members cur ind false m;
  Ok ((if first then "" else "," +++ newline) +++ cur +++ ind +++ quote L k +++ here +++ rest).
Proof. reflexivity. Qed.
Lemma any_cell cur ind c m v ts : holds (WObj m) v ts -> indent_any L fmt0 cur ind c (WObj m) =
  do p <- format_primitive L v;
  Ok match c with CObject => p | CArray => ts_text ts +++ " " +++ p | CTop => p +++ " " +++ ts_text ts end.
Proof. intros Hh. cbn [indent_any]. by rewrite (holds_any_leaf m v ts Hh). Qed.
Lemma elems_saved cur ind l l' : blank cur -> blank ind -> Forall2 scell l l' ->
  exists s, any_elems cur ind true l = Ok s ∧ ((l' = [] ∧ s = "") ∨ elems_text L l' s).
Proof.
  intros Hcur Hind HF.
  assert (Hgen : forall first, exists s, any_elems cur ind first l = Ok s ∧
     ((l' = [] ∧ s = "") ∨ exists s', s = (if first then "" else "," +++ newline) +++ s' ∧ elems_text L l' s')).
  { induction HF as [|x t l l' (v & ts & Hh & Hv & Hts & ->) HF IH]; intros first; [exists ""; split; [done|by left]|].
    destruct (value_text v Hv) as (s & k & Es & Hs). destruct (IH false) as (r & Er & Hr).
    eexists. split.
    - rewrite any_elems_cons. assert (Hh' := Hh). destruct Hh' as (m & -> & HP). rewrite (any_cell _ _ _ m v ts Hh), Es, Er. cbn [rbind]. reflexivity.
    - right. eexists. split; [reflexivity|]. rewrite <- sapp_assoc. rewrite <- (sapp_assoc (cur +++ ind)). apply elems_cons_text.
      + apply elem_lead; [by apply blank_app|]. by eapply elem_leaf.
      + destruct Hr as [[-> ->]|(s' & -> & Hs')]; [by left|]. right.
        exists (newline +++ s'). split; [done|]. by apply elems_lead; [apply blank_newline|]. }
  destruct (Hgen true) as (s & Es & Hs). exists s. split; [done|]. destruct Hs as [?|(s' & -> & ?)]; [by left|by right].
Qed.
Lemma saved_not_nil d t : saved d t -> t ≠ TNil.
Proof. intros H. inversion H as [? ? (v & ts & _ & _ & _ & ->)| |]; subst; done. Qed.
Lemma saved_text d : forall t cur ind c, blank cur -> blank ind -> saved d t ->
  (exists v ts, holds d v ts) ∨ exists s, indent_any L fmt0 cur ind c d = Ok s ∧ val_text L closed t s ∧ forall p ts, t ≠ TLeaf p ts.
Proof.
  induction d as [|b|f|z|s|l IH|m IH] using wjson_ind'; intros t cur ind c Hcur Hind HS; inversion HS as [? ? (v & ts & Hh & _)|? l' HF|? m' Ht HN HF]; subst;
    try (left; by exists v, ts); right.
  - destruct (elems_saved cur ind l l' Hcur Hind HF) as (s & Es & Hs). eexists. split; [rewrite any_arr_eq, Es; reflexivity|]. split; [|done].
    destruct Hs as [[-> ->]|H].
    + change ("" +++ newline +++ cur +++ "]") with (newline +++ cur +++ "]").
      rewrite <- !(sapp_assoc newline). rewrite <- (sapp_assoc _ cur). apply vt_arr0.
      repeat apply blank_app; auto using blank_newline.
    + assert (E : "[" +++ newline +++ s +++ newline +++ cur +++ "]" = "[" +++ (newline +++ s +++ (newline +++ cur)) +++ "]")
        by by rewrite !sapp_assoc.
      rewrite E. apply vt_arr. apply elems_lead; [apply blank_newline|].
      apply elems_trail; [|done]. by apply blank_app; [apply blank_newline|].
  - assert (H : exists s, any_members cur ind true m = Ok s ∧ ((m' = [] ∧ s = "") ∨ members_text L m' s)).
    { assert (Hgen : forall first, exists s, any_members cur ind first m = Ok s ∧
         ((m' = [] ∧ s = "") ∨ exists s', s = (if first then "" else "," +++ newline) +++ s' ∧ members_text L m' s')).
      { clear HS HN Ht. induction HF as [|[k x] [k' t] m m' (Ek & Hk & Hx) HF IHF]; intros first; [exists ""; split; [done|by left]|].
        cbn [fst snd] in Ek, Hk, Hx. subst k'. inversion IH as [|? ? IHx IHm]; subst. cbn [snd] in IHx.
        destruct (IHF IHm false) as (r & Er & Hr).
        assert (Hhere : exists here, any_member cur ind x = Ok here ∧ member_text L k t (quote L k +++ here)).
        { assert (Hother : (forall v ts, ~ holds x v ts) -> exists s, indent_any L fmt0 (cur +++ ind) ind CObject x = Ok s ∧ member_text L k t (quote L k +++ ": " +++ s)).
          { intros Hn. destruct (IHx t (cur +++ ind) ind CObject) as [(v & ts & Hh)|(s & Es & Hs & Hp)]; [by apply blank_app|done|done|by destruct (Hn v ts)|].
            exists s. split; [done|]. eapply print_member_other; [done|done|by eapply saved_not_nil|done]. }
          inversion Hx as [? ? (v & ts & Hh & Hv & Hts & ->)|? l' HF'|? m2 Ht2 HN2 HF2]; subst.
          - destruct (value_text v Hv) as (s & kk & Es & Hs). assert (Hh' := Hh). destruct Hh' as (n & -> & HP).
            unfold any_member. rewrite (holds_any_leaf n v ts Hh), Es. cbn [rbind]. eexists. split; [reflexivity|]. by eapply member_leaf.
          - unfold any_member. destruct Hother as (s & -> & Hs); [by intros v ts (? & ? & _)|]. cbn [rbind]. by eexists.
          - unfold any_member. rewrite open_any_leaf by done. destruct Hother as (s & -> & Hs); [|cbn [rbind]; by eexists].
            intros v ts (? & [= <-] & HP). apply Ht2. rewrite HP. right. by left. }
        destruct Hhere as (here & Eh & Hm). eexists. split; [rewrite any_members_cons, Eh, Er; cbn [rbind]; reflexivity|].
        right. eexists. split; [reflexivity|]. rewrite <- sapp_assoc. rewrite <- (sapp_assoc (quote L k)). rewrite <- (sapp_assoc (cur +++ ind)).
        apply members_cons_text.
        - apply member_lead; [by apply blank_app|]. done.
        - destruct Hr as [[-> ->]|(s' & -> & Hs')]; [by left|]. right.
          exists (newline +++ s'). split; [done|]. by apply members_lead; [apply blank_newline|]. }
      destruct (Hgen true) as (s & Es & Hs). exists s. split; [done|]. destruct Hs as [?|(s' & -> & ?)]; [by left|by right]. }
    destruct H as (s & Es & H). eexists. split; [rewrite any_obj_eq, Es by (by apply open_any_leaf); reflexivity|]. split; [|done].
    destruct H as [[-> ->]|H].
    + change ("" +++ newline +++ cur +++ "}") with (newline +++ cur +++ "}").
      rewrite <- !(sapp_assoc newline). rewrite <- (sapp_assoc _ cur). apply vt_obj0.
      repeat apply blank_app; auto using blank_newline.
    + assert (HN' : NoDup (akeys m')).
      { replace (akeys m') with (map fst m); [done|]. clear -HF. induction HF as [|a b m m' (E & _) HF IH]; [done|]. cbn. rewrite E. by f_equal. }
      rewrite <- (last_wins_nodup m') by done.
      assert (E : "{" +++ newline +++ s +++ newline +++ cur +++ "}" = "{" +++ (newline +++ s +++ (newline +++ cur)) +++ "}")
        by by rewrite !sapp_assoc.
      rewrite E. apply vt_obj. apply members_lead; [apply blank_newline|].
      apply members_trail; [|done]. by apply blank_app; [apply blank_newline|].
Qed.
Lemma saved_read m t : saved (WObj m) t -> "timestamp" ∉ map fst m -> unmarshal L (save_data L fmt0 (WObj m)) = Ok t.
Proof.
  intros HS Ht. destruct (saved_text (WObj m) t "" "    " CTop) as [(v & ts & (? & [= <-] & HP))|(s & Es & Hs & _)]; [constructor| |done| |].
  - repeat (constructor; [simpl; auto|]). constructor.
  - destruct Ht. rewrite HP. right. by left.
  - unfold save_data. rewrite Es. rewrite <- (sapp_nil_r s). apply unmarshal_complete. by apply closed_doc.
Qed.
Lemma saved_wf d : forall t, saved d t -> wf t.
Proof.
  assert (Hc : forall x t, scell x t -> wf t) by (intros x t (v & ts & _ & _ & _ & ->); constructor).
  induction d as [|b|f|z|s|l IH|m IH] using wjson_ind'; intros t HS; inversion HS as [? ? H|? l' HF|? m' Ht HN HF]; subst; try (by eapply Hc).
  - constructor. clear -HF Hc. induction HF as [|x t l l' H HF IH]; constructor; [by eapply Hc|done].
  - constructor.
    + replace (akeys m') with (map fst m); [done|]. clear -HF. induction HF as [|a b m m' (E & _) HF IH]; [done|]. cbn. rewrite E. by f_equal.
    + clear -HF IH. induction HF as [|a b m m' (_ & _ & H) HF IHF]; [constructor|]. inversion IH; subst. constructor; auto.
Qed.
Lemma saved_lookup m m' : NoDup (map fst m) -> Forall2 (fun a b => fst a = fst b ∧ clean L (fst a) ∧ saved (snd a) (snd b)) m m' ->
  forall k t, alookup k m' = Some t <-> exists x, (k, x) ∈ m ∧ saved x t ∧ alookup k m' = Some t.
Proof.
  intros HN HF k t. split; [|by intros (x & _ & _ & ?)]. intros E. cut (exists x, (k, x) ∈ m ∧ saved x t); [naive_solver|].
  clear HN. induction HF as [|[k1 x1] [k2 t2] m m' (E1 & _ & H) HF IH]; [done|]. cbn [fst snd] in *. subst k2. cbn [alookup] in E. case_decide.
  - subst k1. injection E as ->. exists x1. split; [by left|done].
  - destruct IH as (x & Hx & ?); [done|]. exists x. split; [by right|done].
Qed.
Lemma saved_member m m' k x : NoDup (map fst m) -> Forall2 (fun a b => fst a = fst b ∧ clean L (fst a) ∧ saved (snd a) (snd b)) m m' ->
  (k, x) ∈ m -> exists t, alookup k m' = Some t ∧ saved x t.
Proof.
  intros HN HF. induction HF as [|[k1 x1] [k2 t2] m m' (E1 & _ & H) HF IH]; [by intros ?%elem_of_nil|]. cbn [fst snd map] in *. subst k2.
  inversion HN as [|? ? Hk HN']; subst. cbn [alookup]. intros [[= -> ->]|Hin]%elem_of_cons; [rewrite decide_True by done; by exists t2|].
  rewrite decide_False; [by apply IH|]. intros ->. apply Hk. by apply (elem_of_list_fmap_1 fst) in Hin.
Qed.
Lemma scell_shown x t : scell x t -> (forall q p z, at_path t q = Some (TLeaf p z) <-> exists v, (q = [] ∧ holds x v z) ∧ p = as_prim v) ∧ stamped x ∧ exists p ts, t = TLeaf p ts.
Proof.
  intros (v & ts & Hh & _ & _ & ->). split; [|split; [by eapply holds_stamped|by eexists _, _]]. intros q p z. split.
  - intros Hq. destruct q as [|[k|i] q]; try done. injection Hq as <- <-. by exists v.
  - intros (v' & [-> Hh'] & ->). by destruct (holds_fun _ _ _ _ _ Hh Hh') as [<- <-].
Qed.
Lemma saved_cells d : forall t, saved d t -> forall q p z, at_path t q = Some (TLeaf p z) <-> exists v, cell d q v z ∧ p = as_prim v.
Proof.
  induction d as [|e|f|y|s|l IH|m IH] using wjson_ind'; intros t HS q p z; inversion HS as [? ? H|? l' HF|? m' Ht HN HF]; subst;
    try (destruct (scell_shown _ _ H) as (E & _); rewrite E; destruct H as (v0 & ts0 & Hh & _);
         split; intros (v & H1 & H2); exists v; (split; [|done]); by apply (cell_leaf _ q v z v0 ts0 Hh)).
  - split.
    + intros Hq. destruct q as [|[k|i] q]; try done. cbn [at_path] in Hq. destruct (l' !! i) as [u|] eqn:Ei; [|done]. cbn in Hq.
      destruct (Forall2_lookup_r _ _ _ _ _ HF Ei) as (x & Hx & Hs). destruct (scell_shown _ _ Hs) as (E & _).
      destruct (proj1 (E q p z) Hq) as (v & [-> Hv] & ->). exists v. split; [|done]. apply cell_arr. by exists i, x.
    + intros (v & HC & ->). apply cell_arr in HC as (i & x & -> & Hx & Hh).
      assert (HE := Forall2_lookup_l _ _ _ _ _ HF Hx). destruct HE as (u & Hu & Hs). destruct (scell_shown _ _ Hs) as (E & _).
      cbn [at_path]. rewrite Hu. apply (E [] (as_prim v) z). by exists v.
  - rewrite Forall_forall in IH. split.
    + intros Hq. destruct q as [|[k|i] q]; try done. rewrite at_key in Hq. destruct (alookup k m') as [u|] eqn:Ek; [|done]. cbn in Hq.
      apply (saved_lookup m m' HN HF) in Ek as (x & Hin & Hx & _). destruct (proj1 (IH (k, x) Hin u Hx q p z) Hq) as (v & HC & ->).
      exists v. split; [|done]. apply cell_obj; [done|]. by exists k, x, q.
    + intros (v & HC & ->). apply cell_obj in HC as (k & w & q' & Hin & -> & HC); [|done]. rewrite at_key.
      destruct (saved_member m m' k w HN HF Hin) as (u & -> & Hu). apply (IH (k, w) Hin u Hu). by exists v.
Qed.
Lemma saved_branches d : forall t, saved d t -> forall l, (exists m, at_path t (map Key l) = Some (TObj m)) <-> branch d l.
Proof.
  induction d as [|e|f|y|s|l IH|m IH] using wjson_ind'; intros t HS q; inversion HS as [? ? H|? l' HF|? m' Ht HN HF]; subst;
    try (destruct (scell_shown _ _ H) as (_ & Hst & p & ts & ->); split;
      [intros (m2 & E); by destruct q|intros Hb; inversion Hb; subst; done]).
  - split; [intros (m2 & E); by destruct q|intros Hb; inversion Hb].
  - rewrite Forall_forall in IH. apply not_stamped in Ht. destruct q as [|k q]; cbn [map].
    + split; [by constructor|]. intros _. by exists m'.
    + rewrite at_key. split.
      * intros (m2 & E). destruct (alookup k m') as [u|] eqn:Ek; [|done]. apply (saved_lookup m m' HN HF) in Ek as (x & Hin & Hx & _).
        apply br_in with x; [done|done|]. apply (IH (k, x) Hin u Hx). by exists m2.
      * intros Hb. inversion Hb as [|? ? x ? _ Hin Hb']; subst. destruct (saved_member m m' k x HN HF Hin) as (u & -> & Hu).
        by apply (IH (k, x) Hin u Hu).
Qed.
Lemma saved_arrays d : forall t, saved d t -> forall l n, (exists ys, at_path t (map Key l) = Some (TArr ys) ∧ length ys = n) <-> exists xs, leaf_at d l (WArr xs) ∧ length xs = n.
Proof.
  induction d as [|e|f|y|s|l IH|m IH] using wjson_ind'; intros t HS q n; inversion HS as [? ? H|? l' HF|? m' Ht HN HF]; subst;
    try (destruct (scell_shown _ _ H) as (_ & Hst & p & ts & ->); split;
      [intros (m2 & E & _); by destruct q|intros (xs & Hl & _); apply leaf_at_leaf in Hl as [_ E]; [subst; by destruct Hst as (? & ? & _)|by right]]).
  - split.
    + intros (ys & E & <-). destruct q; [|done]. injection E as <-. exists l. split; [apply la_here; left; by intros [? ?]|]. by eapply Forall2_length.
    + intros (xs & Hl & <-). apply leaf_at_leaf in Hl as [-> [= ->]]; [|left; by intros [? ?]]. exists l'. split; [done|]. symmetry. by eapply Forall2_length.
  - rewrite Forall_forall in IH. assert (Ht' := not_stamped _ Ht). destruct q as [|k q]; cbn [map].
    + split; [intros (ys & E & _); done|]. intros (xs & Hl & _). inversion Hl as [? Hd|]; subst.
    + rewrite at_key. split.
      * intros (ys & E & El). destruct (alookup k m') as [u|] eqn:Ek; [|done]. apply (saved_lookup m m' HN HF) in Ek as (x & Hin & Hx & _).
        destruct (proj1 (IH (k, x) Hin u Hx q n)) as (xs & Hl & Exs); [by exists ys|]. exists xs. split; [|done]. by apply la_in with x.
      * intros (xs & Hl & El). inversion Hl as [|? ? x ? ? _ Hin Hl']; subst. destruct (saved_member m m' k x HN HF Hin) as (u & -> & Hu).
        apply (IH (k, x) Hin u Hu). by exists xs.
Qed.
(** ** Data that is not saved *)
Lemma two_members {V} (m : list (string * V)) k1 k2 v1 v2 : length m = 2%nat -> k1 ≠ k2 -> (k1, v1) ∈ m -> (k2, v2) ∈ m -> m ≡ₚ [(k1, v1); (k2, v2)].
Proof.
  intros El Hk H1 H2. destruct m as [|a [|b [|c m]]]; try done.
  rewrite !elem_of_cons in H1, H2. destruct H1 as [<-|[<-|H1]], H2 as [E|[E|H2]]; try by apply elem_of_nil in H1; try by apply elem_of_nil in H2.
  all: try (by injection E as ?). all: try (by apply elem_of_nil in H2). all: subst; try reflexivity. apply perm_swap.
Qed.
Lemma any_leaf_spec m v : NoDup (map fst m) -> (exists ts, any_leaf m = Some (v, ts)) <-> stamped_value m v.
Proof.
  intros HN. split.
  - intros (ts & E). unfold any_leaf in E. case_decide as El; [|done].
    destruct (alookup "value" m) as [w|] eqn:Ev; [|done]. apply alookup_Some_in in Ev.
    destruct (alookup "timestamp" m) as [t|] eqn:Et; [|done]. apply alookup_Some_in in Et.
    assert (HP : m ≡ₚ [("value", w); ("timestamp", t)]) by (by apply two_members).
    destruct t; try done; injection E as <- <-; eexists; (split; [exact HP|]); [right|left]; by eexists.
  - intros (t & HP & Ht). unfold any_leaf. rewrite decide_True by (by rewrite HP).
    rewrite (alookup_in "value" v), (alookup_in "timestamp" t); [|done|rewrite HP; right; by left|done|rewrite HP; by left].
    destruct Ht as [[z ->]|[f ->]]; by eexists.
Qed.
Lemma primitive_spec v : (plain_value v ∧ exists s, format_primitive L v = Ok s) ∨ (~ plain_value v ∧ format_primitive L v = Err).
Proof. destruct v; cbn; try (right; split; [by intros []|done]); left; split; try done; by eexists. Qed.
Lemma member_outcome cur ind P x : keyed P x -> (forall cur c, (unsaved x ∧ indent_any L fmt0 cur ind c x = Err) ∨ (~ unsaved x ∧ exists s, indent_any L fmt0 cur ind c x = Ok s)) ->
  (unsaved x ∧ any_member cur ind x = Err) ∨ (~ unsaved x ∧ exists s, any_member cur ind x = Ok s).
Proof.
  intros HK H. assert (Hother : (unsaved x ∧ (do s <- indent_any L fmt0 (cur +++ ind) ind CObject x; Ok (": " +++ s)) = Err) ∨
     (~ unsaved x ∧ exists s, (do s <- indent_any L fmt0 (cur +++ ind) ind CObject x; Ok (": " +++ s)) = Ok s)).
  { destruct (H (cur +++ ind) CObject) as [(? & ->)|(? & s & ->)]; [by left|right]. split; [done|]. by eexists. }
  destruct x as [|b|f|z|s|l|m]; try exact Hother. unfold any_member. destruct (any_leaf m) as [[v ts]|] eqn:E; [|done].
  destruct (H "" CObject) as [(HU & E1)|(HU & s & E1)]; cbn [indent_any] in E1; rewrite E in E1; destruct (format_primitive L v) eqn:Ep; try done.
  - by left.
  - right. split; [done|]. by eexists.
Qed.
Lemma indent_outcome ind P d : keyed P d -> forall cur c,
  (unsaved d ∧ indent_any L fmt0 cur ind c d = Err) ∨ (~ unsaved d ∧ exists s, indent_any L fmt0 cur ind c d = Ok s).
Proof.
  induction d as [|b|f|z|s|l IH|m IH] using wjson_ind'; intros HK cur c;
    try (right; split; [by inversion 1|by eexists]).
  - left. split; [constructor|done].
  - inversion HK as [|? HF|? ? Hn]; subst; [|by destruct (Hn l)]. rewrite any_arr_eq.
    assert (H : forall first, (unsaved (WArr l) ∧ any_elems cur ind first l = Err) ∨ (~ unsaved (WArr l) ∧ exists s, any_elems cur ind first l = Ok s)).
    { clear HK. induction l as [|x l IHl]; intros first.
      - right. split; [|by eexists]. inversion 1 as [| | |? ? Hin]; subst. by apply elem_of_nil in Hin.
      - inversion IH as [|? ? IHx IHr]; subst. inversion HF as [|? ? Hx HFr]; subst. rewrite any_elems_cons.
        destruct (IHx Hx (cur +++ ind) CArray) as [(Hu & ->)|(Hu & s & ->)]; cbn [rbind].
        + left. split; [|done]. by apply us_arr with x; [left|].
        + destruct (IHl IHr HFr false) as [(Hl & ->)|(Hl & r & ->)]; cbn [rbind].
          * left. split; [|done]. inversion Hl; subst. by eapply us_arr; [right|].
          * right. split; [|by eexists]. inversion 1 as [| | |? v Hin Hv]; subst. apply elem_of_cons in Hin as [->|Hin]; [done|].
            apply Hl. by apply us_arr with v. }
    destruct (H true) as [(? & ->)|(? & s & ->)]; [by left|right]. split; [done|]. by eexists.
  - apply keyed_map in HK as [HN HF]. assert (Hleaf := fun v => any_leaf_spec m v HN). destruct (any_leaf m) as [[v ts]|] eqn:E.
    + assert (Hv : stamped_value m v) by (apply Hleaf; by eexists).
      assert (Hfun : forall w, stamped_value m w -> w = v) by (intros w (ts' & [= -> ->])%Hleaf; done).
      assert (HU : unsaved (WObj m) <-> ~ plain_value v).
      { split; [|by apply us_cell]. inversion 1 as [|? w Hw Hp|? k w Hw|]; subst; [by rewrite <- (Hfun w)|by destruct (Hw v)]. }
      cbn [indent_any]. rewrite E. rewrite HU. destruct (primitive_spec v) as [(Hp & s & ->)|(Hp & ->)]; [right|by left].
      split; [naive_solver|]. by eexists.
    + rewrite any_obj_eq by done.
      assert (Hno : forall w, ~ stamped_value m w) by (by intros w (ts & ?)%Hleaf).
      assert (HU : unsaved (WObj m) <-> exists kv, kv ∈ m ∧ unsaved (snd kv)).
      { split.
        - inversion 1 as [|? w Hw Hp|? k w Hw|]; subst; [by destruct (Hno w)|]. by exists (k, w).
        - intros ([k w] & Hin & Hu). by apply us_obj with k w. }
      assert (H : forall first, ((exists kv, kv ∈ m ∧ unsaved (snd kv)) ∧ any_members cur ind first m = Err) ∨
          (~ (exists kv, kv ∈ m ∧ unsaved (snd kv)) ∧ exists s, any_members cur ind first m = Ok s)).
      { clear HN Hleaf E Hno HU. induction m as [|[k x] m IHm]; intros first.
        - right. split; [|by eexists]. intros (? & Hin & _). by apply elem_of_nil in Hin.
        - inversion IH as [|? ? IHx IHr]; subst. inversion HF as [|? ? [_ Hx] HFr]; subst. cbn [snd] in IHx, Hx. rewrite any_members_cons.
          destruct (member_outcome cur ind P x Hx (IHx Hx)) as [(Hu & ->)|(Hu & s & ->)]; cbn [rbind].
          + left. split; [|done]. exists (k, x). split; [by left|done].
          + destruct (IHm IHr HFr false) as [((kv & Hin & Hl) & ->)|(Hl & r & ->)]; cbn [rbind].
            * left. split; [|done]. exists kv. split; [by right|done].
            * right. split; [|by eexists]. intros (kv & [->|Hin]%elem_of_cons & Hv); [done|]. apply Hl. by exists kv. }
      rewrite HU. destruct (H true) as [(? & ->)|(? & s & ->)]; [by left|right]. split; [done|]. by eexists.
Qed.
Lemma save_lost P d : keyed P d -> is_map d -> save_data L fmt0 d = "" <-> unsaved d.
Proof.
  intros HK [m ->]. unfold save_data. destruct (indent_outcome "    " P (WObj m) HK "" CTop) as [(Hu & ->)|(Hu & s & E)]; [done|].
  rewrite E. split; [|done]. intros ->. exfalso. apply keyed_map in HK as [HN _]. destruct (any_leaf m) as [[v ts]|] eqn:El.
  - cbn [indent_any] in E. rewrite El in E. destruct (format_primitive L v) as [s| |]; try done. cbn [rbind] in E. injection E as E. by destruct s.
  - rewrite any_obj_eq in E by done. destruct (any_members "" "    " true m); try done.
Qed.
Lemma storable_saved d : storable L d -> exists t, saved d t.
Proof. intros [_ _ H1 H2]. by apply saved_of. Qed.
Lemma save_exact d : storable L d -> exists t, unmarshal L (save_data L fmt0 d) = Ok t ∧ shown d t.
Proof.
  intros HD. destruct (storable_saved d HD) as (t & Ht). exists t. destruct HD as [[m ->] Hs _ _]. split.
  - apply saved_read; [done|]. intros Hin. apply Hs. by exists m.
  - constructor; [by eapply saved_wf|by apply saved_cells|by apply saved_branches|by apply saved_arrays].
Qed.
End saves.
