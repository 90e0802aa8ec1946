(** Facts about the vehicle data generator: data sets as documents. *)
From Verif Require Import Base BaseLemmas BaseSpec Tjson TjsonSpec TjsonLemmas Tson TsonInd TsonSpec F64 TsonLemmas ConvLemmas ReadLemmas Serial Heap Patch PatchSpec Diff DiffSpec
  Json JsonSpec Bytes BytesLemmas JsonWrite JsonTson FrameDiff
  Vss VssSpec VssLemmas VssPlace VssFloat VssGen VssData VssNext VssPatchSpec VssTidy.
From Coq Require Import Lia.

Section kept.
Context (T : textlib) (num : f64 -> string).
Notation cell_writes := (cell_writes T num).
Notation leaf_writes := (leaf_writes T num).
Notation telemetry := (telemetry T num).
Definition good_name (k : string) : Prop := schema_name k ∧ utf8 k.
(** Data sets by structure. *)
Inductive shaped : wjson -> Prop :=
| sh_cell x : cell_writes x -> shaped x
| sh_arr l : Forall cell_writes l -> shaped (WArr l)
| sh_obj m : "timestamp" ∉ map fst m -> NoDup (map fst m) -> Forall (fun kv => good_name (fst kv) ∧ shaped (snd kv)) m -> shaped (WObj m).
Lemma shaped_of d : keyed good_name d -> (forall l x, leaf_at d l x -> leaf_writes x) -> shaped d.
Proof.
  assert (Hl : forall x, leaf_writes x -> shaped x).
  { intros x [H|(xs & -> & HF)]; by constructor. }
  induction d as [|b|f|z|s|l IH|m IH] using wjson_ind'; intros HK H;
    try (apply Hl, (H []), la_here; left; by intros [? ?]).
  destruct (decide ("timestamp" ∈ map fst m)) as [Hs|Hs].
  - apply Hl, (H []), la_here. right. by exists m.
  - apply keyed_map in HK as [HN HF]. apply sh_obj; [done|done|]. rewrite Forall_forall in IH, HF |- *.
    intros [k v] Hin. destruct (HF _ Hin) as [Hk Kv]. split; [done|]. apply (IH (k, v) Hin); [done|].
    intros l x Hx. apply (H (k :: l)). econstructor; [|done|done]. intros (m' & [= <-] & ?). done.
Qed.
Lemma telemetry_shaped d : telemetry d -> shaped d.
Proof. intros [_ _ H3 _ H5 _]. by apply shaped_of. Qed.

(** The document [t] shows the data [d]. *)
Definition shows (x : wjson) (t : tson) : Prop :=
  exists v ts z, holds x v ts ∧ value_writes T num v ∧ stamp_writes T ts ∧ read_stamp (f64_of_Z ts) z ∧ t = TLeaf (as_prim v) z.
Inductive pictures : wjson -> tson -> Prop :=
| pi_leaf x t : shows x t -> pictures x t
| pi_arr l l' : Forall2 shows l l' -> pictures (WArr l) (TArr l')
| pi_obj m m' : "timestamp" ∉ map fst m -> NoDup (map fst m) -> NoDup (akeys m') ->
    (forall k, k ∈ map fst m <-> is_Some (alookup k m')) ->
    (forall k w u, (k, w) ∈ m -> alookup k m' = Some u -> pictures w u) -> pictures (WObj m) (TObj m').
Lemma read_stamp_total f : exists z, read_stamp f z.
Proof. exists (f64_to_int64 f). by apply read_stamp_spec. Qed.
Lemma as_prim_json v : value_writes T num v -> write_any v = v ∧ unmarshal_any v = json_of_prim (as_prim v) ∧ wkept T num v ∧ wread T num v ∧ any_encodable v = true.
Proof.
  destruct v; cbn; try done; intros H; repeat split; try constructor; try done; try (by destruct H).
  by apply (num_kept_finite T num).
Qed.
Lemma forall2_of {A B} (R : A -> B -> Prop) (l : list A) : (forall x, x ∈ l -> exists y, R x y) -> exists l', Forall2 R l l'.
Proof.
  induction l as [|x l IH]; intros H; [by exists []|]. destruct (H x) as (y & Hy); [by left|].
  destruct IH as (l' & HF); [intros x' Hx; apply H; by right|]. exists (y :: l'). by constructor.
Qed.
Lemma sorted_map {V W} (f : V -> W) (m : list (string * V)) : sort_members (map (fun kv => (fst kv, f (snd kv))) m) ≡ₚ map (fun kv => (fst kv, f (snd kv))) m.
Proof. apply sort_members_perm. Qed.
Definition document (d : wjson) (t : tson) : Prop := reads (unmarshal_any (write_any d)) t ∧ pictures d t ∧ wf t.
Definition readable (d : wjson) : Prop := wkept T num (write_any d) ∧ wread T num (write_any d) ∧ any_encodable d = true.
Lemma cell_document x : cell_writes x -> readable x ∧ exists t, document x t ∧ shows x t.
Proof.
  intros (v & ts & Hh & Hv & Hts). assert (HH := Hh). destruct (as_prim_json v Hv) as (E1 & E2 & K1 & K2 & K3). destruct Hh as (m & -> & HP).
  destruct utf8_names as [U1 U2].
  assert (HS : sort_members (map (fun kv => (fst kv, write_any (snd kv))) m) ≡ₚ [("value", v); ("timestamp", WInt ts)]).
  { rewrite sort_members_perm, HP. cbn [map fst snd write_any]. by rewrite E1. }
  split; [split; [|split]|].
  - cbn [write_any]. apply wk_obj. rewrite HS. constructor; [done|]. constructor; [|constructor]. split; [done|constructor].
  - cbn [write_any]. apply wr_obj.
    + rewrite HS. apply NoDup_cons. split; [|apply NoDup_singleton]. simpl. set_solver.
    + rewrite HS. constructor; [done|]. constructor; [|constructor]. cbn [snd]. constructor. by destruct Hts.
  - cbn [any_encodable]. apply forallb_forall. intros kv Hin%elem_of_list_In. rewrite HP in Hin.
    rewrite !elem_of_cons, elem_of_nil in Hin. by destruct Hin as [-> |[-> |?]].
  - destruct (read_stamp_total (f64_of_Z ts)) as (z & Hz). exists (TLeaf (as_prim v) z).
    assert (HSh : shows (WObj m) (TLeaf (as_prim v) z)) by (by exists v, ts, z).
    split; [|done]. split; [|split].
    + cbn [write_any unmarshal_any]. apply (rd_leaf _ _ (f64_of_Z ts)); [|done]. unfold leaf_shape. rewrite HS. cbn [map fst snd unmarshal_any].
      by rewrite E2.
    + by apply pi_leaf.
    + constructor.
Qed.
Lemma shaped_document d : shaped d -> readable d ∧ exists t, document d t.
Proof.
  assert (cell_document' : forall x, cell_writes x -> readable x ∧ exists t, document x t).
  { intros x H. destruct (cell_document x H) as (H1 & t & H2 & _). split; [done|]. by exists t. }
  induction d as [|b|f|z|s|l IH|m IH] using wjson_ind'; intros HS;
    try (inversion HS as [? HC| |]; subst; by apply cell_document').
  - inversion HS as [? HC|? HF|]; subst; [by apply cell_document'|]. clear HS IH.
    assert (HA : forall x, x ∈ l -> readable x ∧ exists t, document x t ∧ shows x t).
    { intros x Hx. apply cell_document. rewrite Forall_forall in HF. by apply HF. }
    split; [split; [|split]|].
    + cbn [write_any]. constructor. apply Forall_forall. intros w (x & -> & Hx)%elem_of_list_fmap. by apply HA.
    + cbn [write_any]. constructor. apply Forall_forall. intros w (x & -> & Hx)%elem_of_list_fmap. by apply HA.
    + cbn [any_encodable]. apply forallb_forall. intros x Hx%elem_of_list_In. by apply HA.
    + destruct (forall2_of (fun x t => document x t ∧ shows x t) l) as (l' & HF2); [intros x Hx; by apply HA|]. exists (TArr l'). split; [|split].
      * cbn [write_any unmarshal_any]. constructor. rewrite map_map. clear -HF2. induction HF2 as [|x t l l' [(H & _ & _) _]]; cbn [map]; by constructor.
      * apply pi_arr. eapply Forall2_impl; [exact HF2|]. by intros x t [_ ?].
      * constructor. clear -HF2. induction HF2 as [|x t l l' [(_ & _ & H) _]]; by constructor.
  - inversion HS as [? HC| |? Hts HN HF]; subst; [by apply cell_document'|]. clear HS. rewrite Forall_forall in IH, HF.
    assert (HA : forall kv, kv ∈ m -> readable (snd kv) ∧ exists t, document (snd kv) t).
    { intros kv Hin. apply IH; [done|]. by apply HF. }
    set (ws := sort_members (map (fun kv => (fst kv, write_any (snd kv))) m)).
    assert (HP : ws ≡ₚ map (fun kv => (fst kv, write_any (snd kv))) m) by apply sort_members_perm.
    assert (HK : map fst ws ≡ₚ map fst m) by (rewrite HP, map_map; done).
    split; [split; [|split]|].
    + cbn [write_any]. fold ws. apply wk_obj. rewrite HP. apply Forall_forall. intros w (kv & -> & Hin)%elem_of_list_fmap. cbn [fst snd].
      split; [|by apply HA]. by destruct (HF _ Hin) as [[_ ?] _].
    + cbn [write_any]. fold ws. apply wr_obj; [by rewrite HK|]. rewrite HP. apply Forall_forall.
      intros w (kv & -> & Hin)%elem_of_list_fmap. cbn [snd]. by apply HA.
    + cbn [any_encodable]. apply forallb_forall. intros x Hx%elem_of_list_In. by apply HA.
    + destruct (forall2_of (fun (a : string * wjson) (b : string * tson) => fst a = fst b ∧ reads (unmarshal_any (snd a)) (snd b) ∧
          exists w, (fst a, w) ∈ m ∧ pictures w (snd b) ∧ wf (snd b)) ws) as (ms & HF2).
      { intros a Ha. rewrite HP in Ha. apply elem_of_list_fmap in Ha as ([k w] & -> & Hin). cbn [fst snd].
        destruct (HA _ Hin) as (_ & t & H1 & H2 & H3). exists (k, t). split; [done|]. split; [done|]. exists w. done. }
      assert (HKm : akeys ms = map fst ws).
      { clear -HF2. induction HF2 as [|a b ws ms (E & _) HF2 IH]; [done|]. cbn. rewrite E. by f_equal. }
      assert (HNm : NoDup (akeys ms)) by (by rewrite HKm, HK).
      exists (TObj ms). split; [|split].
      * cbn [write_any unmarshal_any]. fold ws. apply rd_obj.
        -- intros v f HL. apply Hts. rewrite <- HK. assert (Hin : ("timestamp", JNum f) ∈ map (fun kv => (fst kv, unmarshal_any (snd kv))) ws).
           { rewrite HL. right. by left. }
           apply elem_of_list_fmap in Hin as (kv & [= -> _] & Hin). by apply elem_of_list_fmap_1.
        -- clear -HF2. induction HF2 as [|a b ws ms (E & H & _) HF2 IH]; cbn [map]; by constructor.
      * apply pi_obj; [done|done|done| |].
        -- intros k. rewrite <- HK, <- HKm. destruct (alookup k ms) eqn:E.
           ++ apply alookup_Some_in in E. split; [by eexists|]. intros _. by apply (elem_of_list_fmap_1 fst) in E.
           ++ apply alookup_None_iff in E. split; [done|]. by intros [? ?].
        -- intros k w u Hin Hu. apply alookup_Some_in in Hu. apply elem_of_list_lookup in Hu as (i & Hi).
           destruct (Forall2_lookup_r _ _ _ _ _ HF2 Hi) as ([k' x] & _ & E & _ & w' & Hw & HPi & _). cbn [fst snd] in *. subst k'.
           apply alookup_in in Hin, Hw; [|done..]. rewrite Hin in Hw. by injection Hw as <-.
      * constructor; [done|]. clear -HF2. induction HF2 as [|a b ws ms (_ & _ & w & _ & _ & H) HF2 IH]; by constructor.
Qed.
Lemma telemetry_read d : telemetry d -> exists t, from_compatible_bytes T (map_to_json num d) = Ok t ∧ pictures d t ∧ wf t.
Proof.
  intros HD. destruct (shaped_document d (telemetry_shaped d HD)) as ((K1 & K2 & K3) & t & H1 & H2 & H3).
  exists t. split; [|done]. unfold map_to_json. rewrite K3. unfold from_compatible_bytes.
  assert (E : decode_any T (wtext num (write_any d)) = Ok (unmarshal_any (write_any d))).
  { apply decode_spec. exists (wtree num (write_any d)). split; [by apply text_value, (wtext_value T)|by apply (wtree_json T num)]. }
  rewrite E. cbn [rbind]. by apply from_compatible_reads.
Qed.
End kept.
