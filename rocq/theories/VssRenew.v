(** Facts about the vehicle data generator: the patch of a round. *)
From Verif Require Import Base BaseLemmas BaseSpec BaseSpecLemmas Tjson TjsonSpec TjsonLemmas Tson TsonInd TsonSpec F64 F64Lemmas TsonLemmas ConvLemmas ReadLemmas Serial TextSpec Heap Patch PatchSpec
  PatchLemmas Diff DiffSpec DiffLemmas DiffPaths
  Json JsonSpec Bytes BytesLemmas JsonWrite JsonDiff JsonTson FrameDiff
  Vss VssSpec VssLemmas VssPlace VssFloat VssGen VssData VssNext VssPatchSpec VssTidy VssRead VssPatch.
From Coq Require Import Lia.

(** ** Operations as data *)
Definition op_data (o : operation) : wjson :=
  WObj [("op", WStr (op_name (op_kind o))); ("path", WStr (op_path o)); ("value", w_of_any (op_value o)); ("timestamp", WInt (op_ts o))].
Lemma op_json_data num o : op_value o ≠ ANil -> any_encodable (w_of_any (op_value o)) = true -> op_json num o = Some (wtext num (op_data o)).
Proof.
  intros Hn He. unfold op_json.
  assert (E : forall t, "{" +++ quoted "op" +++ ":" +++ json_string (op_name (op_kind o)) +++ "," +++ quoted "path" +++ ":" +++ json_string (op_path o)
      +++ "," +++ quoted "value" +++ ":" +++ t +++ "," +++ quoted "timestamp" +++ ":" +++ z_text (op_ts o) +++ "}"
    = "{" +++ String.concat "," [json_string "op" +++ ":" +++ json_string (op_name (op_kind o)); json_string "path" +++ ":" +++ json_string (op_path o);
         json_string "value" +++ ":" +++ t; json_string "timestamp" +++ ":" +++ z_text (op_ts o)] +++ "}").
  { intros t. change (json_string "op") with (quoted "op"). change (json_string "path") with (quoted "path").
    change (json_string "value") with (quoted "value"). change (json_string "timestamp") with (quoted "timestamp").
    cbn [String.concat]. by rewrite !sapp_assoc. }
  assert (E' : Some (("{" +++ quoted "op" +++ ":" +++ json_string (op_name (op_kind o)) +++ "," +++ quoted "path" +++ ":" +++ json_string (op_path o))
      +++ "," +++ quoted "value" +++ ":" +++ wtext num (w_of_any (op_value o)) +++ "," +++ quoted "timestamp" +++ ":" +++ z_text (op_ts o) +++ "}")
      = Some (wtext num (op_data o))).
  { unfold op_data. cbn [wtext map fst snd]. rewrite <- E. by rewrite !sapp_assoc. }
  revert E'. destruct (op_value o) eqn:Eo; intros E'; try done; unfold enc; rewrite He; exact E'.
Qed.
Lemma op_jsons_data num ops : (forall o, o ∈ ops -> op_value o ≠ ANil ∧ any_encodable (w_of_any (op_value o)) = true) ->
  patch_json num (Some ops) = Some (wtext num (WArr (map op_data ops))).
Proof.
  intros H. assert (E : op_jsons num ops = Some (map (wtext num) (map op_data ops))).
  { induction ops as [|o ops IH]; [done|]. cbn [op_jsons map]. destruct (H o) as [H1 H2]; [by left|].
    rewrite op_json_data by done. rewrite IH; [done|]. intros o' Ho. apply H. by right. }
  unfold patch_json. by rewrite E.
Qed.
Lemma utf8_dec n : utf8 (dec_text n).
Proof. eapply bare_utf8, digits_bare, dec_text_digits. Qed.
Lemma utf8_written q : Forall (fun s => match s with Key k => utf8 k | Elem _ => True end) q -> utf8 (written q).
Proof.
  assert (HS : utf8 "/") by (apply u8_ascii; [vm_compute; done|constructor]).
  induction q as [|s q IH] using rev_ind; intros H; [apply u8_nil|].
  apply Forall_app in H as [H1 H2]. inversion H2 as [|? ? Hs _]; subst. destruct s as [k|i].
  - rewrite <- written_key. apply (P_make utf8); [done|apply utf8_app|apply utf8_escaped|by apply IH|done].
  - rewrite <- written_elem. apply (P_idx utf8); [done|apply utf8_app|apply utf8_escaped|apply utf8_dec|by apply IH].
Qed.

Section kept.
Context (T : textlib) (num : f64 -> string).
Notation telemetry := (telemetry T num).
Lemma replace_text : utf8 "replace" ∧ utf8 "op" ∧ utf8 "path" ∧ utf8 "value" ∧ utf8 "timestamp".
Proof. repeat split; repeat (apply u8_ascii; [vm_compute; done|]); constructor. Qed.
Lemma op_data_kept q v z : utf8 (written q) -> value_writes T num v -> int_kept T z ->
  let o := Op OReplace (written q) (any_of_prim (as_prim v)) z in
  op_value o ≠ ANil ∧ any_encodable (w_of_any (op_value o)) = true ∧ wkept T num (op_data o) ∧ wread T num (op_data o) ∧
  unmarshal_any (op_data o) = JObj [("op", JStr "replace"); ("path", JStr (written q)); ("value", json_of_prim (as_prim v)); ("timestamp", JNum (f64_of_Z z))].
Proof.
  intros Hq Hv Hz. cbn [op_value].
  assert (Hp : prim_kept T num (as_prim v)) by (destruct v; try done; by destruct Hv).
  assert (HW : w_of_any (any_of_prim (as_prim v)) = write_prim (as_prim v)) by (by destruct (as_prim v)).
  destruct (prim_write T num _ Hp) as (K1 & K2 & K3). destruct replace_text as (U1 & U2 & U3 & U4 & U5).
  split; [by destruct (as_prim v)|]. split; [by rewrite HW|]. unfold op_data. cbn [op_kind op_path op_value op_ts op_name]. rewrite HW.
  split; [|split].
  - apply wk_obj. repeat (apply Forall_cons; split); cbn [fst snd]; try apply Forall_nil; try done.
    all: split; [done|constructor; done].
  - apply wr_obj; [cbn; repeat (apply NoDup_cons; split; [set_solver|]); apply NoDup_nil; done|].
    repeat (apply Forall_cons; split); cbn [fst snd]; try apply Forall_nil; try done; constructor; done.
  - cbn [unmarshal_any map fst snd]. by destruct (as_prim v).
Qed.
Lemma telemetry_utf8 d q v t : telemetry d -> cell d q v t -> Forall (fun s => match s with Key k => utf8 k | Elem _ => True end) q.
Proof.
  intros TD (l & x & Hl & HC). assert (HN := leaf_at_names _ _ _ _ (tl_names T num d TD) Hl).
  assert (Hk : Forall (fun s => match s with Key k => utf8 k | Elem _ => True end) (map Key l)).
  { apply Forall_fmap. eapply Forall_impl; [exact HN|]. by intros k [_ ?]. }
  destruct HC as [[-> _]|(i & xs & y & -> & _)]; [done|]. apply Forall_app. split; [done|]. by constructor.
Qed.
Lemma cell_kept d q v t : telemetry d -> cell d q v t -> value_writes T num v ∧ stamp_writes T t.
Proof.
  intros TD (l & x & Hl & HC). destruct HC as [[_ Hh]|(i & xs & y & _ & -> & Hy & Hh)].
  - destruct (tl_leaf T num d TD l x Hl) as [(v' & t' & Hh' & ? & ?)|(xs & -> & _)].
    + by destruct (holds_fun _ _ _ _ _ Hh Hh') as [-> ->].
    + by destruct Hh as (? & ? & _).
  - destruct (tl_leaf T num d TD l _ Hl) as [(v' & t' & (? & ? & _) & _)|(xs' & [= <-] & HF)]; [done|].
    rewrite Forall_forall in HF. destruct (HF y) as (v' & t' & Hh' & ? & ?); [by eapply elem_of_list_lookup_2|].
    by destruct (holds_fun _ _ _ _ _ Hh Hh') as [-> ->].
Qed.
Lemma same_stamp_eq t t' z z' : read_stamp (f64_of_Z t) z -> read_stamp (f64_of_Z t') z' -> same_stamp t t' <-> z = z'.
Proof.
  intros H H'. split.
  - intros (z0 & H0 & H0'). by rewrite (read_stamp_fun _ _ _ H H0), (read_stamp_fun _ _ _ H' H0').
  - intros <-. by exists z.
Qed.
Lemma frame_every_name (P : string -> Prop) d : forall t, keyed P d -> pictures T num d t -> every_name P t.
Proof.
  induction d as [|e|f|y|s|l IH|m IH] using wjson_ind'; intros t HK HP; inversion HP as [? ? (? & ? & ? & _ & _ & _ & _ & ->)|? l1 HF|? m1 Ht HN HN1 HM HI]; subst;
    try constructor.
  - clear -HF. induction HF as [|x u l l1 (? & ? & ? & _ & _ & _ & _ & ->) HF IH]; constructor; [constructor|done].
  - apply keyed_map in HK as [_ HK]. rewrite Forall_forall in HK, IH. apply Forall_forall. intros [k u] Hu. cbn [fst snd].
    apply alookup_in in Hu; [|done]. assert (Hk : k ∈ map fst m) by (apply HM; by eexists).
    apply elem_of_list_fmap in Hk as ([k' w] & Ek & Hin). cbn [fst] in Ek. subst k'. destruct (HK _ Hin) as [Hk Kw]. split; [done|].
    apply (IH (k, w) Hin); [done|]. by apply (HI k).
Qed.
(** The patch between two data sets with the same leaves. *)
Lemma patch_exact (ord : tson -> tson) d d' : telemetry d -> telemetry d' -> alike d d' -> (forall t, same_doc t (ord t)) ->
  exists ops, next_patch T num ord d d' = Ok (JArr ops) ∧
    (forall o, o ∈ ops <-> exists q v0 t0 v t, cell d q v0 t0 ∧ cell d' q v t ∧
       (~ TsonSpec.prim_eq (as_prim v0) (as_prim v) ∨ ~ same_stamp t0 t) ∧ renewal q v t o) ∧
    NoDup (map op_pointer ops).
Proof.
  intros TD TD' HA Hord.
  destruct (telemetry_read T num d TD) as (a & Ea & Pa & Wa). destruct (telemetry_read T num d' TD') as (b & Eb & Pb & Wb).
  apply (pictures_same T num d a (ord a)) in Pa; [|done]. apply (pictures_same T num d' b (ord b)) in Pb; [|done].
  assert (Wa' : wf (ord a)) by (by eapply same_doc_wf). assert (Wb' : wf (ord b)) by (by eapply same_doc_wf).
  assert (HF : same_frame (ord a) (ord b)).
  { apply (alike_frame T num d d'); try done; [exact (tl_full T num d TD)|exact (tl_full T num d' TD')]. }
  destruct (frame_exact true (ord b) (ord a) [] HF Wa' Wb') as (ops & E & Hops). rewrite written_nil in E.
  assert (HN : NoDup (map op_path ops)).
  { apply (frame_nodup true (ord b) (ord a) [] ops); try done. apply (frame_every_name _ d); [|done].
    eapply keyed_impl; [|exact (tl_names T num d TD)]. by intros k [[? _] _]. }
  assert (Hgood : forall o, o ∈ ops <-> exists q v0 t0 v t z, cell d q v0 t0 ∧ cell d' q v t ∧
       (~ TsonSpec.prim_eq (as_prim v0) (as_prim v) ∨ ~ same_stamp t0 t) ∧ value_writes T num v ∧ int_kept T z ∧ read_stamp (f64_of_Z t) z ∧
       o = Op OReplace (written q) (any_of_prim (as_prim v)) z).
  { intros o. rewrite Hops. split.
    - intros (q & x & ts & y & ts' & HM & HD & ->). apply meets_both in HM as [Ha Hb].
      destruct (proj1 (at_cell T num d (ord a) q x ts Pa) Ha) as (v0 & t0 & C0 & _ & _ & Z0 & ->).
      destruct (proj1 (at_cell T num d' (ord b) q y ts' Pb) Hb) as (v & t & C & Wv & [_ Wt] & Z1 & ->).
      exists q, v0, t0, v, t, ts'. split; [done|]. split; [done|]. split; [|auto]. destruct HD as [HD|[_ HD]]; [by left|].
      right. by rewrite (same_stamp_eq t0 t ts ts' Z0 Z1).
    - intros (q & v0 & t0 & v & t & z & C0 & C & HD & Wv & Wz & Z1 & ->).
      destruct (cell_kept d q v0 t0 TD C0) as [Wv0 Wt0]. destruct (cell_kept d' q v t TD' C) as [_ Wt].
      destruct (read_stamp_total (f64_of_Z t0)) as (z0 & Z0).
      exists q, (as_prim v0), z0, (as_prim v), z. split; [|split; [|done]].
      + apply frame_meets; [done| |].
        * apply (at_cell T num d (ord a) q _ _ Pa). by exists v0, t0.
        * apply (at_cell T num d' (ord b) q _ _ Pb). by exists v, t.
      + destruct HD as [HD|HD]; [by left|]. right. split; [done|]. by rewrite <- (same_stamp_eq t0 t z0 z Z0 Z1). }
  assert (Hk : forall o, o ∈ ops -> exists q v z, o = Op OReplace (written q) (any_of_prim (as_prim v)) z ∧
     utf8 (written q) ∧ value_writes T num v ∧ int_kept T z).
  { intros o Ho. apply Hgood in Ho as (q & v0 & t0 & v & t & z & _ & C & _ & Wv & Wz & _ & ->).
    exists q, v, z. split; [done|]. split; [|done]. apply utf8_written. exact (telemetry_utf8 d' q v t TD' C). }
  exists (map (fun o => unmarshal_any (op_data o)) ops).
  assert (Hpatch : decode_any T (wtext num (WArr (map op_data ops))) = Ok (JArr (map (fun o => unmarshal_any (op_data o)) ops))).
  { apply decode_spec. exists (wtree num (WArr (map op_data ops))). split.
    - apply text_value, (wtext_value T). constructor. apply Forall_fmap, Forall_forall. intros o (q & v & z & -> & H1 & H2 & H3)%Hk.
      by destruct (op_data_kept q v z H1 H2 H3) as (_ & _ & ? & _).
    - rewrite <- (map_map op_data unmarshal_any). apply (wtree_json T num). constructor. apply Forall_fmap, Forall_forall.
      intros o (q & v & z & -> & H1 & H2 & H3)%Hk. by destruct (op_data_kept q v z H1 H2 H3) as (_ & _ & _ & ? & _). }
  split; [|split].
  - unfold next_patch. rewrite Ea, Eb. unfold generate_patch_with_timestamp. rewrite E. rewrite op_jsons_data.
    + change (match decode_any T (wtext num (WArr (map op_data ops))) with Ok j => Ok j | _ => Ok JNull end = Ok (JArr (map (fun o => unmarshal_any (op_data o)) ops))). by rewrite Hpatch.
    + intros o (q & v & z & -> & H1 & H2 & H3)%Hk. by destruct (op_data_kept q v z H1 H2 H3) as (? & ? & _).
  - intros j. split.
    + intros (o & -> & Ho)%elem_of_list_fmap. apply Hgood in Ho as (q & v0 & t0 & v & t & z & C0 & C & HD & Wv & Wz & Z1 & ->).
      exists q, v0, t0, v, t. split; [done|]. split; [done|]. split; [done|]. exists z. split; [done|].
      apply op_data_kept; [|done|done]. apply utf8_written. exact (telemetry_utf8 d' q v t TD' C).
    + intros (q & v0 & t0 & v & t & C0 & C & HD & z & Z1 & ->). 
      destruct (cell_kept d' q v t TD' C) as [Wv [_ Wt]]. assert (Wz := Wt z Z1). apply elem_of_list_fmap. exists (Op OReplace (written q) (any_of_prim (as_prim v)) z). split.
      * symmetry. apply op_data_kept; [|done|done]. apply utf8_written. exact (telemetry_utf8 d' q v t TD' C).
      * apply Hgood. exists q, v0, t0, v, t, z. done.
  - assert (EP : map op_pointer (map (fun o => unmarshal_any (op_data o)) ops) = map (fun p => Some (JStr p)) (map op_path ops)).
    { rewrite !map_map. apply map_ext_in. intros o Ho. done. }
    rewrite EP. apply NoDup_fmap_2; [|done]. by intros x y [= ->].
Qed.

(** ** A round *)
Lemma keys_inj l l' : map Key l = map Key l' -> l = l'.
Proof. revert l'. induction l as [|k l IH]; intros [|k' l'] E; try done. injection E as -> E. f_equal. by apply IH. Qed.
Lemma keys_no_elem l l' i : map Key l ≠ map Key l' ++ [Elem i].
Proof. revert l'. induction l as [|k l IH]; intros [|k' l'] E; try discriminate E. injection E as -> E. by apply IH in E. Qed.
Lemma cell_fun P d q v t v' t' : keyed P d -> cell d q v t -> cell d q v' t' -> v = v' ∧ t = t'.
Proof.
  intros HK (l & x & Hl & HC) (l' & x' & Hl' & HC').
  destruct HC as [[-> Hh]|(i & xs & y & -> & -> & Hy & Hh)], HC' as [[E Hh']|(i' & xs' & y' & E & -> & Hy' & Hh')].
  - apply keys_inj in E as <-. rewrite (leaf_at_fun P d HK l x x') in Hh by done. by apply (holds_fun x').
  - by apply keys_no_elem in E.
  - symmetry in E. by apply keys_no_elem in E.
  - apply app_inj_2 in E as [E [= <-]]; [|done]. apply keys_inj in E as <-.
    assert (EX := leaf_at_fun P d HK l _ _ Hl Hl'). injection EX as <-. rewrite Hy in Hy'. injection Hy' as <-. by apply (holds_fun y).
Qed.
Lemma follows_cell d d' ts : (forall l, (exists x, leaf_at d l x) <-> exists x', leaf_at d' l x') ->
  (forall l x x', leaf_at d l x -> leaf_at d' l x' -> follows ts x x') ->
  forall q v t, cell d' q v t -> exists v0 t0, cell d q v0 t0 ∧ (t = ts ∨ v0 = v ∧ t0 = t).
Proof.
  intros HL HF q v t (l & x' & Hl' & HC). destruct (proj2 (HL l)) as (x & Hl); [by eexists|].
  specialize (HF l x x' Hl Hl'). destruct HF as [x|x x' v1 t1 v' H1 H2|xs xs' HF].
  - exists v, t. split; [|by right]. by exists l, x.
  - destruct HC as [[-> Hh]|(i & ys & y & _ & -> & _)]; [|by destruct H2 as (? & ? & _)].
    destruct (holds_fun _ _ _ _ _ Hh H2) as [-> ->]. exists v1, t1. split; [|by left]. exists l, x. split; [done|]. by left.
  - destruct HC as [[_ (? & ? & _)]|(i & ys & y & -> & [= <-] & Hy & Hh)]; [done|].
    destruct (Forall2_lookup_r _ _ _ _ _ HF Hy) as (y0 & Hy0 & v1 & t1 & H1 & H2).
    destruct (holds_fun _ _ _ _ _ Hh H2) as [-> ->]. exists v1, t1. split; [|by left]. exists l, (WArr xs). split; [done|].
    right. by exists i, xs, y0.
Qed.
Lemma prim_refl v : value_writes T num v -> TsonSpec.prim_eq (as_prim v) (as_prim v).
Proof.
  assert (Hn : forall f, num_kept T num f -> f64_eq f f = true).
  { intros f (H1 & H2 & _). apply f64_eq_refl. by destruct f. }
  destruct v; cbn; intros H; try done; [by apply Hn|]. destruct H as [_ H]. by apply Hn.
Qed.
Lemma next_patch_exact c m R ord ts d : telemetry d -> (forall p, fair (R p)) -> (forall p, draws_write T num (R p)) ->
  stamp_writes T ts -> (forall t, same_doc t (ord t)) ->
  exists d' ops, generate_next T num c m R ord ts (Vss true d) = Ok (Vss true d', JArr ops) ∧ telemetry d' ∧
    (forall q v t, cell d' q v t -> exists v0 t0, cell d q v0 t0 ∧ (t = ts ∨ v0 = v ∧ t0 = t)) ∧
    (forall o, o ∈ ops <-> exists q v0 t0 v t, cell d q v0 t0 ∧ cell d' q v t ∧
       (~ TsonSpec.prim_eq (as_prim v0) (as_prim v) ∨ ~ same_stamp t0 t) ∧ renewal q v t o) ∧
    NoDup (map op_pointer ops).
Proof.
  intros TD HR HW Hts Hord. destruct (next_telemetry T num c m R ts d TD HR HW Hts) as (d' & E & TD' & HL & HF).
  assert (HA : alike d d') by (split; [done|]; intros l x x' H1 H2; by destruct (HF l x x' H1 H2)).
  destruct (patch_exact ord d d' TD TD' HA Hord) as (ops & Ep & H1 & H2).
  exists d', ops. split; [|split; [done|]; split; [|done]].
  - unfold generate_next. rewrite E. cbn [rbind v_data]. destruct (tl_map T num d TD) as (mm & Em). rewrite Em in Ep |- *. by rewrite Ep.
  - apply (follows_cell d d' ts); [done|].
    intros l x x' G1 G2. by destruct (HF l x x' G1 G2).
Qed.
(** A time that is not rounded to one of the old timestamps: the operations are the cells of that time. *)
Lemma next_patch_fresh c m R ord ts d d' ops : telemetry d -> (forall p, fair (R p)) -> (forall p, draws_write T num (R p)) ->
  stamp_writes T ts -> (forall t, same_doc t (ord t)) -> (forall q v t, cell d q v t -> ~ same_stamp t ts) ->
  generate_next T num c m R ord ts (Vss true d) = Ok (Vss true d', JArr ops) ->
  forall o, o ∈ ops <-> exists q v, cell d' q v ts ∧ renewal q v ts o.
Proof.
  intros TD HR HW Hts Hord HN E. destruct (next_patch_exact c m R ord ts d TD HR HW Hts Hord) as (d2 & ops2 & E2 & TD2 & HC & HO & _).
  rewrite E in E2. injection E2 as <- <-. intros o. rewrite HO. split.
  - intros (q & v0 & t0 & v & t & C0 & C & HD & Hr). destruct (HC q v t C) as (v1 & t1 & C1 & [-> |[-> ->]]); [by exists q, v|].
    destruct (cell_fun _ d q _ _ _ _ (tl_names T num d TD) C0 C1) as [-> ->].
    destruct (cell_kept d q v t TD C1) as [Wv _]. destruct HD as [HD|HD]; [by destruct (HD (prim_refl v Wv))|].
    destruct HD. destruct (read_stamp_total (f64_of_Z t)) as (z & Hz). by exists z.
  - intros (q & v & C & Hr). destruct (HC q v ts C) as (v0 & t0 & C0 & _). exists q, v0, t0, v, ts. split; [done|]. split; [done|].
    split; [|done]. right. by apply (HN q v0).
Qed.
(** Any number of rounds. *)
Lemma logged_telemetry c m d ps e : logged T num c m d ps e -> telemetry d -> telemetry e.
Proof.
  induction 1 as [|R ord ts d d' p ps e HR HW Hts Hord E _ IH]; [done|]. intros TD. apply IH.
  destruct (next_patch_exact c m R ord ts d TD HR HW Hts Hord) as (d2 & ops & E2 & TD2 & _). rewrite E in E2. injection E2 as -> _. done.
Qed.
Lemma logged_more c m d ps e : logged T num c m d ps e -> telemetry d ->
  forall R ord ts, (forall p, fair (R p)) -> (forall p, draws_write T num (R p)) -> stamp_writes T ts -> (forall t, same_doc t (ord t)) ->
  exists e' p, generate_next T num c m R ord ts (Vss true e) = Ok (Vss true e', p) ∧ logged T num c m d (ps ++ [p]) e'.
Proof.
  intros HL TD R ord ts HR HW Hts Hord. assert (TE := logged_telemetry _ _ _ _ _ HL TD).
  destruct (next_patch_exact c m R ord ts e TE HR HW Hts Hord) as (e' & ops & E & _). exists e', (JArr ops). split; [done|]. clear TD TE.
  induction HL as [|R' ord' ts' d d' p ps e HR' HW' Hts' Hord' E' HL IH].
  - eapply lg_more; [exact HR|exact HW|exact Hts|exact Hord|exact E|constructor].
  - cbn [app]. eapply lg_more; [exact HR'|exact HW'|exact Hts'|exact Hord'|exact E'|by apply IH].
Qed.
Lemma logged_works c m d ps e : logged T num c m d ps e -> telemetry d -> telemetry e ∧
  forall R ord ts, (forall p, fair (R p)) -> (forall p, draws_write T num (R p)) -> stamp_writes T ts -> (forall t, same_doc t (ord t)) ->
  exists e' p, generate_next T num c m R ord ts (Vss true e) = Ok (Vss true e', p) ∧ logged T num c m d (ps ++ [p]) e'.
Proof. intros HL TD. split; [by eapply logged_telemetry|]. by apply logged_more. Qed.
End kept.
