(** Documents written as JSON text and read again. *)
From Verif Require Import Base BaseSpec BaseLemmas BaseSpecLemmas F64 Tson TsonInd Serial TextSpec TsonSpec F64Lemmas ConvLemmas ReadLemmas MarshalText Heap Patch Bytes BytesSpec BytesLemmas
  Json JsonSpec JsonLemmas JsonChars JsonParse JsonRead JsonWrite JsonPatch.
From Coq Require Import Lia.

Lemma same_json_sym a b : same_json a b -> same_json b a.
Proof.
  revert b. induction a as [|x|f|s|l IH|m IH] using json_ind'; intros b H; inversion H as [| | | |? l' HF|? m' m'' HP HF]; subst; try constructor.
  - clear H. induction HF as [|x y l l' Hxy HF IHF]; [constructor|]. inversion IH; subst. constructor; auto.
  - destruct (Forall2_perm_r _ _ _ _ HF (symmetry HP)) as (m3 & H3 & HF3).
    apply (sj_obj _ m3); [done|]. clear HP HF H H3.
    induction HF3 as [|x y l l' [Hk Hxy] HF IHF]; [constructor|]. inversion IH; subst. constructor; auto.
Qed.

Section docs.
Context (T : textlib) (num : f64 -> string).

Lemma text_value s t : value_text s t -> json_text s t.
Proof. intros H. replace s with ("" +++ s +++ "") by (by rewrite sapp_nil_r). constructor; [constructor|done|constructor]. Qed.
Lemma decode_spec s j : decode_any T s = Ok j <-> exists t, json_text s t ∧ json_of T t j.
Proof.
  unfold decode_any. destruct (scan s) as [t|] eqn:E.
  - apply scan_text in E. rewrite to_any_spec. split; [by exists t|]. intros (t' & H1 & H2). by rewrite (json_text_det _ _ _ E H1).
  - split; [done|]. intros (t & H1%scan_text & _). congruence.
Qed.
Lemma decode_no_panic s : decode_any T s <> Panic.
Proof. unfold decode_any. destruct (scan s); [|done]. apply to_any_no_panic. Qed.

(** ** Different documents have different texts *)
Lemma prim_tree p p' : prim_kept T num p -> prim_kept T num p' -> wtree num (write_prim p) = wtree num (write_prim p') -> p = p'.
Proof.
  destruct p as [s|f|b], p' as [s'|f'|b']; cbn; intros H1 H2 E; try discriminate; injection E as E; try by subst.
  destruct H1 as (_ & _ & _ & H1), H2 as (_ & _ & _ & H2). rewrite E in H1. congruence.
Qed.
Lemma prim_tree_doc p t : wtree num (write_prim p) = wtree num (json_written t) -> False.
Proof. destruct p, t; done. Qed.
Lemma tree_inj a : forall b, doc_kept T num a -> doc_kept T num b ->
  wtree num (json_written a) = wtree num (json_written b) -> json_written a = json_written b.
Proof.
  assert (Hlo : forall p ts m, JtObj (map (fun kv => (fst kv, wtree num (snd kv))) [("value", write_prim p); ("timestamp", WInt ts)]) =
     JtObj (map (fun kv => (fst kv, wtree num (snd kv))) (sort_members (map (fun kv => (fst kv, json_written (snd kv))) m))) -> False).
  { intros p ts m E. rewrite sort_members_map, map_map in E. cbn [map fst snd] in E.
    destruct (sort_members m) as [|[k v] r]; [done|]. cbn [map fst snd] in E. injection E as E1 E2 _. by apply prim_tree_doc in E2. }
  induction a as [|p ts|m IH|l IH] using tson_ind'; intros b Ha Hb E; destruct b as [|p' ts'|m'|l']; try done; cbn [json_written wtree] in E |- *.
  - inversion Ha; subst. inversion Hb; subst. cbn [map fst snd wtree] in E. injection E as E1 E2.
    apply prim_tree in E1; [|done..]. apply z_text_inj in E2. by subst.
  - by apply Hlo in E.
  - symmetry in E. by apply Hlo in E.
  - injection E as E. f_equal. rewrite !sort_members_map in E |- *. rewrite !map_map in E. cbn [fst snd] in E.
    inversion Ha as [| |? HF|]; subst. inversion Hb as [| |? HF'|]; subst.
    pose proof (sort_members_forall _ _ IH) as IH2. pose proof (sort_members_forall _ _ HF) as F2. pose proof (sort_members_forall _ _ HF') as F2'.
    clear IH HF HF' Ha Hb. revert E F2'. generalize (sort_members m'). induction (sort_members m) as [|[k x] r IHr]; intros [|[k' x'] r'] E F2'; try done.
    cbn [map fst snd] in E |- *. injection E as Ek Ex Er. inversion IH2; subst. inversion F2 as [|? ? [? ?] ?]; subst. inversion F2' as [|? ? [? ?] ?]; subst.
    cbn [fst snd] in *. f_equal; [f_equal|]; by auto.
  - injection E as E. f_equal. inversion Ha as [| | |? HF]; subst. inversion Hb as [| | |? HF']; subst. clear Ha Hb.
    revert l' E HF'. induction l as [|x l IHl]; intros [|x' l'] E HF'; try done. cbn [map] in E |- *. injection E as Ex Er.
    inversion IH; subst. inversion HF; subst. inversion HF'; subst. f_equal; by auto.
Qed.
Lemma bytes_text t s : wf t -> doc_kept T num t -> compatible_bytes num t = Ok s -> json_text s (wtree num (json_written t)).
Proof.
  intros HW HK. destruct (write_doc T num t HK HW) as (H1 & H2 & H3 & H4). unfold compatible_bytes, to_bytes. rewrite H4.
  intros [= <-]. by apply text_value, (wtext_value T).
Qed.
Lemma bytes_defined t : wf t -> doc_kept T num t -> exists s, compatible_bytes num t = Ok s.
Proof.
  intros HW HK. destruct (write_doc T num t HK HW) as (H1 & H2 & H3 & H4). unfold compatible_bytes, to_bytes. rewrite H4. eauto.
Qed.
Lemma same_bytes a b s : wf a -> wf b -> doc_kept T num a -> doc_kept T num b -> compatible_bytes num a = Ok s ->
  compatible_bytes num b = Ok s <-> same_doc a b.
Proof.
  intros Wa Wb Ka Kb E. rewrite <- written_iff by done. pose proof (bytes_text _ _ Wa Ka E) as Ta. split.
  - intros E'. pose proof (bytes_text _ _ Wb Kb E') as Tb. apply tree_inj; [done..|]. by apply (json_text_det s).
  - intros Ew. destruct (write_doc T num a Ka Wa) as (_ & _ & _ & H4). destruct (write_doc T num b Kb Wb) as (_ & _ & _ & H4').
    unfold compatible_bytes, to_bytes in *. rewrite H4 in E. rewrite H4', <- Ew. done.
Qed.
Lemma bytes_decode t s : wf t -> doc_kept T num t -> every_stamp (int_kept T) t -> compatible_bytes num t = Ok s ->
  exists j j', decode_any T s = Ok j ∧ to_compatible t = Ok j' ∧ same_json j j'.
Proof.
  intros HW HK HS E. pose proof (bytes_text t s HW HK E) as Ht. destruct (write_doc T num t HK HW) as (H1 & H2 & H3 & H4).
  destruct (bytes_decoded t (json_written t) HW) as (j & Hj & Hsj); [unfold to_bytes; by rewrite H4|].
  eexists _, j. split; [|done]. apply decode_spec. eexists. split; [exact Ht|]. apply wtree_json. auto.
Qed.
Lemma bytes_roundtrip t : wf t -> null_free t -> doc_kept T num t -> every_stamp (fun ts => exact_int ts ∧ int_kept T ts) t ->
  exists s t', compatible_bytes num t = Ok s ∧ from_compatible_bytes T s = Ok t' ∧ same_doc t' t.
Proof.
  intros HW HN HK HS.
  assert (HS12 : every_stamp exact_int t ∧ every_stamp (int_kept T) t).
  { clear -HS. induction t as [|p ts|m IH|l IH] using tson_ind'; inversion HS as [|? ? [? ?]|? HF|? HF]; subst; (split; constructor; try done);
    rewrite Forall_forall in IH, HF |- *; intros x Hx; by apply IH; auto. }
  destruct HS12 as [HS1 HS2]. destruct (bytes_defined t HW HK) as (s & E).
  destruct (bytes_decode t s HW HK HS2 E) as (j & j' & Hj & Hj' & Hs).
  destruct (compat_roundtrip t j' j HW HN HS1 Hj' (same_json_sym _ _ Hs)) as (t' & Ht & Hd).
  exists s, t'. split; [done|]. split; [|done]. unfold from_compatible_bytes. rewrite Hj. done.
Qed.

(** ** What is accepted *)
Lemma compatible_accepts s t : from_compatible_bytes T s = Ok t <-> exists tr j, json_text s tr ∧ json_of T tr j ∧ reads j t.
Proof.
  unfold from_compatible_bytes. destruct (decode_any T s) as [j| |] eqn:E; cbn [rbind].
  - apply decode_spec in E as (tr & H1 & H2). rewrite from_compatible_reads. split; [by exists tr, j|].
    intros (tr' & j' & H3 & H4 & H5). rewrite (json_text_det _ _ _ H1 H3) in H2. apply to_any_spec in H2, H4. congruence.
  - split; [done|]. intros (tr & j & H1 & H2 & _). assert (decode_any T s = Ok j) by (apply decode_spec; eauto). congruence.
  - by apply decode_no_panic in E.
Qed.
Lemma compatible_refuses s : from_compatible_bytes T s = Err <-> forall tr j, json_text s tr -> ~ json_of T tr j.
Proof.
  unfold from_compatible_bytes. destruct (decode_any T s) as [j| |] eqn:E; cbn [rbind].
  - split; [by intros ?%from_compatible_no_err|]. intros H. apply decode_spec in E as (tr & H1 & H2). by destruct (H _ _ H1 H2).
  - split; [|done]. intros _ tr j H1 H2. assert (decode_any T s = Ok j) by (apply decode_spec; eauto). congruence.
  - by apply decode_no_panic in E.
Qed.
Lemma compatible_panics s : from_compatible_bytes T s = Panic <-> exists tr j, json_text s tr ∧ json_of T tr j ∧ stray j.
Proof.
  unfold from_compatible_bytes. destruct (decode_any T s) as [j| |] eqn:E; cbn [rbind].
  - apply decode_spec in E as (tr & H1 & H2). rewrite from_compatible_panics. split; [by exists tr, j|].
    intros (tr' & j' & H3 & H4 & H5). rewrite (json_text_det _ _ _ H1 H3) in H2. apply to_any_spec in H2, H4.
    assert (j' = j) by congruence. by subst.
  - split; [done|]. intros (tr & j & H1 & H2 & _). assert (decode_any T s = Ok j) by (apply decode_spec; eauto). congruence.
  - by apply decode_no_panic in E.
Qed.

(** ** Plain JSON *)
Lemma kept_encodable j : json_kept T num j -> json_encodable j = true.
Proof.
  induction j as [|b|f|s|l IH|m IH] using json_ind'; intros HK; try done; inversion HK as [| |? H| |? HF|? _ HF]; subst.
  - by apply (num_kept_finite T num).
  - cbn [json_encodable]. apply forallb_forall. intros x Hx%elem_of_list_In. rewrite Forall_forall in IH, HF. auto.
  - cbn [json_encodable]. apply forallb_forall. intros x Hx%elem_of_list_In. rewrite Forall_forall in IH, HF. destruct (HF _ Hx). auto.
Qed.
Lemma json_bytes_roundtrip s tr j : json_text s tr -> json_of T tr j -> jcontainer j -> jnull_free j = true -> json_kept T num j ->
  exists t s' tr' j', from_json_bytes T s = Ok t ∧ every_stamp (fun ts => ts = -1) t ∧
    to_json_bytes num t = Ok s' ∧ json_text s' tr' ∧ json_of T tr' j' ∧ same_json j j'.
Proof.
  intros H1 H2 Hc Hn HK. destruct (json_roundtrip j Hc (kept_encodable j HK) Hn) as (t & Ht & Hj & Hs).
  destruct (write_json T num j HK) as (K1 & K2 & K3 & K4).
  exists t, (wtext num (write_any (w_of_json j))). eexists _, _.
  assert (E : decode_any T s = Ok j) by (apply decode_spec; eauto).
  split; [unfold from_json_bytes; by rewrite E|]. split; [done|].
  split; [unfold to_json_bytes; rewrite Hj, K3; done|]. split; [by apply text_value, (wtext_value T)|].
  split; [by apply wtree_json|done].
Qed.
End docs.
