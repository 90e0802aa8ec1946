(** When writing a patch fails, and what quotes in paths do. *)
From Verif Require Import Base BaseSpec BaseLemmas BaseSpecLemmas F64 Tson TsonInd Serial TextSpec TsonSpec Heap Patch Logument Bytes BytesSpec BytesLemmas
  Json JsonSpec JsonLemmas JsonChars JsonParse JsonRead JsonWrite JsonPatch.
From Coq Require Import Lia.

Lemma forallb_false {A} (f : A -> bool) l : forallb f l = false <-> exists x, x ∈ l ∧ f x = false.
Proof.
  induction l as [|x l IH]; cbn [forallb]; [split; [done|by intros (x & H%elem_of_nil & _)]|].
  rewrite andb_false_iff, IH. split.
  - intros [H|(y & H1 & H2)]; [exists x|exists y]; (split; [|done]); [constructor|by constructor].
  - intros (y & H1 & H2). apply elem_of_cons in H1 as [->|H1]; eauto.
Qed.
Lemma json_unwritable j : any_encodable (write_any (w_of_json j)) = false <-> not_finite j.
Proof.
  induction j as [|b|f|s|l IH|m IH] using json_ind'; cbn [w_of_json write_any any_encodable].
  - split; [done|by inversion 1].
  - split; [done|by inversion 1].
  - split; [|inversion 1; by subst]. destruct f; try done; intros _; constructor.
  - split; [done|by inversion 1].
  - rewrite forallb_false. rewrite Forall_forall in IH. split.
    + intros (x & Hx & E). rewrite map_map in Hx. apply elem_of_list_fmap in Hx as (v & -> & Hv). apply (nf_elem _ v); [done|]. by apply IH.
    + inversion 1 as [| |? v Hv Hn|]; subst. exists (write_any (w_of_json v)). split; [|by apply IH]. rewrite map_map.
      apply elem_of_list_fmap. eauto.
  - rewrite forallb_false. rewrite Forall_forall in IH. split.
    + intros (x & Hx & E). rewrite sort_members_perm, map_map in Hx. apply elem_of_list_fmap in Hx as ([k v] & -> & Hv).
      apply (nf_member _ k v); [done|]. by apply (IH (k, v)).
    + inversion 1 as [| | |? k v Hv Hn]; subst. exists (k, write_any (w_of_json v)). split; [|by apply (IH (k, v))].
      rewrite sort_members_perm, map_map. apply elem_of_list_fmap. by exists (k, v).
Qed.
Lemma written_encodable t : any_encodable (json_written t) = encodable t.
Proof.
  induction t as [|p ts|m IH|l IH] using tson_ind'; cbn [json_written any_encodable encodable]; [done| | |].
  - cbn [forallb snd]. rewrite !andb_true_r. by destruct p.
  - apply Bool.eq_iff_eq_true. rewrite !forallb_forall. rewrite Forall_forall in IH. split; intros H x Hx.
    + apply elem_of_list_In in Hx. rewrite <- (IH _ Hx). apply (H (fst x, json_written (snd x))). apply elem_of_list_In.
      rewrite sort_members_perm. apply elem_of_list_fmap. by exists x.
    + apply elem_of_list_In in Hx. rewrite sort_members_perm in Hx. apply elem_of_list_fmap in Hx as (y & -> & Hy). cbn [snd].
      rewrite (IH _ Hy). apply H. by apply elem_of_list_In.
  - apply Bool.eq_iff_eq_true. rewrite !forallb_forall. rewrite Forall_forall in IH. split; intros H x Hx.
    + apply elem_of_list_In in Hx. rewrite <- (IH _ Hx). apply H. apply elem_of_list_In, elem_of_list_fmap. by exists x.
    + apply elem_of_list_In in Hx. apply elem_of_list_fmap in Hx as (y & -> & Hy). rewrite (IH _ Hy). apply H. by apply elem_of_list_In.
Qed.

Section errors.
Context (T : textlib) (num : f64 -> string).
Lemma enc_none v : enc num v = None <-> unwritable v.
Proof.
  unfold enc. assert (H : any_encodable (w_of_any v) = false <-> unwritable v).
  { destruct v as [|s|f|z|b|m|l|t]; cbn [w_of_any unwritable]; try done.
    - exact (json_unwritable (JNum f)).
    - exact (json_unwritable (JObj m)).
    - exact (json_unwritable (JArr l)).
    - rewrite written_encodable, <- encodable_finite. by destruct (encodable t). }
  rewrite <- H. by destruct (any_encodable (w_of_any v)).
Qed.
Lemma op_json_none o : op_json num o = None <-> unwritable (op_value o).
Proof.
  rewrite <- enc_none. unfold op_json. destruct (op_value o); try (by destruct (enc num _)). done.
Qed.
Lemma patch_json_none p : patch_json num p = None <-> exists ops o, p = Some ops ∧ o ∈ ops ∧ unwritable (op_value o).
Proof.
  destruct p as [ops|]; cbn [patch_json]; [|split; [done|by intros (? & ? & ? & _)]].
  assert (H : op_jsons num ops = None <-> exists o, o ∈ ops ∧ unwritable (op_value o)).
  { induction ops as [|o ops IH]; cbn [op_jsons]; [split; [done|by intros (o & H%elem_of_nil & _)]|].
    destruct (op_json num o) as [s|] eqn:E.
    - destruct (op_jsons num ops); (split; [intros H; try done|]).
      + intros (o' & H & Hu). apply elem_of_cons in H as [->|H]; [apply op_json_none in Hu; congruence|].
        destruct IH as [_ IH]. by discriminate IH; eauto.
      + destruct IH as [IH _]. destruct (IH eq_refl) as (o' & H1 & H2). exists o'. split; [by constructor|done].
      + done.
    - split; [|done]. intros _. exists o. split; [constructor|by apply op_json_none]. }
  destruct (op_jsons num ops) as [l|].
  - split; [done|]. intros (? & o & [= <-] & H1 & H2). destruct H as [_ H]. by discriminate H; eauto.
  - split; [|done]. intros _. destruct H as [H _]. destruct (H eq_refl) as (o & H1 & H2). eauto 10.
Qed.
Lemma op_marshal_none o : op_marshal num o = None <-> unwritable (op_value o).
Proof.
  rewrite <- enc_none. unfold op_marshal.
  destruct (negb (is_nil (op_value o)) || _ || _ || _) eqn:Ec; [by destruct (enc num _)|].
  assert (En : op_value o = ANil) by (destruct (op_value o); cbn [is_nil negb orb] in Ec; congruence). rewrite En. done.
Qed.

(** A path may hold the rest of one operation and the beginning of the next. *)
Definition smuggle (o1 o2 : operation) : operation :=
  Op (op_kind o1)
    (op_path o1 +++ String dquote (", " +++ quoted "value" +++ ": " +++ default "" (enc num (op_value o1)) +++ ", " +++ quoted "timestamp" +++ ": " +++
      z_text (op_ts o1) +++ " }, { " +++ quoted "op" +++ ": " +++ quoted (op_name (op_kind o2)) +++ ", " +++ quoted "path" +++ ": " +++ String dquote (op_path o2)))
    (op_value o2) (op_ts o2).
Lemma smuggled o1 o2 : op_kept T num bare o1 -> op_kept T num bare o2 ->
  exists p', patch_text T (patch_string num [smuggle o1 o2]) (Some p') ∧ Forall2 rereads_op [o1; o2] p'.
Proof.
  intros H1 H2.
  destruct (array_reads T (newline +++ "    ") ("," +++ " ") " " newline [op_string num o1; op_string num o2] [o1; o2]) as (p' & E & HF).
  - apply white_app; [apply white_newline|repeat (constructor; [by simpl; auto|]); constructor].
  - apply wh_space.
  - apply white_newline.
  - done.
  - repeat constructor; by apply op_string_reads.
  - done.
  - exists p'. split; [|done].
    match type of E with patch_text _ ?x _ => match goal with |- patch_text _ ?y _ => replace y with x; [exact E|] end end.
    unfold patch_string, smuggle, op_string. cbn [map String.concat op_kind op_path op_value op_ts]. unfold quoted.
    change (String dquote) with (fun s => String dquote "" +++ s). cbv beta. rewrite !sapp_assoc.
    reflexivity.
Qed.

(** ** Store *)
Lemma store_text st s p : patch_text T s p -> store (PI_json (read_patch T s)) st = store (PI_patch p) st.
Proof. intros H%unmarshal_spec. unfold read_patch. rewrite H. by destruct st. Qed.
Lemma store_bad st s : (forall p, ~ patch_text T s p) -> store (PI_json (read_patch T s)) st = (st, Panic).
Proof. intros H%unmarshal_err. unfold read_patch. rewrite H. by destruct st. Qed.
End errors.
