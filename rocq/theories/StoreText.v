(** Indented text is read like compact text. *)
From Verif Require Import Base BaseSpec BaseLemmas BaseSpecLemmas F64 Tson TsonInd TsonSpec Bytes BytesLemmas ConvLemmas Serial TextSpec Heap Patch Tjson Sensor Sim Temporal
  Json JsonSpec JsonLemmas JsonChars JsonParse JsonRead JsonWrite JsonTson Report Store StoreSpec.

(** ** Texts *)
Lemma blanks_white ind d : white ind -> white (blanks ind d).
Proof. intros H. induction d as [|d IH]; cbn [blanks]; [constructor|]. by apply white_app. Qed.
Lemma line_white ind d : white ind -> white (line ind d).
Proof. intros H. constructor; [vm_compute; tauto|by apply blanks_white]. Qed.
Section text.
Context (T : textlib) (num : f64 -> string) (ind : string) (Hind : white ind).
Lemma members_lines w1 sep l ms : white w1 -> sep = "," +++ w1 -> l ≠ [] ->
  Forall2 (fun s kt => exists k v, s = k +++ ": " +++ v ∧ string_text k (fst kt) ∧ value_text v (snd kt)) l ms ->
  forall w0 we, white w0 -> white we -> members_text (w0 +++ String.concat sep l +++ we) ms.
Proof.
  intros Hw1 -> Hne HF w0 we Hw0 Hwe. revert w0 Hw0. induction HF as [|s [n t] l ms (k & v & -> & Hk & Hv) HF IH]; intros w0 Hw0; [done|]. cbn [fst snd] in *.
  destruct l as [|s' l].
  - inversion HF; subst. cbn [String.concat].
    replace (w0 +++ (k +++ ": " +++ v) +++ we) with (w0 +++ k +++ "" +++ ":" +++ " " +++ v +++ we) by (rewrite !sapp_assoc; done).
    apply mt_one; try done; [constructor|apply wh_space].
  - rewrite concat_cons by done.
    replace (w0 +++ ((k +++ ": " +++ v) +++ ("," +++ w1) +++ String.concat ("," +++ w1) (s' :: l)) +++ we)
      with (w0 +++ k +++ "" +++ ":" +++ " " +++ v +++ "" +++ "," +++ (w1 +++ String.concat ("," +++ w1) (s' :: l) +++ we)) by (rewrite !sapp_assoc; done).
    apply mt_more; try done; [constructor|apply wh_space|constructor|]. by apply IH.
Qed.
Lemma indented_arr d x l : indented num ind d (WArr (x :: l)) =
  "[" +++ (line ind (S d) +++ String.concat ("," +++ line ind (S d)) (map (indented num ind (S d)) (x :: l)) +++ line ind d) +++ "]".
Proof. cbn [indented]. by rewrite !sapp_assoc. Qed.
Lemma indented_obj d x m : indented num ind d (WObj (x :: m)) =
  "{" +++ (line ind (S d) +++ String.concat ("," +++ line ind (S d)) (map (fun kv => json_string (fst kv) +++ ": " +++ indented num ind (S d) (snd kv)) (x :: m)) +++ line ind d) +++ "}".
Proof. cbn [indented]. by rewrite !sapp_assoc. Qed.
Lemma indented_value w : wkept T num w -> forall d, value_text (indented num ind d w) (wtree num w).
Proof.
  induction w as [|b|f|z|s|l IH|m IH] using wjson_ind'; intros HK d.
  - constructor.
  - cbn [indented wtree]. destruct b; constructor.
  - inversion HK as [| |? (_ & _ & H & _)| | | |]; subst. by constructor.
  - constructor. apply z_text_number.
  - inversion HK as [| | | |? H| |]; subst. constructor. by apply json_string_text.
  - inversion HK as [| | | | |? HF|]; subst. destruct l as [|x l]; [exact (vt_arr_empty "" wh_nil)|].
    rewrite indented_arr. cbn [wtree]. apply vt_arr. remember (x :: l) as l' eqn:E. assert (Hne : l' ≠ []) by (by subst). clear E x l HK.
    apply (elems_sep (line ind (S d)) _ (line ind (S d))); [by apply line_white|by apply line_white|done|by destruct l'| |by apply line_white].
    clear Hne. induction l' as [|x l IHl]; cbn [map]; [constructor|]. inversion IH; subst. inversion HF; subst. constructor; auto.
  - inversion HK as [| | | | | |? HF]; subst. destruct m as [|x m]; [exact (vt_obj_empty "" wh_nil)|].
    rewrite indented_obj. cbn [wtree]. apply vt_obj. remember (x :: m) as m' eqn:E. assert (Hne : m' ≠ []) by (by subst). clear E x m HK.
    apply (members_lines (line ind (S d))); [by apply line_white|done|by destruct m'| |by apply line_white|by apply line_white].
    clear Hne. induction m' as [|[k x] m IHl]; cbn [map]; [constructor|]. inversion IH; subst. inversion HF as [|? ? [Hk Hx]]; subst. constructor; [|auto].
    cbn [fst snd] in *. exists (json_string k), (indented num ind (S d) x). split; [done|]. split; [by apply json_string_text|auto].
Qed.
Lemma survives_kept w : survives T num w -> wkept T num w.
Proof.
  induction w as [|b|f|z|s|l IH|m IH] using wjson_ind'; intros H; inversion H as [| | | | |? HF|? HN HF]; subst; try by constructor.
  - constructor. apply Forall_forall. intros x Hx. rewrite Forall_forall in IH, HF. auto.
  - constructor. apply Forall_forall. intros x Hx. rewrite Forall_forall in IH, HF. destruct (HF x Hx). auto.
Qed.
Lemma survives_read w : survives T num w -> wread T num w.
Proof.
  induction w as [|b|f|z|s|l IH|m IH] using wjson_ind'; intros H; inversion H as [| | | | |? HF|? HN HF]; subst; try by constructor.
  - constructor. apply Forall_forall. intros x Hx. rewrite Forall_forall in IH, HF. auto.
  - constructor; [done|]. apply Forall_forall. intros x Hx. rewrite Forall_forall in IH, HF. destruct (HF x Hx). auto.
Qed.
Lemma indented_same w t : survives T num w -> json_text (indented num ind 0 w) t <-> json_text (wtext num w) t.
Proof.
  intros H%survives_kept. pose proof (text_value _ _ (indented_value w H 0)) as H1. pose proof (text_value _ _ (wtext_value T num w H)) as H2.
  split; intros Ht.
  - by rewrite (json_text_det _ _ _ Ht H1).
  - by rewrite (json_text_det _ _ _ Ht H2).
Qed.
End text.

(** ** Encodable data *)
Lemma marshals_spec w : marshals w = false <-> no_number w.
Proof.
  induction w as [|b|f|z|s|l IH|m IH] using wjson_ind'; cbn [marshals]; try (split; [done|intros H; by inversion H]).
  - split.
    + intros H. constructor. destruct f; [done|right; by eexists|by left|done].
    + intros H. inversion H as [? [->|[b ->]]| |]; done.
  - rewrite Forall_forall in IH. split.
    + intros H. destruct (forallb_forall marshals l) as [_ F].
      assert (HE : exists w, w ∈ l ∧ marshals w = false).
      { clear IH F. induction l as [|x l IHl]; [done|]. cbn in H. apply andb_false_iff in H as [H|H]; [exists x; split; [by left|done]|].
        destruct (IHl H) as (w & Hw & Ew). exists w. split; [by right|done]. }
      destruct HE as (w & Hw & Ew). apply (nn_elem l w Hw). by apply IH.
    + intros H. inversion H as [|? w Hw Hn|]; subst. destruct (forallb marshals l) eqn:E; [|done].
      rewrite forallb_forall in E. apply elem_of_list_In in Hw as Hw'. apply E in Hw'. apply (IH _ Hw) in Hn. congruence.
  - rewrite Forall_forall in IH. split.
    + intros H.
      assert (HE : exists kv, kv ∈ m ∧ marshals (snd kv) = false).
      { clear IH. induction m as [|x l IHl]; [done|]. cbn in H. apply andb_false_iff in H as [H|H]; [exists x; split; [by left|done]|].
        destruct (IHl H) as (w & Hw & Ew). exists w. split; [by right|done]. }
      destruct HE as ([k w] & Hw & Ew). apply (nn_member m k w Hw). by apply (IH (k, w)).
    + intros H. inversion H as [| |? k w Hw Hn]; subst. destruct (forallb _ m) eqn:E; [|done].
      rewrite forallb_forall in E. apply elem_of_list_In in Hw as Hw'. apply E in Hw'. apply (IH _ Hw) in Hn. cbn in *. congruence.
Qed.
Lemma survives_marshals T num w : survives T num w -> marshals w = true.
Proof.
  induction w as [|b|f|z|s|l IH|m IH] using wjson_ind'; intros H; inversion H as [| |? HK| | |? HF|? HN HF]; subst; cbn [marshals]; try done.
  - by apply (num_kept_finite T num).
  - apply forallb_forall. intros x Hx%elem_of_list_In. rewrite Forall_forall in IH, HF. auto.
  - apply forallb_forall. intros x Hx%elem_of_list_In. rewrite Forall_forall in IH, HF. destruct (HF x Hx). auto.
Qed.
Lemma survives_sorted T num w : survives T num w -> survives T num (write_any w).
Proof.
  induction w as [|b|f|z|s|l IH|m IH] using wjson_ind'; intros H; inversion H as [| | | | |? HF|? HN HF]; subst; cbn [write_any]; try by constructor.
  - constructor. apply Forall_forall. intros x (y & -> & Hy)%elem_of_list_fmap. rewrite Forall_forall in IH, HF. auto.
  - constructor.
    + rewrite (fmap_Permutation fst _ _ (sort_members_perm _) : map fst _ ≡ₚ map fst _), map_map. done.
    + apply sort_members_forall. apply Forall_forall. intros x (y & -> & Hy)%elem_of_list_fmap. rewrite Forall_forall in IH, HF. destruct (HF y Hy). cbn. auto.
Qed.
Lemma decoded_written w : decoded w (unmarshal_any (write_any w)).
Proof.
  induction w as [|b|f|z|s|l IH|m IH] using wjson_ind'; cbn [write_any]; try (by apply dec_scalar).
  - cbn [unmarshal_any]. apply dec_arr. induction IH as [|x l Hx _ IHl]; cbn [map]; [constructor|]. apply List.Forall2_cons; [exact Hx|exact IHl].
  - cbn [unmarshal_any]. rewrite sort_members_map, map_map. apply dec_obj with (sort_members m); [symmetry; apply sort_members_perm|].
    apply (sort_members_forall _ m) in IH. induction IH as [|x l Hx _ IHl]; cbn [map]; [constructor|]. apply List.Forall2_cons; [split; [done|exact Hx]|exact IHl].
Qed.
Lemma decoded_reordered j j' : TsonSpec.same_json j j' -> forall w, decoded w j -> decoded w j'.
Proof.
  revert j'. induction j as [|x|f|s|l IH|m IH] using json_ind'; intros j' HS w HD; inversion HS as [| | | |? l' HF|? m' m'' HP HF]; subst; try done.
  - inversion HD as [w0 H1 H2 E1 E2|l0 l1 HF1|]; subst.
    { destruct w; cbn in *; try done; try (by edestruct H1); by edestruct H2. }
    apply dec_arr. clear HS HD. revert l0 HF1. induction HF as [|x y l l' Hxy HF IHF]; intros l0 HF1.
    + by inversion HF1.
    + inversion IH; subst. inversion HF1; subst. apply List.Forall2_cons; auto.
  - inversion HD as [w0 H1 H2 E1 E2| |m0 m1 m2 HP1 HF1]; subst.
    { destruct w; cbn in *; try done; try (by edestruct H1); by edestruct H2. }
    destruct (Forall2_perm_l _ _ _ _ HF1 HP) as (m3 & HP3 & HF3).
    apply dec_obj with m3; [by rewrite HP1|]. assert (IH' : Forall (fun kv => forall j', TsonSpec.same_json (snd kv) j' -> forall w, decoded w (snd kv) -> decoded w j') m') by (by rewrite <- HP).
    clear -HF HF3 IH'. revert m3 HF3. induction HF as [|x y l l' [Hk Hxy] HF IHF]; intros m3 HF3.
    + inversion HF3; subst. constructor.
    + inversion HF3 as [|? z ? ? [Hz Hd] ?]; subst. inversion IH'; subst. apply List.Forall2_cons; [|auto]. split; [congruence|auto].
Qed.

(** ** A document as a string *)
Lemma marshals_sorted {V} (f : V -> bool) (m : list (string * V)) : forallb (fun kv => f (snd kv)) (sort_members m) = forallb (fun kv => f (snd kv)) m.
Proof.
  apply eq_true_iff_eq. rewrite !forallb_forall. setoid_rewrite <- elem_of_list_In.
  assert (E : forall x, x ∈ sort_members m <-> x ∈ m) by (intros x; by rewrite sort_members_perm). split; intros H x Hx; apply H; by apply E.
Qed.
Lemma marshals_doc t : marshals (json_written t) = encodable t.
Proof.
  induction t as [|p ts|m IH|l IH] using tson_ind'; cbn [json_written].
  - done.
  - cbn. by destruct p; cbn; rewrite ?andb_true_r.
  - cbn [marshals encodable]. rewrite marshals_sorted. induction IH as [|x m Hx _ IHm]; [done|]. cbn [map forallb snd fst]. by rewrite Hx, IHm.
  - cbn [marshals encodable]. induction IH as [|x m Hx _ IHm]; [done|]. cbn [map forallb]. by rewrite Hx, IHm.
Qed.
Lemma compatible_panic num t : compatible_string num t = Panic <-> compatible_bytes num t = Err.
Proof. unfold compatible_string, marshal_indent, compatible_bytes, to_bytes. rewrite marshals_doc. by destruct (encodable t). Qed.
Lemma compatible_same T num t s b x : doc_kept T num t -> wf t -> compatible_string num t = Ok s -> compatible_bytes num t = Ok b ->
  json_text s x <-> json_text b x.
Proof.
  intros HK HW. unfold compatible_string, marshal_indent, compatible_bytes, to_bytes. rewrite marshals_doc. destruct (encodable t); [|done].
  intros [= <-] [= <-]. destruct (write_doc T num t HK HW) as (K & _).
  assert (W4 : white "    ") by (repeat (constructor; [simpl; tauto|]); constructor).
  pose proof (text_value _ _ (indented_value T num "    " W4 _ K 0)) as H1. pose proof (text_value _ _ (wtext_value T num _ K)) as H2.
  split; intros Ht.
  - by rewrite (json_text_det _ _ _ Ht H1).
  - by rewrite (json_text_det _ _ _ Ht H2).
Qed.
Lemma marshal_none num ind w : marshal_indent num ind w = None <-> no_number w.
Proof. rewrite <- marshals_spec. unfold marshal_indent. by destruct (marshals w). Qed.
Lemma compatible_spec num t : compatible_string num t <> Err ∧ (compatible_string num t = Panic <-> compatible_bytes num t = Err) ∧
  forall T s b x, doc_kept T num t -> wf t -> compatible_string num t = Ok s -> compatible_bytes num t = Ok b -> json_text s x <-> json_text b x.
Proof.
  split; [unfold compatible_string; by destruct (marshal_indent _ _ _)|]. split; [apply compatible_panic|]. intros. by eapply compatible_same.
Qed.
