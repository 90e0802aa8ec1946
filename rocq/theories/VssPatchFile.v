(** Facts about the vehicle data generator: the files of its patches. *)
From stdpp Require Import pretty.
From Verif Require Import Base BaseLemmas BaseSpec BaseSpecLemmas Tson TsonInd TsonSpec F64 F64Lemmas F64Round ReadLemmas Serial TextSpec TextLemmas MarshalText Heap Patch PatchSpec
  PatchLemmas Diff DiffSpec DiffLemmas DiffPaths Bytes BytesSpec BytesLemmas Json JsonSpec JsonLemmas JsonChars JsonParse JsonRead JsonWrite JsonPatch JsonDiff JsonTson
  Vss VssSpec VssLemmas VssPlace VssFloat VssGen VssData VssNext VssPatchSpec VssTidy VssRenew VssFileSpec VssFile VssPatchFileSpec.
From Coq Require Import Lia.

Section files.
Context (L : textlib) (compound : json -> string) (no_text : option json -> string).

(** ** Strings in Go syntax that are JSON *)
Lemma chars_letter e c s v : In (N_of_ascii e, N_of_ascii c) escapes -> chars s v -> chars (String "\" (String e s)) (String c v).
Proof.
  intros H Hs. pose proof (ch_letter _ _ s v H Hs) as K. unfold bytes in K. cbn [map fold_right append] in K.
  by rewrite !ascii_N_embedding in K.
Qed.
Lemma quote_chars s : clean L s -> chars (quote_body L s) s.
Proof.
  intros Hs%clean_as_seq.
  induction Hs as [|a s Ha Hc IH|a s Ha Hc IH|a b s H2 Hp Hc IH|a b c s H3 Hp Hc IH|a b c d s H4 Hp Hc IH].
  - constructor.
  - cbn [quote_body]. replace (bv a <? 128)%N with true by (symmetry; apply N.ltb_lt; unfold bv; lia).
    unfold quote_ascii. case_decide as Hq; [subst; apply chars_letter; [vm_compute; tauto|done]|].
    case_decide as Hb; [subst; apply chars_letter; [vm_compute; tauto|done]|].
    replace (N.leb 32 (bv a) && N.ltb (bv a) 127)%N with true.
    + apply ch_ascii; [lia| | |done].
      * intros E. apply Hq. rewrite <- (ascii_N_embedding a), E. reflexivity.
      * intros E. apply Hb. rewrite <- (ascii_N_embedding a), E. reflexivity.
    + symmetry. apply andb_true_iff. rewrite N.leb_le, N.ltb_lt. unfold bv. lia.
  - cbn [quote_body].
    replace (bv a <? 128)%N with true by (symmetry; apply N.ltb_lt; unfold bv; simpl in Ha; lia).
    assert (Ea : a = ascii_of_N (N_of_ascii a)) by (symmetry; apply ascii_N_embedding).
    destruct Ha as [E|[E|[E|[E|[E|[]]]]]]; rewrite <- E in Ea; clear E; subst a;
      (apply chars_letter; [vm_compute; tauto|done]).
  - assert (Ha : (194 <= bv a <= 223)%N ∧ (128 <= bv b <= 191)%N) by (clear -H2; bools H2; tauto).
    cbn [quote_body]. replace (bv a <? 128)%N with false by (symmetry; apply N.ltb_ge; lia).
    rewrite H2. unfold quote_rune. rewrite Hp. destruct (seq2 _ _ H2) as [H H'].
    change (String a (String b s)) with (String a (String b "") +++ s). rewrite <- H'. by apply ch_utf8.
  - assert (Ha : (224 <= bv a <= 239)%N ∧ (128 <= bv b)%N ∧ (128 <= bv c)%N) by (clear -H3; bools H3; lia).
    cbn [quote_body]. replace (bv a <? 128)%N with false by (symmetry; apply N.ltb_ge; lia).
    replace (utf8_2 a b) with false.
    2:{ symmetry. unfold utf8_2, Serial.in_range. apply andb_false_iff. left. apply andb_false_iff. right.
        apply N.leb_gt. lia. }
    rewrite H3. unfold quote_rune. rewrite Hp. destruct (seq3 _ _ _ H3) as [H H'].
    change (String a (String b (String c s))) with (String a (String b (String c "")) +++ s). rewrite <- H'. by apply ch_utf8.
  - assert (Ha : (240 <= bv a <= 244)%N ∧ (128 <= bv b)%N ∧ (128 <= bv c)%N ∧ (128 <= bv d)%N)
      by (clear -H4; bools H4; lia).
    cbn [quote_body]. replace (bv a <? 128)%N with false by (symmetry; apply N.ltb_ge; lia).
    replace (utf8_2 a b) with false.
    2:{ symmetry. unfold utf8_2, Serial.in_range. apply andb_false_iff. left. apply andb_false_iff. right.
        apply N.leb_gt. lia. }
    replace (utf8_3 a b c) with false.
    2:{ symmetry. apply not_true_is_false. intros H. bools H. bools H4. lia. }
    rewrite H4. unfold quote_rune. rewrite Hp. destruct (seq4 _ _ _ _ H4) as [H H'].
    change (String a (String b (String c (String d s)))) with (String a (String b (String c (String d ""))) +++ s). rewrite <- H'. by apply ch_utf8.
Qed.
Lemma quote_string s : clean L s -> string_text (quote L s) s.
Proof. intros H. exists (quote_body L s). split; [done|by apply quote_chars]. Qed.

(** ** One operation *)
Lemma value_go v : value_files L v -> exists t, value_text (go_syntax L compound (Some v)) t ∧ json_of L t v.
Proof.
  destruct v as [|b|f|s|l|m]; intros H; try done; cbn [go_syntax].
  - exists (JtBool b). split; [destruct b; constructor|constructor].
  - destruct H as (_ & _ & H1 & H2). exists (JtNum (fmt_num L f)). split; by constructor.
  - exists (JtStr s). split; [|constructor]. constructor. by apply quote_string.
Qed.
Lemma any_json_of j : any_json (any_of_json j) j.
Proof. by destruct j. Qed.
Lemma int64_read f z : read_stamp f z -> - 2 ^ 63 <= z < 2 ^ 63.
Proof. intros H. inversion H; subst; lia. Qed.
Lemma line_text k p v f : patch_line L compound no_text (as_op k p v f) =
  Ok ("    " +++ "{ ""op"": """ +++ k +++ """, ""path"": """ +++ p +++ """, ""value"": " +++ go_syntax L compound (Some v) +++
      ", ""timestamp"": " +++ z_text (f64_to_int64 f) +++ " }").
Proof. reflexivity. Qed.
Lemma line_reads o : op_files L o ->
  exists s t p, patch_line L compound no_text o = Ok ("    " +++ s) ∧ value_text s t ∧ json_of L t o ∧ describes L t p ∧ op_reads o p.
Proof.
  intros (k & p & v & f & z & -> & Hk & Hp & Hv & Hf & Hz).
  destruct (value_go v Hv) as (t & Ht & Hj).
  set (op := Op (op_of_name k) p (any_of_json v) z).
  assert (Hkn : kind_name (op_of_name k) k).
  { by apply kind_name_spec. }
  assert (Hn : op_name (op_kind op) = k) by (by destruct (kind_of _ _ Hkn)).
  assert (W : white " ") by (constructor; [simpl; auto|constructor]).
  eexists _, (JtObj (op_members op (Some t))), op. split; [|split].
  - rewrite line_text. rewrite (proj2 (read_stamp_spec f z) Hf). reflexivity.
  - pose proof (members_written " " " " op (quoted k) (quoted p) (Some t) (Some (go_syntax L compound (Some v))) W W) as M.
    rewrite Hn in M. cbn [op_path] in M. specialize (M (quoted_text _ Hk) (quoted_text _ Hp) Ht).
    revert M. assert (Q : forall s, quoted s = String dquote "" +++ s +++ String dquote "") by done.
    rewrite !Q. unfold op. cbn [op_ts]. rewrite !sapp_assoc. exact id.
  - split; [|split].
    + unfold op_members, as_op. rewrite Hn. apply jo_obj with [("op", JStr k); ("path", JStr p); ("value", v); ("timestamp", JNum f)].
      * cbn [op_path op_ts op app].
        apply List.Forall2_cons; [split; [done|constructor]|]. apply List.Forall2_cons; [split; [done|constructor]|].
        apply List.Forall2_cons; [by split|]. apply List.Forall2_cons; [|constructor]. split; [done|]. by apply jo_num.
      * apply final_nodup. cbn. repeat (apply NoDup_cons; split; [set_solver|]). by apply NoDup_nil.
    + apply (op_tree_described L op bare (Some t) v); [exists k; done|exact (int64_read f z Hf)|done].
    + exists k, v, f. split; [done|]. split; [done|]. split; [apply any_json_of|done].
Qed.

(** ** The whole file *)
Lemma join_concat l : join_lines l = String.concat ("," +++ newline) l.
Proof.
  induction l as [|s l IH]; [done|]. destruct l as [|s' l]; [done|]. rewrite concat_cons by done. rewrite <- IH.
  by rewrite sapp_assoc.
Qed.
Lemma lines_read ops : Forall (op_files L) ops ->
  exists ss ts ps, patch_lines L compound no_text ops = Ok (map (fun s => "    " +++ s) ss) ∧ Forall2 value_text ss ts ∧
    Forall2 (json_of L) ts ops ∧ Forall2 (describes L) ts ps ∧ Forall2 op_reads ops ps.
Proof.
  induction 1 as [|o ops Ho _ (ss & ts & ps & E & H1 & H2 & H3 & H4)]; [by exists [], [], []|].
  destruct (line_reads o Ho) as (s & t & p & E' & I1 & I2 & I3 & I4).
  exists (s :: ss), (t :: ts), (p :: ps). split; [|by repeat split; constructor].
  cbn [patch_lines]. rewrite E', E. done.
Qed.
Lemma white_indent : white (newline +++ "    ").
Proof. repeat (constructor; [simpl; tauto|]). constructor. Qed.
Lemma save_patch_reads ops : Forall (op_files L) ops ->
  exists s ps, save_patch L compound no_text (JArr ops) = Ok s ∧ decode_any L s = Ok (JArr ops) ∧
    Json.unmarshal L s = Ok (Some ps) ∧ Forall2 op_reads ops ps.
Proof.
  intros H. destruct (lines_read ops H) as (ss & ts & ps & E & H1 & H2 & H3 & H4).
  unfold save_patch. rewrite E. cbn [rbind]. rewrite join_concat.
  assert (HT : json_text ("[" +++ newline +++ String.concat ("," +++ newline) (map (fun s => "    " +++ s) ss) +++ newline +++ "]") (JtArr ts)).
  { apply text_value. destruct (decide (ss = [])) as [->|Hne].
    - inversion H1; subst. cbn [map String.concat].
      apply (vt_arr_empty (newline +++ newline)). by apply white_app; apply white_newline.
    - rewrite concat_map_prefix by done.
      replace ("[" +++ newline +++ ("    " +++ String.concat (("," +++ newline) +++ "    ") ss) +++ newline +++ "]")
        with ("[" +++ ((newline +++ "    ") +++ String.concat (("," +++ newline) +++ "    ") ss +++ newline) +++ "]") by (by rewrite !sapp_assoc).
      apply vt_arr. apply (elems_sep _ _ (newline +++ "    ")); [apply white_indent|apply white_indent|by rewrite sapp_assoc|done|done|apply white_newline]. }
  eexists _, ps. split; [reflexivity|]. split; [|split; [|done]].
  - apply decode_spec. exists (JtArr ts). split; [done|]. by constructor.
  - apply unmarshal_spec. right. exists ts, ps. done.
Qed.
End files.

(** A timestamp read from JSON is kept from then on. *)
Lemma stamp_kept f z : f64_valid f = true -> read_stamp f z -> read_stamp (f64_of_Z z) z.
Proof. intros Hf H%read_stamp_spec. apply read_stamp_spec. by apply (f64_valid_stable f). Qed.

(** ** Patches of a round *)
Section rounds.
Context (T : textlib) (num : f64 -> string).
Definition V2 (v : wjson) : Prop := value_writes T num v ∧ cell_files T v.
Definition N2 (k : string) : Prop := utf8 k ∧ bare k.
Definition St2 (t : Z) : Prop := stamp_writes T t ∧ int64 t.
Lemma bare_names : bare "value" ∧ bare "timestamp".
Proof. split; repeat (apply pl_ascii; [vm_compute; done..|]); constructor. Qed.
Lemma files_admits D : draws_write T num D -> draws_file T D -> admits N2 V2.
Proof.
  intros [_ HZ] [_ HZ']. constructor.
  - intros v [H _]. by apply (writes_plain T num).
  - done.
  - intros z Hz. split; [by apply HZ|by apply HZ'].
  - intros s Hs. split; [by apply sample_utf8|by apply sample_clean].
  - destruct utf8_names, bare_names. by repeat split.
Qed.
Lemma keyed_and (P Q : string -> Prop) d : keyed P d -> keyed Q d -> keyed (fun k => P k ∧ Q k) d.
Proof.
  induction d as [|b|f|z|s|l IH|m IH] using wjson_ind'; intros H1 H2; try (apply ky_scalar; [by intros (? & ?)|done]).
  - inversion H1 as [|? F1|? ? Hn]; subst; [|by destruct (Hn l)]. inversion H2 as [|? F2|? ? Hn]; subst; [|by destruct (Hn l)].
    apply ky_arr. rewrite Forall_forall in IH, F1, F2 |- *. auto.
  - apply keyed_map in H1 as [HN F1]. apply keyed_map in H2 as [_ F2]. apply keyed_map. split; [done|].
    rewrite Forall_forall in F1, F2, IH |- *. intros kv Hkv. destruct (F1 kv Hkv), (F2 kv Hkv). split; [done|]. by apply IH.
Qed.
Lemma filed_tidy d : telemetry T num d ∧ filed T d <-> tidy N2 V2 St2 d.
Proof.
  split.
  - intros [[H1 H2 H3 H4 H5 H6] [HK HC]]. constructor; try done.
    + eapply keyed_impl; [|exact (keyed_and _ _ _ H3 HK)]. by intros k [[? ?] ?].
    + intros l x Hl. destruct (H5 l x Hl) as [(v & t & Hh & Hv & Ht)|(xs & -> & HF)].
      * left. destruct (HC (map Key l) v t) as [H7 H8]; [by exists l, x; split; [|left]|]. by exists v, t.
      * right. exists xs. split; [done|]. rewrite Forall_forall in HF |- *. intros y Hy. destruct (HF y Hy) as (v & t & Hh & Hv & Ht).
        apply elem_of_list_lookup_1 in Hy as (i & Hi). destruct (HC (map Key l ++ [Elem i]) v t) as [H7 H8].
        { exists l, (WArr xs). split; [done|]. right. by exists i, xs, y. }
        by exists v, t.
  - intros [H1 H2 H3 H4 H5 H6]. split; [constructor|split]; try done.
    + eapply keyed_impl; [|exact H3]. by intros k (? & ? & ?).
    + intros l x Hl. destruct (H5 l x Hl) as [(v & t & Hh & [Hv _] & [Ht _])|(xs & -> & HF)]; [by left; exists v, t|].
      right. exists xs. split; [done|]. eapply Forall_impl; [exact HF|]. intros y (v & t & Hh & [Hv _] & [Ht _]). by exists v, t.
    + eapply keyed_impl; [|exact H3]. by intros k (? & ? & ?).
    + intros q v t (l & x & Hl & [[-> Hh]|(i & xs & y & -> & -> & Hy & Hh)]).
      * destruct (H5 l x Hl) as [(v' & t' & Hh' & [_ ?] & [_ ?])|(xs & -> & _)].
        -- by destruct (holds_fun _ _ _ _ _ Hh Hh') as [-> ->].
        -- by destruct Hh as (? & ? & _).
      * destruct (H5 l _ Hl) as [(v' & t' & (? & ? & _) & _)|(xs' & [= <-] & HF)]; [done|].
        rewrite Forall_forall in HF. destruct (HF y) as (v' & t' & Hh' & [_ ?] & [_ ?]); [by eapply elem_of_list_lookup_2|].
        by destruct (holds_fun _ _ _ _ _ Hh Hh') as [-> ->].
Qed.
Lemma bare_written q : Forall (fun s => match s with Key k => bare k | Elem _ => True end) q -> bare (written q).
Proof.
  assert (HS : bare "/") by (apply pl_ascii; [vm_compute; done..|constructor]).
  induction q as [|s q IH] using rev_ind; intros H; [apply pl_nil|].
  apply Forall_app in H as [H1 H2]. inversion H2 as [|? ? Hs _]; subst. destruct s as [k|i].
  - rewrite <- written_key. apply (P_make bare); [done|apply bare_app|apply bare_escaped|by apply IH|done].
  - rewrite <- written_elem. apply (P_idx bare); [done|apply bare_app|apply bare_escaped|apply dec_bare|by apply IH].
Qed.
Lemma filed_bare d q v t : filed T d -> cell d q v t -> bare (written q).
Proof.
  intros [HK _] (l & x & Hl & HC). apply bare_written. assert (HN := leaf_at_names _ _ _ _ HK Hl).
  assert (Hk : Forall (fun s => match s with Key k => bare k | Elem _ => True end) (map Key l)) by (by apply Forall_fmap).
  destruct HC as [[-> _]|(i & xs & y & -> & _)]; [done|]. apply Forall_app. split; [done|]. by constructor.
Qed.
Lemma renewal_files d q v t o : telemetry T num d -> filed T d -> cell d q v t -> renewal q v t o -> op_files T o.
Proof.
  intros TD FD C (z & Hz & ->). destruct (proj2 FD q v t C) as [Hv Ht]. destruct (cell_kept T num d q v t TD C) as [_ [_ Hs]].
  exists "replace", (written q), (json_of_prim (as_prim v)), (f64_of_Z z), z. split; [done|].
  split; [repeat (apply pl_ascii; [vm_compute; done..|]); constructor|].
  split; [exact (filed_bare d q v t FD C)|]. split; [done|]. split; [|by apply Hs].
  apply read_stamp_spec. apply (f64_round_stable t); [done|]. by apply read_stamp_spec.
Qed.
Lemma round_files compound no_text c m R ord ts d : telemetry T num d -> filed T d -> (forall p, fair (R p)) -> (forall p, draws_write T num (R p)) -> (forall p, draws_file T (R p)) ->
  stamp_writes T ts -> int64 ts -> (forall t, same_doc t (ord t)) ->
  exists d' ops s ps, generate_next T num c m R ord ts (Vss true d) = Ok (Vss true d', JArr ops) ∧ telemetry T num d' ∧ filed T d' ∧
    save_patch T compound no_text (JArr ops) = Ok s ∧ decode_any T s = Ok (JArr ops) ∧ Json.unmarshal T s = Ok (Some ps) ∧ Forall2 op_reads ops ps.
Proof.
  intros TD FD HR HW HW' Hts Hi Hord.
  destruct (next_patch_exact T num c m R ord ts d TD HR HW Hts Hord) as (d' & ops & E & TD' & _ & HO & _).
  destruct (next_tidy N2 V2 St2 (files_admits (R "") (HW "") (HW' "")) c m R ts d) as (d2 & E2 & TD2 & _);
    [by apply filed_tidy|done|intros p n; split; [exact (proj1 (HW p) n)|exact (proj1 (HW' p) n)]|done|].
  assert (d2 = d').
  { unfold generate_next in E. rewrite E2 in E. cbn [rbind v_data] in E. destruct d; try done.
    destruct (next_patch _ _ _ _ _); try done. cbn [rbind] in E. by injection E as -> _. }
  subst d2. apply filed_tidy in TD2 as [_ FD'].
  destruct (save_patch_reads T compound no_text ops) as (s & ps & H).
  { apply Forall_forall. intros o Ho. apply HO in Ho as (q & v0 & t0 & v & t & _ & C & _ & Hr). by apply (renewal_files d' q v t). }
  exists d', ops, s, ps. done.
Qed.
Lemma first_files size R ord ts b d : schema d -> typed d -> schema_writes T num d -> schema_files T d -> (forall p, fair (R p)) ->
  (forall p, draws_write T num (R p)) -> (forall p, draws_file T (R p)) -> stamp_writes T ts -> int64 ts -> (forall l, ord l ≡ₚ l) ->
  exists r, generate size R ord ts (Vss b d) = Ok (Vss true r) ∧ telemetry T num r ∧ filed T r.
Proof.
  intros S HT [HU HAl] [HU' HAl'] HR HW HW' Hts Hi Hord.
  destruct (generate_tidy N2 V2 St2 (files_admits (R "") (HW "") (HW' "")) size R ord ts b d) as (r & E & TD & H);
    [done|done|by apply keyed_and| |done|intros p n; split; [exact (proj1 (HW p) n)|exact (proj1 (HW' p) n)]|done|done|].
  { intros ns l Hl. specialize (HAl ns l Hl). specialize (HAl' ns l Hl). rewrite Forall_forall in HAl, HAl' |- *. intros v Hv.
    split; [by apply HAl|by apply HAl']. }
  exists r. split; [done|]. by apply filed_tidy.
Qed.
End rounds.
