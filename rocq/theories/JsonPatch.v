(** Patches written as JSON and read again. *)
From Verif Require Import Base BaseSpec BaseLemmas BaseSpecLemmas F64 Tson TsonInd Serial TextSpec TsonSpec ConvLemmas MarshalText Heap Patch Bytes BytesSpec BytesLemmas
  Json JsonSpec JsonLemmas JsonChars JsonParse JsonRead JsonWrite.
From Coq Require Import Lia.

Section patches.
Context (T : textlib) (num : f64 -> string).

Lemma white_newline : white newline.
Proof. constructor; [simpl; auto|constructor]. Qed.
Lemma white_app a b : white a -> white b -> white (a +++ b).
Proof. intros Ha Hb. induction Ha; [done|]. cbn [append]. by constructor. Qed.

(** An operation's text is that of an operation that differs in the value at most as said. *)
Definition reads_op (s : string) (o : operation) : Prop :=
  exists t o', value_text s t ∧ describes T t o' ∧ rereads_op o o'.

Lemma members_read sp sp2 o nm pt P : white sp -> white sp2 -> op_kept T num P o ->
  string_text nm (op_name (op_kind o)) -> string_text pt (op_path o) ->
  (exists sv, enc num (op_value o) = Some sv ∧
    reads_op ("{" +++ sp +++ quoted "op" +++ ":" +++ sp +++ nm +++ "," +++ sp +++ quoted "path" +++ ":" +++ sp +++ pt
     +++ ("," +++ sp +++ quoted "value" +++ ":" +++ sp +++ sv)
     +++ "," +++ sp +++ quoted "timestamp" +++ ":" +++ sp +++ z_text (op_ts o) +++ sp2 +++ "}") o) ∧
  (op_value o = ANil ->
    reads_op ("{" +++ sp +++ quoted "op" +++ ":" +++ sp +++ nm +++ "," +++ sp +++ quoted "path" +++ ":" +++ sp +++ pt
     +++ "" +++ "," +++ sp +++ quoted "timestamp" +++ ":" +++ sp +++ z_text (op_ts o) +++ sp2 +++ "}") o).
Proof.
  intros Hsp Hsp2 (Hk & Hp & Hts & Hv) Hnm Hpt. split.
  - destruct (enc_value T num _ Hv) as (sv & t & j & Henc & Hvt & Hj & Hr).
    exists sv. split; [done|].
    eexists _, _. split; [exact (members_written sp sp2 o nm pt (Some t) (Some sv) Hsp Hsp2 Hnm Hpt Hvt)|].
    split; [exact (op_tree_described T o P (Some t) j Hk Hts Hj)|]. by repeat split.
  - intros E. eexists _, _. split; [exact (members_written sp sp2 o nm pt None None Hsp Hsp2 Hnm Hpt I)|].
    split; [exact (op_tree_described T o P None JNull Hk Hts eq_refl)|]. unfold rereads_op. rewrite E. by repeat split.
Qed.
Lemma kind_P P o : op_kept T num P o -> P (op_name (op_kind o)) ∧ P (op_path o).
Proof. intros ((s & Hs & HP) & Hp & _). apply kind_of in Hs as [-> _]. done. Qed.
Lemma op_string_reads o : op_kept T num bare o -> reads_op (op_string num o) o.
Proof.
  intros Ho. destruct (kind_P _ _ Ho) as [H1 H2].
  destruct (members_read " " " " o _ _ bare wh_space wh_space Ho (quoted_text _ H1) (quoted_text _ H2)) as [(sv & E & H) _].
  unfold op_string. rewrite E. cbn [default]. match type of H with reads_op ?x _ => match goal with |- reads_op ?y _ => replace y with x; [exact H|] end end.
  rewrite !sapp_assoc. reflexivity.
Qed.
Lemma op_marshal_reads o : op_kept T num bare o -> exists s, op_marshal num o = Some s ∧ reads_op s o.
Proof.
  intros Ho. destruct (kind_P _ _ Ho) as [H1 H2].
  destruct (members_read " " " " o _ _ bare wh_space wh_space Ho (quoted_text _ H1) (quoted_text _ H2)) as [(sv & E & H) H'].
  unfold op_marshal. rewrite E.
  destruct (negb (is_nil (op_value o)) || _ || _ || _) eqn:Ec.
  - eexists. split; [reflexivity|]. match type of H with reads_op ?x _ => match goal with |- reads_op ?y _ => replace y with x; [exact H|] end end.
    rewrite !sapp_assoc. reflexivity.
  - eexists. split; [reflexivity|].
    assert (En : op_value o = ANil) by (destruct (op_value o); cbn [is_nil negb orb] in Ec; congruence).
    specialize (H' En). match type of H' with reads_op ?x _ => match goal with |- reads_op ?y _ => replace y with x; [exact H'|] end end.
    rewrite !sapp_assoc. reflexivity.
Qed.
Lemma op_json_reads o : op_kept T num utf8 o -> exists s, op_json num o = Some s ∧ reads_op s o.
Proof.
  intros Ho. destruct (kind_P _ _ Ho) as [H1 H2].
  destruct (members_read "" "" o _ _ utf8 wh_nil wh_nil Ho (json_string_text _ H1) (json_string_text _ H2)) as [(sv & E & H) H'].
  unfold op_json. destruct (op_value o) eqn:Ev; rewrite ?E; (eexists; split; [reflexivity|]).
  { specialize (H' eq_refl). match type of H' with reads_op ?x _ => match goal with |- reads_op ?y _ => replace y with x; [exact H'|] end end.
    rewrite !sapp_assoc. reflexivity. }
  all: match type of H with reads_op ?x _ => match goal with |- reads_op ?y _ => replace y with x; [exact H|] end end;
    rewrite !sapp_assoc; reflexivity.
Qed.

Lemma reads_ops ss p : Forall2 reads_op ss p ->
  exists ts p', Forall2 value_text ss ts ∧ Forall2 (describes T) ts p' ∧ Forall2 rereads_op p p'.
Proof.
  induction 1 as [|s o ss p (t & o' & H1 & H2 & H3) HF (ts & p' & I1 & I2 & I3)].
  - exists [], []. repeat constructor.
  - exists (t :: ts), (o' :: p'). split; [by constructor|]. split; by constructor.
Qed.
Lemma concat_map_prefix sep pre l : l ≠ [] ->
  String.concat sep (map (fun s => pre +++ s) l) = pre +++ String.concat (sep +++ pre) l.
Proof.
  induction l as [|s l IH]; [done|]. intros _. destruct l as [|s' l]; [done|]. cbn [map].
  rewrite (concat_cons sep (pre +++ s)) by done. cbn [map] in IH. rewrite IH by done. rewrite (concat_cons (sep +++ pre) s) by done. rewrite !sapp_assoc. reflexivity.
Qed.
Lemma array_reads w0 sep w1 we ss p : white w0 -> white w1 -> white we -> sep = "," +++ w1 ->
  Forall2 reads_op ss p -> ss ≠ [] ->
  exists p', patch_text T ("[" +++ (w0 +++ String.concat sep ss +++ we) +++ "]") (Some p') ∧ Forall2 rereads_op p p'.
Proof.
  intros H0 H1 He Hsep HF Hne. destruct (reads_ops _ _ HF) as (ts & p' & I1 & I2 & I3).
  exists p'. split; [|done]. right. exists ts, p'. split; [|done].
  replace ("[" +++ (w0 +++ String.concat sep ss +++ we) +++ "]") with ("" +++ ("[" +++ (w0 +++ String.concat sep ss +++ we) +++ "]") +++ "") by (by rewrite sapp_nil_r).
  constructor; [constructor| |constructor]. apply vt_arr. by apply (elems_sep w0 sep w1).
Qed.
Lemma op_strings p : Forall (op_kept T num bare) p -> Forall2 reads_op (map (op_string num) p) p.
Proof. induction 1; [constructor|]. cbn [map]. constructor; [|done]. by apply op_string_reads. Qed.
Lemma patch_string_reads p : Forall (op_kept T num bare) p ->
  exists p', patch_text T (patch_string num p) (Some p') ∧ Forall2 rereads_op p p'.
Proof.
  intros HF. unfold patch_string. destruct p as [|o p].
  { exists []. split; [|constructor]. right. exists [], []. split; [|split; [done|constructor]].
    apply (jt_make "" ("[" +++ (newline +++ newline) +++ "]") "" (JtArr []) wh_nil); [|constructor].
    apply vt_arr_empty, white_app; apply white_newline. }
  assert (Hne : map (op_string num) (o :: p) ≠ []) by done.
  destruct (array_reads (newline +++ "    ") ("," +++ newline +++ "    ") (newline +++ "    ") newline (map (op_string num) (o :: p)) (o :: p)) as (p' & H1 & H2);
    [| |apply white_newline|done|by apply op_strings|done|].
  1,2: apply white_app; [apply white_newline|repeat (constructor; [by simpl; auto|]); constructor].
  exists p'. split; [|done].
  replace (map (fun o => "    " +++ op_string num o) (o :: p)) with (map (fun s => "    " +++ s) (map (op_string num) (o :: p)))
    by (by rewrite map_map).
  rewrite concat_map_prefix by done.
  match type of H1 with patch_text _ ?x _ => match goal with |- patch_text _ ?y _ => replace y with x; [exact H1|] end end.
  rewrite !sapp_assoc. reflexivity.
Qed.
Lemma op_jsons_reads p : Forall (op_kept T num utf8) p -> exists ss, op_jsons num p = Some ss ∧ Forall2 reads_op ss p.
Proof.
  induction 1 as [|o p Ho HF (ss & E & HR)]; [by exists []|].
  destruct (op_json_reads o Ho) as (s & E1 & H1). exists (s :: ss). cbn [op_jsons]. rewrite E1, E. split; [done|by constructor].
Qed.
Lemma patch_json_reads p : Forall (op_kept T num utf8) p ->
  exists s p', patch_json num (Some p) = Some s ∧ patch_text T s (Some p') ∧ Forall2 rereads_op p p'.
Proof.
  intros HF. destruct (op_jsons_reads p HF) as (ss & E & HR). unfold patch_json. rewrite E.
  destruct ss as [|s0 ss].
  { inversion HR; subst. exists "[]", []. split; [done|]. split; [|constructor]. right. exists [], []. split; [|split; [done|constructor]].
    apply (jt_make "" ("[" +++ "" +++ "]") "" (JtArr []) wh_nil); [|constructor]. apply vt_arr_empty, wh_nil. }
  destruct (array_reads "" "," "" "" (s0 :: ss) p) as (p' & H1 & H2); [constructor..|done|done|done|].
  exists ("[" +++ String.concat "," (s0 :: ss) +++ "]"), p'. split; [done|]. split; [|done].
  match type of H1 with patch_text _ ?x _ => match goal with |- patch_text _ ?y _ => replace y with x; [exact H1|] end end.
  rewrite sapp_nil_r. reflexivity.
Qed.
Lemma nil_patch_reads : patch_json num None = Some "null" ∧ patch_text T "null" None.
Proof. split; [done|]. left. split; [|done]. apply (jt_make "" "null" "" JtNull wh_nil); constructor. Qed.

Lemma rereads_scalar v v' : scalar v -> rereads v v' -> v' = v.
Proof. by destruct v. Qed.
Lemma rereads_ops_scalar p p' : Forall (fun o => scalar (op_value o)) p -> Forall2 rereads_op p p' -> p' = p.
Proof.
  intros Hs HF. induction HF as [|o o' p p' (H1 & H2 & H3 & H4) HF IH]; [done|].
  inversion Hs as [|? ? S1 S2]; subst. f_equal; [|auto].
  apply (rereads_scalar _ _ S1) in H4. destruct o, o'; cbn in *. by subst.
Qed.
Lemma patch_string_scalar p : Forall (op_kept T num bare) p -> Forall (fun o => scalar (op_value o)) p ->
  unmarshal T (patch_string num p) = Ok (Some p).
Proof.
  intros HF Hs. destruct (patch_string_reads p HF) as (p' & H1 & H2). apply (rereads_ops_scalar _ _ Hs) in H2. subst.
  by apply unmarshal_spec.
Qed.
Lemma patch_json_scalar p : Forall (op_kept T num utf8) p -> Forall (fun o => scalar (op_value o)) p ->
  exists s, patch_json num (Some p) = Some s ∧ unmarshal T s = Ok (Some p).
Proof.
  intros HF Hs. destruct (patch_json_reads p HF) as (s & p' & E & H1 & H2). apply (rereads_ops_scalar _ _ Hs) in H2. subst.
  exists s. split; [done|]. by apply unmarshal_spec.
Qed.
Lemma single_reads s o : reads_op s o -> exists o', patch_text T ("[" +++ s +++ "]") (Some [o']) ∧ rereads_op o o'.
Proof.
  intros H. destruct (array_reads "" "," "" "" [s] [o]) as (p' & H1 & H2); [constructor..|done|repeat constructor; done|done|].
  inversion H2 as [|? o' ? ? Ho Hn]; subst. inversion Hn; subst. exists o'. split; [|done]. cbn [String.concat] in H1.
  by rewrite sapp_nil_r in H1.
Qed.
End patches.
