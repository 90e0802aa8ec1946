(** The metadata file of the vehicle data generator is read back. *)
From Verif Require Import JsonTson Base BaseLemmas BaseSpec BaseSpecLemmas Tson TsonInd TsonSpec F64 Serial TextSpec Json JsonSpec JsonParse JsonWrite Bytes BytesLemmas Vss VssSpec VssPatchSpec VssRead JsonPatch VssPatchFile VssRun VssRunSpec.

Section meta.
Context (T : textlib) (num : f64 -> string).
Definition member_line (kv : string * wjson) : string := "    " +++ json_string (fst kv) +++ ": " +++ wtext num (write_any (snd kv)).
Definition member_tree (kv : string * wjson) : string * jtree := (fst kv, wtree num (snd kv)).
Definition option_writes (kv : string * wjson) : Prop := utf8 (fst kv) ∧ value_writes T num (snd kv).
Lemma white_blank : white "    ".
Proof. repeat (constructor; [simpl; tauto|]). constructor. Qed.
Lemma white_space : white " ".
Proof. repeat (constructor; [simpl; tauto|]). constructor. Qed.
Lemma white_nil : white "".
Proof. constructor. Qed.
Lemma lines_members m : Forall option_writes m -> m ≠ [] -> forall w, white w ->
  members_text (w +++ join_lines (map member_line m) +++ newline) (map member_tree m).
Proof.
  induction 1 as [|[k v] m [Hk Hv] HF IH]; intros Hne w Hw; [done|]. cbn [fst snd] in *.
  destruct (as_prim_json T num v Hv) as (E1 & _ & K1 & _ & _).
  destruct m as [|kv m].
  - cbn [map join_lines]. unfold member_line, member_tree. cbn [fst snd]. rewrite E1.
    replace (w +++ ("    " +++ json_string k +++ ": " +++ wtext num v) +++ newline)
      with ((w +++ "    ") +++ json_string k +++ "" +++ ":" +++ " " +++ wtext num v +++ newline) by (rewrite !sapp_assoc; reflexivity).
    apply mt_one; [apply white_app; [done|apply white_blank]|by apply json_string_text|apply white_nil|apply white_space|by apply (wtext_value T)|apply white_newline].
  - change (map member_line ((k, v) :: kv :: m)) with (member_line (k, v) :: member_line kv :: map member_line m).
    cbn [join_lines]. unfold member_line at 1. cbn [fst snd]. rewrite E1.
    change (member_line kv :: map member_line m) with (map member_line (kv :: m)).
    change (map member_tree ((k, v) :: kv :: m)) with ((k, wtree num v) :: map member_tree (kv :: m)).
    assert (E : forall r, w +++ (("    " +++ json_string k +++ ": " +++ wtext num v) +++ "," +++ newline +++ r) +++ newline
      = (w +++ "    ") +++ json_string k +++ "" +++ ":" +++ " " +++ wtext num v +++ "" +++ "," +++ (newline +++ r +++ newline)).
    { intros r. rewrite !sapp_assoc. reflexivity. }
    rewrite E. apply mt_more; [apply white_app; [done|apply white_blank]|by apply json_string_text|apply white_nil|apply white_space|by apply (wtext_value T)|apply white_nil|].
    apply IH; [done|apply white_newline].
Qed.
Lemma metadata_read o : NoDup (map fst o) -> Forall option_writes o ->
  exists m, decode_any T (metadata_text num o) = Ok (JObj m) ∧ forall k, alookup k m = option_map (fun v => json_of_prim (as_prim v)) (alookup k o).
Proof.
  intros HN HF. unfold metadata_text.
  assert (HE : any_encodable (WObj o) = true).
  { cbn [any_encodable]. apply forallb_forall. intros kv Hin%elem_of_list_In. rewrite Forall_forall in HF. destruct (HF kv Hin) as [_ Hv].
    by destruct (as_prim_json T num _ Hv) as (_ & _ & _ & _ & H). }
  rewrite HE. pose (so := sort_members o). assert (HP : so ≡ₚ o) by apply sort_members_perm.
  exists (map (fun kv => (fst kv, json_of_prim (as_prim (snd kv)))) so).
  assert (HFs : Forall option_writes so) by (by rewrite HP). assert (HNs : NoDup (map fst so)) by (by rewrite HP).
  split.
  - assert (HJ : json_of T (JtObj (map member_tree so)) (JObj (map (fun kv => (fst kv, json_of_prim (as_prim (snd kv)))) so))).
    { apply (jo_obj T _ (map (fun kv => (fst kv, json_of_prim (as_prim (snd kv)))) so)).
      - clear -HFs. induction HFs as [|[k v] m [_ Hv] _ IH]; cbn [map]; constructor; [|done]. split; [done|]. cbn [fst snd] in *.
        destruct (as_prim_json T num v Hv) as (_ & E2 & _ & K2 & _). rewrite <- E2. by apply wtree_json.
      - apply final_nodup. rewrite map_map. done. }
    apply JsonTson.decode_spec. exists (JtObj (map member_tree so)). split; [|done]. apply text_value.
    destruct o as [|kv o].
    + apply (vt_obj_empty ""). constructor.
    + assert (Hne : so ≠ []) by (intros Hs; rewrite Hs in HP; by apply Permutation_nil_cons in HP).
      pose proof (lines_members so HFs Hne newline white_newline) as HM. apply vt_obj in HM.
      rewrite !sapp_assoc in HM.
      exact HM.
  - intros k. destruct (alookup k o) as [v|] eqn:E; cbn [option_map].
    + apply alookup_in; [unfold akeys; by rewrite map_map|]. apply alookup_Some_in in E. rewrite <- HP in E.
      apply (elem_of_list_fmap_1 (fun kv => (fst kv, json_of_prim (as_prim (snd kv))))) in E. exact E.
    + apply alookup_None_iff. apply alookup_None_iff in E. unfold akeys in *. rewrite map_map. cbn [fst]. by rewrite HP.
Qed.
End meta.
