(** Generated patches survive being written and read. *)
From Verif Require Import Base BaseSpec BaseLemmas BaseSpecLemmas F64 Tson TsonInd Serial TextSpec TsonSpec Heap Patch PatchSpec Diff DiffSpec DiffLemmas DiffPaths Bytes
  Json JsonSpec JsonLemmas JsonChars JsonParse JsonRead JsonWrite JsonPatch.
From Coq Require Import Lia.

Lemma utf8_app a b : utf8 a -> utf8 b -> utf8 (a +++ b).
Proof. intros Ha Hb. induction Ha; [done|by constructor|]. rewrite sapp_assoc. by constructor. Qed.
Lemma bare_app a b : bare a -> bare b -> bare (a +++ b).
Proof. intros Ha Hb. induction Ha; [done|by constructor|]. rewrite sapp_assoc. by constructor. Qed.
Lemma escaped_app a b : escaped (a +++ b) = escaped a +++ escaped b.
Proof. induction a as [|x a IH]; [done|]. cbn [String.append escaped]. rewrite IH. by rewrite sapp_assoc. Qed.
Lemma escaped_high a s : (128 <= bv a)%N -> escaped (String a s) = String a (escaped s).
Proof.
  intros H. cbn [escaped]. rewrite decide_False by (intros ->; vm_compute in H; done).
  rewrite decide_False by (intros ->; vm_compute in H; done). done.
Qed.
Lemma escaped_form u : form u -> escaped u = u.
Proof.
  destruct 1 as [a b H|a b c H|a b c d H].
  - destruct (high_first _ _ H). rewrite !escaped_high by lia. done.
  - destruct (high_first3 _ _ _ H). rewrite !escaped_high by lia. done.
  - destruct (high_first4 _ _ _ _ H). rewrite !escaped_high by lia. done.
Qed.
Lemma utf8_escaped k : utf8 k -> utf8 (escaped k).
Proof.
  induction 1 as [|a k Ha _ IH|r k Hr _ IH]; [constructor| |].
  - cbn [escaped]. apply utf8_app; [|done]. case_decide; [|case_decide]; repeat (apply u8_ascii; [done|]); constructor.
  - rewrite escaped_app, (escaped_form _ (utf8_form _ Hr)). by constructor.
Qed.
Lemma bare_escaped k : bare k -> bare (escaped k).
Proof.
  induction 1 as [|a k Ha Ha1 Ha2 _ IH|r k Hr _ IH]; [constructor| |].
  - cbn [escaped]. apply bare_app; [|done].
    case_decide; [|case_decide]; repeat (apply pl_ascii; [done..|]); constructor.
  - rewrite escaped_app, (escaped_form _ (utf8_form _ Hr)). by constructor.
Qed.
Lemma digit_bare a d : digit a d -> bare (String a "").
Proof. intros [H1 H2]. apply pl_ascii; [lia..|constructor]. Qed.
Lemma digits_bare s n : digits s n -> bare s.
Proof. induction 1 as [a d H|s n a d _ IH H]; [|apply bare_app; [done|]]; by eapply digit_bare. Qed.

(** ** The two kinds of names *)
Section names.
Context (P : string -> Prop) (P_nil : P "") (P_slash : P "/")
  (P_app : forall a b, P a -> P b -> P (a +++ b)) (P_escaped : forall k, P k -> P (escaped k))
  (P_digits : forall n, P (dec_text n)) (P_kinds : P "add" ∧ P "remove" ∧ P "replace").
Context (T : textlib) (num : f64 -> string).
Lemma P_make path k : P path -> P k -> P (make_path path k).
Proof.
  intros H1 H2. unfold make_path. rewrite encode_escaped. pose proof (P_escaped _ H2) as H3.
  assert (H4 : P (String slash (escaped k))) by (by apply (P_app "/" (escaped k))).
  repeat case_match; by auto.
Qed.
Lemma P_idx path i : P path -> P (idx_path path i).
Proof. intros H. by apply P_make. Qed.
Definition good (o : operation) : Prop := op_kept T num P o ∧ scalar (op_value o).
Lemma kind_P_ok k : k = OAdd ∨ k = OReplace ∨ k = ORemove -> kind_text P k.
Proof.
  destruct P_kinds as (H1 & H2 & H3).
  intros [-> |[-> | ->]]; [exists "add"|exists "replace"|exists "remove"]; (split; [|done]); left; unfold standard; rewrite !elem_of_cons; tauto.
Qed.
Lemma good_leaf k path x ts : k = OAdd ∨ k = OReplace -> P path -> prim_kept T num x -> int64 ts -> good (Op k path (any_of_prim x) ts).
Proof.
  intros Hk Hp Hx Ht. split; [|by destruct x]. split; [apply kind_P_ok; naive_solver|]. split; [done|]. split; [done|]. by destruct x.
Qed.
Lemma good_remove path ts : P path -> int64 ts -> good (Op ORemove path ANil ts).
Proof. intros Hp Ht. split; [|done]. split; [apply kind_P_ok; naive_solver|]. split; [done|]. split; done. Qed.
Lemma int64_0 : int64 0. Proof. split; lia. Qed.
Definition fine (t : tson) : Prop := every_name P t ∧ every_stamp int64 t.
Lemma good_emit k path v ops p : k = OAdd ∨ k = OReplace -> P path -> doc_kept T num v -> fine v ->
  emit_leaf k path v = Ok ops -> p ∈ ops -> good p.
Proof.
  intros Hk Hp Hv [_ Hs] E Hin. destruct (emit_leaf_in _ _ _ _ _ E Hin) as (x & ts & -> & ->).
  inversion Hv; subst. inversion Hs; subst. by apply good_leaf.
Qed.
Lemma good_removed path mo mm ops p : P path -> Forall (fun kv => P (fst kv) ∧ fine (snd kv)) mo ->
  diff_removed path mo mm = Ok ops -> p ∈ ops -> good p.
Proof.
  intros Hp HF. revert ops. induction HF as [|[k v] mo [Hk [_ Hs]] HF IH]; intros ops E Hin.
  - injection E as <-. by apply elem_of_nil in Hin.
  - cbn [diff_removed] in E. apply bind_ok in E as (here & Eh & E). apply bind_ok in E as (rest & Er & [= <-]).
    apply elem_of_app in Hin as [Hin|Hin]; [|by apply (IH _ Er)].
    destruct (alookup k mm); [injection Eh as <-; by apply elem_of_nil in Hin|]. cbn [fst snd] in *.
    destruct v as [|x ts| |]; [done|..]; injection Eh as <-; apply elem_of_list_singleton in Hin as ->;
      (apply good_remove; [by apply P_make|]); [by inversion Hs|apply int64_0..].
Qed.
Lemma good_array_removes os ms path p : P path -> p ∈ array_removes os ms path -> good p.
Proof.
  intros Hp Hin. unfold array_removes in Hin. apply elem_of_list_In, in_rev, elem_of_list_In in Hin.
  apply elem_of_list_fmap in Hin as ([i t] & -> & Hin). apply good_remove; [by apply P_idx|apply int64_0].
Qed.
Lemma fine_obj m : fine (TObj m) -> Forall (fun kv => P (fst kv) ∧ fine (snd kv)) m.
Proof.
  intros [H1 H2]. inversion H1 as [| |? F1|]; subst. inversion H2 as [| |? F2|]; subst.
  rewrite Forall_forall in F1, F2 |- *. intros kv Hk. destruct (F1 _ Hk). split; [done|]. split; [done|by apply F2].
Qed.
Lemma fine_arr l : fine (TArr l) -> Forall fine l.
Proof.
  intros [H1 H2]. inversion H1 as [| | |? F1]; subst. inversion H2 as [| | |? F2]; subst.
  rewrite Forall_forall in F1, F2 |- *. intros t Ht. split; auto.
Qed.
Lemma generated_good wt b : forall a path ops p, P path -> fine a -> fine b -> doc_kept T num b ->
  handle_values wt a b path = Ok ops -> p ∈ ops -> good p.
Proof.
  induction b as [|y ts|m' IH|l' IH] using tson_ind'; intros a path ops p Hpath Ha Hb Hd E Hin.
  - destruct a; try done. injection E as <-. by apply elem_of_nil in Hin.
  - assert (Hx : prim_kept T num y ∧ int64 ts) by (destruct Hb as [_ Hs]; inversion Hd; inversion Hs; by subst). destruct Hx as [Hy Ht].
    destruct a as [|z ts'| |l]; try done; cbn [handle_values] in E.
    + injection E as <-. apply elem_of_list_singleton in Hin as ->. apply good_leaf; [by left|done..].
    + destruct (same_type _ _); [|done]. destruct (_ && _); injection E as <-; [by apply elem_of_nil in Hin|].
      apply elem_of_list_singleton in Hin as ->. apply good_leaf; [by right|done..].
    + injection E as <-. apply elem_of_list_singleton in Hin as ->. apply good_leaf; [by right|done..].
  - destruct a as [| |m|]; try done. rewrite handle_obj in E.
    apply bind_ok in E as (ch & Ec & E). apply bind_ok in E as (rm & Er & [= <-]).
    apply fine_obj in Ha, Hb. inversion Hd as [| |? HD|]; subst. apply elem_of_app in Hin as [Hin|Hin].
    + destruct (hv_members_in _ _ _ _ _ _ Ec Hin) as (k & v & here & Hk & Eh & Hp).
      rewrite Forall_forall in IH, Ha, Hb, HD. destruct (Hb _ Hk) as [Hb1 Hb2], (HD _ Hk) as [_ HD2]. cbn [fst snd] in *.
      unfold member_ops in Eh. pose proof (P_make path k Hpath Hb1) as Hmp.
      destruct (alookup k m) as [u|] eqn:Eu; [|by apply (good_emit OAdd _ _ _ _ ltac:(by left) Hmp HD2 Hb2 Eh)].
      destruct (same_type u v); [|by apply (good_emit OReplace _ _ _ _ ltac:(by right) Hmp HD2 Hb2 Eh)].
      apply alookup_Some_in in Eu. by apply (IH (k, v) Hk u _ here p Hmp (proj2 (Ha (k, u) Eu)) Hb2 HD2 Eh Hp).
    + by apply (good_removed path m m' rm).
  - destruct a as [| | |l]; try done. rewrite handle_arr in E. apply fine_arr in Ha, Hb. inversion Hd as [| | |? HD]; subst.
    assert (Hleaf : forall k i n x ts, k = OAdd ∨ k = OReplace -> l' !! n = Some (TLeaf x ts) -> good (Op k (idx_path path i) (any_of_prim x) ts)).
    { intros k i n x ts Hk Hn. apply elem_of_list_lookup_2 in Hn. rewrite Forall_forall in Hb, HD.
      destruct (Hb _ Hn) as [_ Hs]. specialize (HD _ Hn). inversion HD; inversion Hs; subst. apply good_leaf; [done|by apply P_idx|done..]. }
    rewrite Forall_forall in IH, Ha, Hb, HD.
    destruct (Nat.eqb_spec (length l) (length l')) as [Hl|Hl].
    + destruct (hv_elems_in _ _ _ _ _ _ _ E Hin) as (n & u & v & here & Hu & Hv & Eh & Hp). cbn [Nat.add] in Eh.
      apply elem_of_list_lookup_2 in Hu. apply elem_of_list_lookup_2 in Hv.
      apply (IH v Hv u (idx_path path n) here); [by apply P_idx|by auto..].
    + destruct wt.
      * unfold compare_array_ts in E. apply bind_ok in E as (ups & Eu & [= <-]).
        apply elem_of_app in Hin as [Hin|Hin]; [by apply good_array_removes in Hin|].
        destruct (array_updates_in _ _ _ _ _ _ Eu Hin) as (n & k & x & ts & Hk & Hn & ->). by apply (Hleaf _ _ n).
      * unfold compare_array in E. apply bind_ok in E as (adds & Eu & [= <-]).
        apply elem_of_app in Hin as [Hin|Hin]; [by apply good_array_removes in Hin|].
        destruct (array_adds_in _ _ _ _ Eu Hin) as (n & x & ts & Hn & ->). apply process_in in Hn.
        apply (Hleaf _ _ n); [by left|done].
Qed.
Lemma generated_all wt a b ops : fine a -> fine b -> doc_kept T num b -> handle_values wt a b "" = Ok ops ->
  Forall (op_kept T num P) ops ∧ Forall (fun o => scalar (op_value o)) ops.
Proof.
  intros Ha Hb Hd E. rewrite !Forall_forall. split; intros p Hp; by apply (generated_good wt b a "" ops p P_nil Ha Hb Hd E Hp).
Qed.
End names.

Lemma dec_bare n : bare (dec_text n).
Proof. eapply digits_bare, dec_text_digits. Qed.
Ltac ascii_text := repeat (first [apply u8_ascii; [done|] | apply pl_ascii; [done..|]]); constructor.
Lemma kept_names T num t : doc_kept T num t -> every_name utf8 t.
Proof.
  induction t as [|x ts|m IH|l IH] using tson_ind'; intros Hd; constructor; inversion Hd as [| |? HD|? HD]; subst.
  - rewrite Forall_forall in IH, HD |- *. intros kv Hk. destruct (HD _ Hk). auto.
  - rewrite Forall_forall in IH, HD |- *. auto.
Qed.
Lemma generated_reread T num wt a b ops : every_name utf8 a -> doc_kept T num b -> every_stamp int64 a -> every_stamp int64 b ->
  handle_values wt a b "" = Ok ops -> exists s, patch_json num (Some ops) = Some s ∧ unmarshal T s = Ok (Some ops).
Proof.
  intros Ha Hb Sa Sb E.
  destruct (generated_all utf8 u8_nil ltac:(ascii_text) utf8_app utf8_escaped (fun n => bare_utf8 _ (dec_bare n))
    ltac:(split; [|split]; ascii_text) T num wt a b ops (conj Ha Sa) (conj (kept_names _ _ _ Hb) Sb) Hb E) as [H1 H2].
  by apply patch_json_scalar.
Qed.
Lemma generated_string T num wt a b ops : every_name bare a -> every_name bare b -> doc_kept T num b -> every_stamp int64 a -> every_stamp int64 b ->
  handle_values wt a b "" = Ok ops -> unmarshal T (patch_string num ops) = Ok (Some ops).
Proof.
  intros Ha Nb Hb Sa Sb E.
  destruct (generated_all bare pl_nil ltac:(ascii_text) bare_app bare_escaped dec_bare
    ltac:(split; [|split]; ascii_text) T num wt a b ops (conj Ha Sa) (conj Nb Sb) Hb E) as [H1 H2].
  by apply patch_string_scalar.
Qed.
