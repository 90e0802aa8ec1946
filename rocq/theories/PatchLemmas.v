(** Operations and patches on unshared documents. *)
From Verif Require Import Base BaseSpec BaseSpecLemmas F64 Tson TsonInd TsonSpec BaseLemmas TsonLemmas Heap HeapSpec Patch Own PatchSpec TreePatch.
From Coq Require Import Lia.

Lemma has_char_false c k : ¬ has_char c k -> contains c k = false.
Proof.
  intros H. destruct (contains c k) eqn:E; [|done]. exfalso. apply H. clear H.
  induction k as [|a k IH]; cbn in E; [done|].
  apply orb_true_iff in E as [E|E].
  - apply bool_decide_eq_true in E as ->. exists "", k. done.
  - destruct IH as (x & y & ->); [done|]. exists (String a x), y. done.
Qed.
Lemma contains_has_char c k : contains c k = false -> ¬ has_char c k.
Proof.
  intros E (a & b & ->). rewrite contains_app in E. apply orb_false_iff in E as [_ E]. cbn in E.
  by rewrite bool_decide_true in E.
Qed.

Lemma op_parts_last k : plain k -> op_parts (escaped k) = [k].
Proof.
  rewrite <- encode_escaped.
  intros [H1 H2]. unfold op_parts. rewrite rfc_decode_encode, dots_none by (by apply has_char_false).
  apply split_on_none. by apply has_char_false.
Qed.
Lemma op_parts_more k sep path : plain k -> sep = slash ∨ sep = dot ->
  op_parts (escaped k +++ String sep path) = k :: op_parts path.
Proof.
  intros [H1 H2] Hsep. unfold op_parts. rewrite rfc_decode_encode_app, dots_app.
  rewrite (dots_none k) by (by apply has_char_false).
  assert (E : dots_to_slashes (rfc_decode (String sep path)) = String slash (dots_to_slashes (rfc_decode path))).
  { by destruct Hsep as [->| ->]. }
  rewrite E. rewrite split_on_app_gen, split_on_none by (by apply has_char_false). done.
Qed.
Lemma spells_parts path ks : spells path ks -> op_parts path = ks.
Proof.
  induction 1 as [k Hk|k sep path ks Hk Hsep Hs IH]; [by apply op_parts_last|].
  rewrite op_parts_more by done. by rewrite IH.
Qed.
Lemma op_parts_slash rest : op_parts (String slash rest) = "" :: op_parts rest.
Proof. reflexivity. Qed.
Lemma op_parts_ne path : op_parts path <> [].
Proof. apply split_on_ne. Qed.

(** ** From the heap to trees *)
Lemma apply_operation_doc h v t op h' r : doc_of h v t -> apply_operation h v op = (h', r) ->
  match r, ptrav op (op_parts (op_path op)) t with
  | Ok v', (t', Ok _) => doc_of h' v' t' ∧ (match t with TObj _ => v' = v | _ => True end)
  | Err, (t', Err) | Panic, (t', Panic) => doc_of h' v t'
  | _, _ => False
  end.
Proof.
  intros (lt & HH & <- & <-) E. unfold apply_operation in E.
  destruct (traverse_refines op (op_parts (op_path op)) h lt HH) as (lt' & HM & He & Ho & Hobj).
  rewrite E in *. cbn [fst snd] in *. destruct (ptrav _ _ _) as [t' r']. cbn [fst snd] in *. subst t'.
  destruct HM as (HH' & _).
  destruct r as [v'| |], r' as [[]| |]; try done; cbn in Ho.
  - subst v'. split; [by exists lt'|]. by destruct lt.
  - by exists lt'.
  - by exists lt'.
Qed.

(** Other documents are not touched. *)
Lemma apply_operation_docs h v t ds op h' r : docs_of h ((v, t) :: ds) -> apply_operation h v op = (h', r) ->
  exists v' t', docs_of h' ((v', t') :: ds) ∧ t' = fst (ptrav op (op_parts (op_path op)) t) ∧
  match r with Ok v'' => v' = v'' | _ => v' = v end ∧
  match t with TObj _ => v' = v | _ => True end.
Proof.
  intros (lts & HF & HN & E) Ea. destruct lts as [|lt lts]; [done|]. cbn [map] in E. injection E as <- <- <-.
  inversion HF as [|? ? HO HF']; subst. cbn [map concat] in HN.
  pose proof (NoDup_app_disj _ _ HN) as Hd. apply NoDup_app in HN as (HN1 & _ & HN2).
  unfold apply_operation in Ea.
  destruct (traverse_refines op (op_parts (op_path op)) h lt (conj HO HN1)) as (lt' & (HH' & Hlen & Hnew & Hfr) & He & Ho & Hobj).
  rewrite Ea in *. cbn [fst snd] in *.
  assert (Hlt : forall x, x ∈ concat (map locs lts) -> (x < length h)%nat).
  { clear -HF'. induction lts as [|l lts IH]; intros x Hx; cbn in Hx; [by apply elem_of_nil in Hx|].
    inversion HF'; subst. apply elem_of_app in Hx as [Hx|Hx]; [by eapply own_lt|auto]. }
  exists (root lt'), (erase lt'). split.
  - exists (lt' :: lts). split.
    + constructor; [apply HH'|]. rewrite Forall_forall in HF' |- *. intros u Hu.
      apply (own_frame h); [by apply HF'|]. intros x Hx.
      assert (x ∈ concat (map locs lts)).
      { by apply (xlocs_in u). }
      apply Hfr; [by apply Hlt|]. intros Hx'. by apply (Hd x).
    + split; [|done]. cbn. apply NoDup_app. split; [apply HH'|]. split; [|done]. intros x Hx Hx'.
      destruct (Hnew x Hx) as [Hx''|?]; [by apply (Hd x)|]. specialize (Hlt x Hx'). lia.
  - split; [done|]. destruct (ptrav _ _ _) as [t' r']. cbn [fst snd] in *. split.
    + destruct r as [v'| |], r' as [[]| |]; cbn in Ho; try done.
    + by destruct lt.
Qed.

(** ** Setting a leaf *)

Lemma apart_nil p q : apart p q -> q <> [].
Proof. intros [_ H] ->. apply H. apply prefix_nil. Qed.
Lemma apart_cons a p q : apart (a :: p) (a :: q) -> apart p q.
Proof. intros [H1 H2]. split; intros H; [apply H1|apply H2]; by apply prefix_cons. Qed.

Lemma is_set_kind {A} (k : opkind) (x y z u : A) (w : string -> A) : is_set k = true ->
  match k with OAdd | OReplace => x | ORemove => y | OMove | OCopy | OTest => z | OOther s => w s end = x.
Proof. by destruct k. Qed.

Definition is_obj (t : tson) : Prop := match t with TObj _ => True | _ => False end.
Lemma at_key k m q : at_path (TObj m) (Key k :: q) = alookup k m ≫= fun c => at_path c q.
Proof. done. Qed.

Lemma free_new ks : ks <> [] -> Forall (fun k => forall z, ~ int_text k z) ks -> free_way (TObj []) ks.
Proof.
  destruct ks as [|k [|k2 ks]]; intros Hne HF; [done|constructor|]. inversion HF; subst.
  apply fw_new; [by left|done|done].
Qed.
Lemma free_obj t ks : free_way t ks -> exists m, t = TObj m.
Proof. inversion 1; by eexists. Qed.

Definition set_at (t : tson) (ks : list string) (lf t' : tson) : Prop :=
  is_obj t' ∧ at_path t' (keys ks) = Some lf ∧
  (forall q, apart (keys ks) q -> at_path t' q = at_path t q) ∧
  (forall q, q `prefix_of` keys ks -> q <> keys ks -> exists m, at_path t' q = Some (TObj m)).

Lemma set_at_member m k c ks lf c' : 
  (forall q, q <> [] -> at_path c q = match alookup k m with Some d => at_path d q | None => None end) ->
  set_at c ks lf c' -> set_at (TObj m) (k :: ks) lf (TObj (ainsert k c' m)).
Proof.
  intros Hc (H1 & H2 & H3 & H4). split; [done|]. cbn [map]. split; [|split].
  - rewrite at_key, alookup_ainsert_eq. done.
  - intros q Hq. destruct q as [|[k'|i] q]; [by apply apart_nil in Hq| |done].
    rewrite !at_key. destruct (decide (k' = k)) as [->|Hne].
    + rewrite alookup_ainsert_eq. cbn. apply apart_cons in Hq. rewrite (H3 q Hq).
      apply apart_nil in Hq. rewrite (Hc q Hq). by destruct (alookup k m).
    + by rewrite alookup_ainsert_ne.
  - intros q Hq Hne. destruct q as [|s q]; [cbn; by eexists|].
    apply prefix_cons_inv_1 in Hq as Hs. apply prefix_cons_inv_2 in Hq. subst s.
    rewrite at_key, alookup_ainsert_eq. cbn. apply H4; [done|]. intros ->. done.
Qed.

Lemma ptrav_set op p ks : forall t, free_way t ks -> is_set (op_kind op) = true ->
  scalar_of (op_value op) = Some p ->
  exists t', ptrav op ks t = (t', Ok tt) ∧ set_at t ks (TLeaf p (op_ts op)) t'.
Proof.
  induction ks as [|k ks IH]; intros t Hw Hk Hp; [inversion Hw|].
  destruct (free_obj _ _ Hw) as [m ->].
  destruct ks as [|k2 ks].
  - exists (TObj (ainsert k (TLeaf p (op_ts op)) m)). rewrite ptrav_cons. cbv beta iota. split.
    + rewrite Hp. by destruct (op_kind op).
    + split; [done|]. cbn [map]. split; [|split].
      * by rewrite at_key, alookup_ainsert_eq.
      * intros q Hq. destruct q as [|[k'|i] q]; [by apply apart_nil in Hq| |done].
        rewrite !at_key. destruct (decide (k' = k)) as [->|Hne]; [|by rewrite alookup_ainsert_ne].
        destruct Hq as [Hq _]. exfalso. apply Hq. apply prefix_cons, prefix_nil.
      * intros q Hq Hne. destruct q as [|s q]; [cbn; by eexists|].
        apply prefix_cons_inv_1 in Hq as Hs. apply prefix_cons_inv_2 in Hq. subst s.
        apply prefix_nil_inv in Hq. by subst q.
  - assert (Hsub : forall c, free_way c (k2 :: ks) ->
      (forall q, q <> [] -> at_path c q = match alookup k m with Some d => at_path d q | None => None end) ->
      exists t', put_back m k (ptrav op (k2 :: ks) c) = (t', Ok tt) ∧ set_at (TObj m) (k :: k2 :: ks) (TLeaf p (op_ts op)) t').
    { intros c Hc Hq. destruct (IH c Hc Hk Hp) as (c' & -> & Hset).
      exists (TObj (ainsert k c' m)). split; [done|]. by apply (set_at_member m k c). }
    rewrite ptrav_cons. cbv beta iota. rewrite Hk.
    assert (Hnew : Forall (fun k => forall z, ~ int_text k z) (k2 :: ks) -> 
      (alookup k m = None ∨ alookup k m = Some TNil) ->
      exists t', (match parse_int k2 with
       | Some _ => put_back m k (ptrav op (k2 :: ks) (TArr []))
       | None => put_back m k (ptrav op (k2 :: ks) (TObj [])) end) = (t', Ok tt) ∧
       set_at (TObj m) (k :: k2 :: ks) (TLeaf p (op_ts op)) t').
    { intros HF Hm. inversion HF as [|? ? Hk2 _]; subst. apply parse_int_none in Hk2. rewrite Hk2. apply Hsub; [by apply free_new|].
      intros q Hq. destruct q as [|[k'|i] q]; [done| |]; destruct Hm as [->| ->]; done. }
    inversion Hw as [|? ? c ? Hc Hw'|? ? ? Hm Hne HF]; subst.
    + rewrite Hc. destruct (free_obj _ _ Hw') as [m' ->]. apply Hsub; [done|]. intros q _. by rewrite Hc.
    + specialize (Hnew HF Hm). destruct Hm as [Hm|Hm]; rewrite Hm; exact Hnew.
Qed.

(** ** Removing a member *)
Lemma through_obj t ks : through_objects t ks -> exists m, t = TObj m.
Proof. inversion 1; by eexists. Qed.
Lemma ptrav_remove op ks : forall t, through_objects t ks -> op_kind op = ORemove ->
  exists t', ptrav op ks t = (t', Ok tt) ∧ at_path t' (keys ks) = None ∧
    (forall q, apart (keys ks) q -> at_path t' q = at_path t q) ∧
    (at_path t (keys ks) = None -> t' = t) ∧
    (forall q, q `prefix_of` keys ks -> q <> keys ks -> exists m, at_path t' q = Some (TObj m)).
Proof.
  induction ks as [|k ks IH]; intros t Hw Hk; [inversion Hw|].
  destruct (through_obj _ _ Hw) as [m ->]. destruct ks as [|k2 ks].
  - exists (TObj (adelete k m)). rewrite ptrav_cons. cbv beta iota. rewrite Hk. split; [done|].
    cbn [map]. rewrite !at_key, alookup_adelete_eq. split; [done|]. split.
    + intros q Hq. destruct q as [|[k'|i] q]; [by apply apart_nil in Hq| |done].
      rewrite !at_key. destruct (decide (k' = k)) as [->|Hne]; [|by rewrite alookup_adelete_ne].
      destruct Hq as [Hq _]. exfalso. apply Hq. apply prefix_cons, prefix_nil.
    + split.
      * intros HN. rewrite adelete_notin; [done|]. by destruct (alookup k m).
      * intros q Hq Hne. destruct q as [|s q]; [cbn; by eexists|].
        apply prefix_cons_inv_1 in Hq as Hs. apply prefix_cons_inv_2 in Hq. subst s.
        apply prefix_nil_inv in Hq. by subst q.
  - rewrite ptrav_cons. cbv beta iota. inversion Hw as [|? ? c ? Hc Hw']; subst. rewrite Hc.
    destruct (through_obj _ _ Hw') as [m' ->].
    destruct (IH (TObj m') Hw' Hk) as (c' & -> & H1 & H2 & H3 & H4).
    exists (TObj (ainsert k c' m)). split; [done|].
    change (keys (k :: k2 :: ks)) with (Key k :: keys (k2 :: ks)).
    rewrite !at_key, alookup_ainsert_eq. split; [done|]. split.
    + intros q Hq. destruct q as [|[k'|i] q]; [by apply apart_nil in Hq| |done].
      rewrite !at_key. destruct (decide (k' = k)) as [->|Hne].
      * rewrite alookup_ainsert_eq, Hc. cbn. apply H2. by apply apart_cons in Hq.
      * by rewrite alookup_ainsert_ne.
    + split.
      * intros HN. rewrite Hc in HN. cbn [mbind option_bind] in HN. rewrite (H3 HN), ainsert_id; done.
      * intros q Hq Hne. destruct q as [|s q]; [cbn; by eexists|].
        apply prefix_cons_inv_1 in Hq as Hs. apply prefix_cons_inv_2 in Hq. subst s.
        rewrite at_key, alookup_ainsert_eq. cbn [mbind option_bind]. apply H4; [done|]. intros ->. done.
Qed.

(** ** Errors *)
Lemma ptrav_error op k ks m t' : ptrav op (k :: ks) (TObj m) = (t', Err) ->
  t' = TObj m ∨ t' = TObj (ainsert k TNil m) ∨
  (exists xs n, op_value op = ANil ∧ alookup k m = Some (TArr xs) ∧
     t' = TObj (ainsert k (TArr (xs ++ replicate n TNil)) m)).
Proof.
  rewrite ptrav_cons. cbv beta iota. destruct ks as [|k2 ks].
  { destruct (op_kind op); try destruct (scalar_of _); intros [= <-]; auto. }
  assert (Hpb : forall y, put_back m k y = (t', Err) -> t' = TObj (ainsert k TNil m)).
  { intros [c [[]| |]] [= <-]; done. }
  destruct (alookup k m) as [[|p ts|m'|xs]|] eqn:Ek.
  - destruct (is_set _); [|intros [= <-]; auto]. destruct (parse_int k2); intros E; apply Hpb in E; auto.
  - done.
  - intros E. apply Hpb in E. auto.
  - destruct (parse_int k2) as [idx|]; [|intros [= <-]; auto].
    assert (Hs : match scalar_of (op_value op) with
      | Some p => if idx <? 0 then (TObj m, Panic)
          else (TObj (ainsert k (TArr (<[Z.to_nat idx:=TLeaf p (op_ts op)]> (pad xs idx))) m), Ok tt)
      | None => match op_value op with
          | ANil => (TObj (ainsert k (TArr (pad xs idx)) m), Err)
          | _ => if idx <? 0 then (TObj m, Panic)
              else match ptrav op (k2 :: ks) (default TNil (pad xs idx !! Z.to_nat idx)) with
                   | (c, Panic) => (TObj (ainsert k (TArr (<[Z.to_nat idx:=c]> (pad xs idx))) m), Panic)
                   | r => put_back m k r
                   end
          end
      end = (t', Err) ->
      t' = TObj m ∨ t' = TObj (ainsert k TNil m) ∨
      (exists xs0 n, op_value op = ANil ∧ Some (TArr xs) = Some (TArr xs0) ∧
         t' = TObj (ainsert k (TArr (xs0 ++ replicate n TNil)) m))).
    { destruct (scalar_of _) as [p|] eqn:Es; [by destruct (idx <? 0)|].
      assert (Hgo : (if idx <? 0 then (TObj m, Panic)
              else match ptrav op (k2 :: ks) (default TNil (pad xs idx !! Z.to_nat idx)) with
                   | (c, Panic) => (TObj (ainsert k (TArr (<[Z.to_nat idx:=c]> (pad xs idx))) m), Panic)
                   | r => put_back m k r
                   end) = (t', Err) -> t' = TObj (ainsert k TNil m)).
      { destruct (idx <? 0); [done|]. destruct (ptrav _ _ _) as [c [[]| |]]; intros [= <-]; done. }
      destruct (op_value op) eqn:Ev; intros E; try (right; left; by apply Hgo).
      injection E as <-. right. right. unfold pad. destruct (_ <=? _).
      - by exists xs, (Z.to_nat idx + 1 - length xs)%nat.
      - exists xs, 0%nat. by rewrite app_nil_r. }
    destruct (op_kind op); try exact Hs; try (intros [= <-]; by auto).
    destruct (_ || _); done.
  - destruct (is_set _); [|intros [= <-]; auto]. destruct (parse_int k2); intros E; apply Hpb in E; auto.
Qed.
Lemma ptrav_error_below op k k2 ks m m' t' : ptrav op (k :: k2 :: ks) (TObj m) = (t', Err) ->
  alookup k m = Some (TObj m') -> t' = TObj (ainsert k TNil m).
Proof.
  rewrite ptrav_cons. cbv beta iota. intros E Hk. rewrite Hk in E.
  destruct (ptrav op (k2 :: ks) (TObj m')) as [c [[]| |]]; injection E as <-; done.
Qed.
Lemma ptrav_error_top op k m t' : ptrav op [k] (TObj m) = (t', Err) -> t' = TObj m.
Proof.
  rewrite ptrav_cons. cbv beta iota. destruct (op_kind op); try destruct (scalar_of _); intros [= <-]; done.
Qed.

(** ** Only the first named member is touched *)
Lemma ptrav_frame op k ks m : exists m', fst (ptrav op (k :: ks) (TObj m)) = TObj m' ∧
  (forall k', k' <> k -> alookup k' m' = alookup k' m).
Proof.
  rewrite ptrav_cons. cbv beta iota.
  assert (Hsame : exists m', TObj m = TObj m' ∧ (forall k', k' <> k -> alookup k' m' = alookup k' m)).
  { by exists m. }
  assert (Hins : forall c, exists m', TObj (ainsert k c m) = TObj m' ∧ (forall k', k' <> k -> alookup k' m' = alookup k' m)).
  { intros c. exists (ainsert k c m). split; [done|]. intros k' Hk'. by rewrite alookup_ainsert_ne. }
  assert (Hpb : forall y, exists m', fst (put_back m k y) = TObj m' ∧ (forall k', k' <> k -> alookup k' m' = alookup k' m)).
  { intros [c [[]| |]]; apply Hins. }
  destruct ks as [|k2 ks].
  { destruct (op_kind op); try apply Hsame; try (destruct (scalar_of _); [apply Hins|apply Hsame]).
    exists (adelete k m). split; [done|]. intros k' Hk'. by rewrite alookup_adelete_ne. }
  destruct (alookup k m) as [[|p ts|m'|xs]|] eqn:Ek.
  - destruct (is_set _); [|apply Hsame]. destruct (parse_int k2); apply Hpb.
  - apply Hsame.
  - apply Hpb.
  - destruct (parse_int k2) as [idx|]; [|apply Hsame].
    destruct (op_kind op); try apply Hsame.
    1,3: destruct (scalar_of _); [destruct (idx <? 0); [apply Hsame|apply Hins]|];
      destruct (op_value op); try apply Hins;
      (destruct (idx <? 0); [apply Hsame|]); destruct (ptrav _ _ _) as [c [[]| |]];
      try apply Hins; try apply Hpb.
    destruct (_ || _); [apply Hsame|apply Hins].
  - destruct (is_set _); [|apply Hsame]. destruct (parse_int k2); apply Hpb.
Qed.

(** ** Patches *)
Fixpoint papply (t : tson) (ops : list operation) : tson * res unit :=
  match ops with
  | [] => (t, Ok tt)
  | op :: ops' =>
      match ptrav op (op_parts (op_path op)) t with
      | (t', Ok _) => papply t' ops'
      | r => r
      end
  end.
Lemma traverse_obj_root op parts h l h' v : traverse op parts h (VObj l) = (h', Ok v) -> v = VObj l.
Proof.
  destruct parts as [|part rest]; [by intros [= _ <-]|]. rewrite traverse_cons. cbv beta iota.
  assert (Hsb : forall x, store_back l part x = (h', Ok v) -> v = VObj l).
  { intros [h1 [v1| |]] [= _ <-]; done. }
  destruct rest as [|next rest].
  { destruct (op_kind op); try done; try (destruct (scalar_of _); [|done]); by intros [= _ <-]. }
  destruct (get_key h l part) as [|p ts|l'|a n].
  - destruct (is_set _); [|done]. destruct (parse_int next); [destruct (alloc h (CArr []))|destruct (alloc h (CObj []))]; apply Hsb.
  - done.
  - apply Hsb.
  - destruct (parse_int next) as [idx|]; [|done].
    destruct (op_kind op); try done.
    1,3: destruct (if Z.of_nat n <=? idx then _ else _) as [h1 a1];
      destruct (scalar_of _); [destruct (idx <? 0); [done|by intros [= _ <-]]|];
      destruct (op_value op); try done; (destruct (idx <? 0); [done|]); apply Hsb.
    destruct (_ || _); [done|]. by intros [= _ <-].
Qed.
Lemma apply_ops_app h doc t p q : apply_ops h doc t (p ++ q) =
  match apply_ops h doc t p with
  | (h', Ok t') => apply_ops h' doc t' q
  | r => r
  end.
Proof.
  revert h t. induction p as [|op p IH]; intros h t; [done|]. cbn [app apply_ops].
  destruct (apply_operation h doc op) as [h' [v| |]]; auto.
Qed.
Lemma apply_ops_obj h l t p h' v : apply_ops h (VObj l) t p = (h', Ok v) -> (p = [] ∧ v = t ∧ h' = h) ∨ (p <> [] ∧ v = VObj l).
Proof.
  revert h t. induction p as [|op p IH]; intros h t E; [injection E as <- <-; by left|].
  right. split; [done|]. cbn [apply_ops] in E.
  destruct (apply_operation h (VObj l) op) as [h1 [v1| |]] eqn:Ea; try done.
  apply traverse_obj_root in Ea as ->. apply IH in E as [(-> & -> & ->)|[_ ->]]; done.
Qed.
Lemma apply_patch_app h l p q : q <> [] -> apply_patch h (VObj l) (p ++ q) =
  match apply_patch h (VObj l) p with
  | (h', Ok _) => apply_patch h' (VObj l) q
  | r => r
  end.
Proof.
  intros Hq. unfold apply_patch. rewrite apply_ops_app. destruct (apply_ops h (VObj l) VNil p) as [h' [v| |]]; try done.
  destruct q as [|op q]; [done|]. done.
Qed.
Lemma apply_ops_doc h l t p h' r t0 : doc_of h (VObj l) t0 -> apply_ops h (VObj l) t p = (h', r) ->
  match r, papply t0 p with
  | Ok v, (t', Ok _) => doc_of h' (VObj l) t' ∧ v = (if decide (p = []) then t else VObj l)
  | Err, (t', Err) | Panic, (t', Panic) => doc_of h' (VObj l) t'
  | _, _ => False
  end.
Proof.
  revert h t t0. induction p as [|op p IH]; intros h t t0 HD E.
  - injection E as <- <-. done.
  - cbn [apply_ops papply] in *. destruct (apply_operation h (VObj l) op) as [h1 r1] eqn:Ea.
    pose proof (apply_operation_doc _ _ _ _ _ _ HD Ea) as HX.
    destruct r1 as [v1| |], (ptrav op _ t0) as [t1 [[]| |]]; try done.
    + destruct HX as [HD1 _]. apply traverse_obj_root in Ea as ->.
      specialize (IH _ _ _ HD1 E). destruct r as [v| |], (papply t1 p) as [t2 [[]| |]]; try done.
      destruct IH as [IH1 ->]. split; [done|]. by case_decide.
    + by injection E as <- <-.
    + by injection E as <- <-.
Qed.
Lemma apply_patch_doc h l t p h' r : doc_of h (VObj l) t -> apply_patch h (VObj l) p = (h', r) ->
  match r, papply t p with
  | Ok v, (t', Ok _) => doc_of h' (VObj l) t' ∧ v = (if decide (p = []) then VNil else VObj l)
  | Err, (t', Err) | Panic, (t', Panic) => doc_of h' (VObj l) t'
  | _, _ => False
  end.
Proof. apply apply_ops_doc. Qed.
Lemma papply_app t p q : papply t (p ++ q) =
  match papply t p with (t', Ok _) => papply t' q | r => r end.
Proof.
  revert t. induction p as [|op p IH]; intros t; [done|]. cbn [app papply].
  destruct (ptrav op _ t) as [t' [[]| |]]; auto.
Qed.

(** ** Statements on the heap *)
Lemma payload_scalar v p : payload v p -> scalar_of v = Some p.
Proof. by destruct 1. Qed.
Lemma writes_set op : writes op -> is_set (op_kind op) = true.
Proof. by intros [-> | ->]. Qed.
Lemma op_on_doc h v t op t' : doc_of h v t -> is_obj t -> ptrav op (op_parts (op_path op)) t = (t', Ok tt) ->
  exists h', apply_operation h v op = (h', Ok v) ∧ doc_of h' v t'.
Proof.
  intros HD Hobj E. destruct (apply_operation h v op) as [h' r] eqn:Ea.
  pose proof (apply_operation_doc _ _ _ _ _ _ HD Ea) as HX. rewrite E in HX.
  destruct r as [v'| |]; try done. destruct t; try done. destruct HX as [HD' ->]. by exists h'.
Qed.

Lemma set_doc h v t op ks p :
  doc_of h v t -> spells (op_path op) ks -> free_way t ks -> writes op -> payload (op_value op) p ->
  exists h' t', apply_operation h v op = (h', Ok v) ∧ doc_of h' v t' ∧
    at_path t' (keys ks) = Some (TLeaf p (op_ts op)) ∧
    (forall q, apart (keys ks) q -> at_path t' q = at_path t q) ∧
    (forall q, q `prefix_of` keys ks -> q <> keys ks -> exists m, at_path t' q = Some (TObj m)).
Proof.
  intros HD Hs Hw Hk Hp. pose proof (spells_parts _ _ Hs) as Hparts.
  destruct (ptrav_set op p ks t Hw (writes_set _ Hk) (payload_scalar _ _ Hp)) as (t' & E & _ & H2 & H3 & H4).
  destruct (free_obj _ _ Hw) as [m ->]. rewrite <- Hparts in E.
  destruct (op_on_doc _ _ _ _ _ HD I E) as (h' & Ha & HD'). by exists h', t'.
Qed.
Lemma remove_doc h v t op ks :
  doc_of h v t -> spells (op_path op) ks -> through_objects t ks -> op_kind op = ORemove ->
  exists h' t', apply_operation h v op = (h', Ok v) ∧ doc_of h' v t' ∧
    at_path t' (keys ks) = None ∧
    (forall q, apart (keys ks) q -> at_path t' q = at_path t q) ∧
    (at_path t (keys ks) = None -> t' = t) ∧
    (forall q, q `prefix_of` keys ks -> q <> keys ks -> exists m, at_path t' q = Some (TObj m)).
Proof.
  intros HD Hs Hw Hk. pose proof (spells_parts _ _ Hs) as Hparts.
  destruct (ptrav_remove op ks t Hw Hk) as (t' & E & H2).
  destruct (through_obj _ _ Hw) as [m ->]. rewrite <- Hparts in E.
  destruct (op_on_doc _ _ _ _ _ HD I E) as (h' & Ha & HD'). by exists h', t'.
Qed.
Lemma error_doc h v m op h' : doc_of h v (TObj m) -> apply_operation h v op = (h', Err) ->
  exists t', ptrav op (op_parts (op_path op)) (TObj m) = (t', Err) ∧ doc_of h' v t'.
Proof.
  intros HD Ea. pose proof (apply_operation_doc _ _ _ _ _ _ HD Ea) as HX.
  destruct (ptrav _ _ _) as [t' [[]| |]]; try done. by exists t'.
Qed.
Lemma error_below h v t op k k2 ks h' :
  doc_of h v t -> spells (op_path op) (k :: k2 :: ks) -> (exists m, at_path t [Key k] = Some (TObj m)) ->
  apply_operation h v op = (h', Err) ->
  exists t', doc_of h' v t' ∧ at_path t' [Key k] = Some TNil ∧
    (forall q, apart [Key k] q -> at_path t' q = at_path t q).
Proof.
  intros HD Hs [m' Hm] Ea. destruct t as [| |m|]; try done. cbn in Hm.
  destruct (error_doc _ _ _ _ _ HD Ea) as (t' & E & HD'). rewrite (spells_parts _ _ Hs) in E.
  assert (Hk : alookup k m = Some (TObj m')) by (destruct (alookup k m); cbn in Hm; congruence).
  apply (ptrav_error_below _ _ _ _ _ m') in E; [|done]. subst t'.
  exists (TObj (ainsert k TNil m)). split; [done|]. split; [by rewrite at_key, alookup_ainsert_eq|].
  intros q Hq. destruct q as [|[k'|i] q]; [by apply apart_nil in Hq| |done].
  rewrite !at_key. rewrite alookup_ainsert_ne; [done|]. intros ->. destruct Hq as [Hq _]. apply Hq.
  apply prefix_cons, prefix_nil.
Qed.
Lemma error_top h v m op k h' :
  doc_of h v (TObj m) -> spells (op_path op) [k] -> apply_operation h v op = (h', Err) -> doc_of h' v (TObj m).
Proof.
  intros HD Hs Ea. destruct (error_doc _ _ _ _ _ HD Ea) as (t' & E & HD'). rewrite (spells_parts _ _ Hs) in E.
  apply ptrav_error_top in E. by subst t'.
Qed.
Lemma error_all h v m op h' :
  doc_of h v (TObj m) -> apply_operation h v op = (h', Err) ->
  exists t', doc_of h' v t' ∧
   (t' = TObj m ∨
    exists k, (forall q, apart [Key k] q -> at_path t' q = at_path (TObj m) q) ∧
      (at_path t' [Key k] = Some TNil ∨
       exists xs n, op_value op = ANil ∧ at_path (TObj m) [Key k] = Some (TArr xs) ∧
         at_path t' [Key k] = Some (TArr (xs ++ replicate n TNil)))).
Proof.
  intros HD Ea. destruct (error_doc _ _ _ _ _ HD Ea) as (t' & E & HD'). exists t'. split; [done|].
  destruct (op_parts (op_path op)) as [|k ks] eqn:Ep; [by apply op_parts_ne in Ep|].
  assert (Hfr : forall c q, apart [Key k] q -> at_path (TObj (ainsert k c m)) q = at_path (TObj m) q).
  { intros c q Hq. destruct q as [|[k'|i] q]; [by apply apart_nil in Hq| |done].
    rewrite !at_key. rewrite alookup_ainsert_ne; [done|]. intros ->. destruct Hq as [Hq _]. apply Hq.
    apply prefix_cons, prefix_nil. }
  apply ptrav_error in E as [-> |[-> |(xs & n & Hv & Hk & ->)]]; [by left| |]; right; exists k; (split; [apply Hfr|]).
  - left. by rewrite at_key, alookup_ainsert_eq.
  - right. exists xs, n. rewrite !at_key, alookup_ainsert_eq, Hk. done.
Qed.
Lemma slash_doc h v m op rest h' r :
  doc_of h v (TObj m) -> op_path op = "/" +++ rest -> apply_operation h v op = (h', r) ->
  exists m', doc_of h' v (TObj m') ∧ (forall q, apart [Key ""] q -> at_path (TObj m') q = at_path (TObj m) q).
Proof.
  intros HD Hp Ea. pose proof (apply_operation_doc _ _ _ _ _ _ HD Ea) as HX.
  rewrite Hp in HX. change ("/" +++ rest) with (String slash rest) in HX. rewrite op_parts_slash in HX.
  destruct (ptrav_frame op "" (op_parts rest) m) as (m' & E & Hfr). exists m'. split.
  - destruct (ptrav op ("" :: op_parts rest) (TObj m)) as [t' r']. cbn in E. subst t'.
    destruct r as [v'| |], r' as [[]| |]; try done. destruct HX as [HX ->]. done.
  - intros q Hq. destruct q as [|[k'|i] q]; [by apply apart_nil in Hq| |done].
    rewrite !at_key. rewrite Hfr; [done|]. intros ->. destruct Hq as [Hq _]. apply Hq.
    apply prefix_cons, prefix_nil.
Qed.

(** ** Arrays reached through objects *)
Lemma ptrav_descend op ks rest c' : forall t m, rest <> [] -> at_path t (keys ks) = Some (TObj m) ->
  ptrav op rest (TObj m) = (c', Ok tt) ->
  exists t', ptrav op (ks ++ rest) t = (t', Ok tt) ∧ at_path t' (keys ks) = Some c' ∧
    (forall q, apart (keys ks) q -> at_path t' q = at_path t q).
Proof.
  induction ks as [|k ks IH]; intros t m Hne Hat E.
  - cbn in Hat. injection Hat as ->. exists c'. split; [done|]. split; [done|]. intros q [Hq _].
    exfalso. apply Hq, prefix_nil.
  - cbn [map] in Hat. destruct t as [| |m0|]; try done. rewrite at_key in Hat.
    destruct (alookup k m0) as [c|] eqn:Hk; [|done]. cbn [mbind option_bind] in Hat.
    destruct (IH c m Hne Hat E) as (t' & Et & H1 & H2).
    assert (Hc : exists mc, c = TObj mc).
    { destruct ks as [|k1 ks]; cbn in Hat; [injection Hat as ->; by eexists|]. destruct c; try done. by eexists. }
    destruct Hc as [mc ->].
    exists (TObj (ainsert k t' m0)). cbn [app]. rewrite ptrav_cons. cbv beta iota.
    destruct (ks ++ rest) as [|k2 ks2] eqn:Eks; [by destruct ks|]. rewrite Hk, Et. split; [done|].
    cbn [map]. split; [by rewrite at_key, alookup_ainsert_eq|].
    intros q Hq. destruct q as [|[k'|i] q]; [by apply apart_nil in Hq| |done].
    rewrite !at_key. destruct (decide (k' = k)) as [->|Hnk].
    + rewrite alookup_ainsert_eq, Hk. cbn. apply H2. by apply apart_cons in Hq.
    + by rewrite alookup_ainsert_ne.
Qed.
Lemma at_path_app t p q : at_path t (p ++ q) = at_path t p ≫= fun c => at_path c q.
Proof.
  revert t. induction p as [|s p IH]; intros t; [done|]. destruct s as [k|i]; destruct t as [| |m|xs]; try done; cbn.
  - destruct (alookup k m); cbn; [apply IH|done].
  - destruct (xs !! i); cbn; [apply IH|done].
Qed.
Lemma pad_set xs i c : <[i := c]> (pad xs (Z.of_nat i)) = set_elem xs i c.
Proof.
  unfold pad, set_elem. rewrite Nat2Z.id. destruct (Z.leb_spec (Z.of_nat (length xs)) (Z.of_nat i)) as [H|H].
  - do 3 f_equal. lia.
  - replace (S i - length xs)%nat with 0%nat by lia. cbn. by rewrite app_nil_r.
Qed.
Lemma array_member op ks k rest : forall t m c', rest <> [] -> at_path t (keys ks) = Some (TObj m) ->
  ptrav op (k :: rest) (TObj m) = (TObj (ainsert k c' m), Ok tt) ->
  exists t', ptrav op (ks ++ k :: rest) t = (t', Ok tt) ∧ at_path t' (keys (ks ++ [k])) = Some c' ∧
    (forall q, apart (keys (ks ++ [k])) q -> at_path t' q = at_path t q).
Proof.
  intros t m c' Hne Hat E. destruct (ptrav_descend op ks (k :: rest) _ t m ltac:(done) Hat E) as (t' & Et & H1 & H2).
  exists t'. split; [done|]. rewrite map_app. cbn [map]. split.
  - rewrite at_path_app, H1. cbn. by rewrite alookup_ainsert_eq.
  - intros q Hq. destruct (decide (keys ks `prefix_of` q)) as [[q' ->]|Hn].
    + rewrite !at_path_app, H1, Hat. cbn [mbind option_bind].
      assert (Hq' : apart [Key k] q').
      { destruct Hq as [HA HB]. split; intros HX; [apply HA|apply HB]; by apply prefix_app. }
      destruct q' as [|[k'|i] q']; [by apply apart_nil in Hq'| |done]. rewrite !at_key.
      rewrite alookup_ainsert_ne; [done|]. intros ->. destruct Hq' as [Hq' _]. apply Hq'.
      apply prefix_cons, prefix_nil.
    + apply H2. split; [done|]. intros HX. destruct Hq as [_ HB]. apply HB. by apply prefix_app_r.
Qed.
Lemma at_parent t ks k c : at_path t (keys (ks ++ [k])) = Some c ->
  exists m, at_path t (keys ks) = Some (TObj m) ∧ alookup k m = Some c.
Proof.
  rewrite map_app, at_path_app. destruct (at_path t (keys ks)) as [u|] eqn:E; [|done].
  cbn [mbind option_bind map]. destruct u as [| |m|]; try done. rewrite at_key. intros H. exists m. split; [done|].
  destruct (alookup k m); cbn in H; congruence.
Qed.
Lemma at_obj t ks u : ks <> [] -> at_path t (keys ks) = Some u -> is_obj t.
Proof. destruct ks as [|k ks]; [done|]. intros _. cbn. by destruct t. Qed.

Lemma array_set_doc h v t op ks k i extra xs p idx :
  doc_of h v t -> spells (op_path op) (ks ++ k :: i :: extra) -> at_path t (keys (ks ++ [k])) = Some (TArr xs) ->
  int_text i (Z.of_nat idx) -> writes op -> payload (op_value op) p ->
  exists h' t', apply_operation h v op = (h', Ok v) ∧ doc_of h' v t' ∧
    at_path t' (keys (ks ++ [k])) = Some (TArr (set_elem xs idx (TLeaf p (op_ts op)))) ∧
    (forall q, apart (keys (ks ++ [k])) q -> at_path t' q = at_path t q).
Proof.
  intros HD Hs Hat Hi%parse_int_spec Hk Hp. destruct (at_parent _ _ _ _ Hat) as (m & Hm & Hkm).
  destruct (array_member op ks k (i :: extra) t m (TArr (set_elem xs idx (TLeaf p (op_ts op)))) ltac:(done) Hm) as (t' & Et & H1).
  { rewrite ptrav_cons. cbv beta iota. rewrite Hkm, Hi, (payload_scalar _ _ Hp).
    destruct (Z.ltb_spec (Z.of_nat idx) 0) as [Hz|_]; [lia|].
    rewrite <- pad_set, Nat2Z.id. destruct Hk as [-> | ->]; done. }
  rewrite <- (spells_parts _ _ Hs) in Et.
  assert (Hobj : is_obj t) by (eapply at_obj; [|exact Hat]; by destruct ks).
  destruct (op_on_doc _ _ _ _ _ HD Hobj Et) as (h' & Ha & HD'). by exists h', t'.
Qed.
Lemma array_remove_doc h v t op ks k i extra xs idx :
  doc_of h v t -> spells (op_path op) (ks ++ k :: i :: extra) -> at_path t (keys (ks ++ [k])) = Some (TArr xs) ->
  int_text i (Z.of_nat idx) -> (idx < length xs)%nat -> op_kind op = ORemove ->
  exists h' t', apply_operation h v op = (h', Ok v) ∧ doc_of h' v t' ∧
    at_path t' (keys (ks ++ [k])) = Some (TArr (take idx xs ++ drop (S idx) xs)) ∧
    (forall q, apart (keys (ks ++ [k])) q -> at_path t' q = at_path t q).
Proof.
  intros HD Hs Hat Hi%parse_int_spec Hlt Hk. destruct (at_parent _ _ _ _ Hat) as (m & Hm & Hkm).
  destruct (array_member op ks k (i :: extra) t m (TArr (take idx xs ++ drop (S idx) xs)) ltac:(done) Hm) as (t' & Et & H1).
  { rewrite ptrav_cons. cbv beta iota. rewrite Hkm, Hi, Hk.
    destruct (Z.ltb_spec (Z.of_nat idx) 0) as [Hz|_]; [lia|].
    destruct (Z.leb_spec (Z.of_nat (length xs)) (Z.of_nat idx)) as [Hz|_]; [lia|]. cbn.
    by rewrite Nat2Z.id, delete_take_drop. }
  rewrite <- (spells_parts _ _ Hs) in Et.
  assert (Hobj : is_obj t) by (eapply at_obj; [|exact Hat]; by destruct ks).
  destruct (op_on_doc _ _ _ _ _ HD Hobj Et) as (h' & Ha & HD'). by exists h', t'.
Qed.
(** A value that is neither scalar nor null, written to an element that is a leaf: the
    whole array becomes that leaf. *)
Lemma array_lost_doc h v t op ks k i extra xs idx p ts :
  doc_of h v t -> spells (op_path op) (ks ++ k :: i :: extra) -> at_path t (keys (ks ++ [k])) = Some (TArr xs) ->
  int_text i (Z.of_nat idx) -> xs !! idx = Some (TLeaf p ts) -> writes op ->
  (forall p', ¬ payload (op_value op) p') -> op_value op <> ANil ->
  exists h' t', apply_operation h v op = (h', Ok v) ∧ doc_of h' v t' ∧
    at_path t' (keys (ks ++ [k])) = Some (TLeaf p ts) ∧
    (forall q, apart (keys (ks ++ [k])) q -> at_path t' q = at_path t q).
Proof.
  intros HD Hs Hat Hi%parse_int_spec Hx Hk Hp Hnil. destruct (at_parent _ _ _ _ Hat) as (m & Hm & Hkm).
  destruct (array_member op ks k (i :: extra) t m (TLeaf p ts) ltac:(done) Hm) as (t' & Et & H1).
  { rewrite ptrav_cons. cbv beta iota. rewrite Hkm, Hi.
    assert (Hsc : scalar_of (op_value op) = None).
    { destruct (op_value op); try done; exfalso; eapply Hp; constructor. }
    rewrite Hsc. pose proof (lookup_lt_Some _ _ _ Hx) as Hlt.
    assert (Hpad : pad xs (Z.of_nat idx) = xs).
    { unfold pad. destruct (Z.leb_spec (Z.of_nat (length xs)) (Z.of_nat idx)); [lia|done]. }
    rewrite Hpad, Nat2Z.id, Hx. cbn [from_option id].
    destruct (Z.ltb_spec (Z.of_nat idx) 0) as [Hz|_]; [lia|].
    change (ptrav op (i :: extra) (TLeaf p ts)) with (TLeaf p ts, Ok tt). cbn [put_back].
    destruct Hk as [-> | ->]; destruct (op_value op); done. }
  rewrite <- (spells_parts _ _ Hs) in Et.
  assert (Hobj : is_obj t) by (eapply at_obj; [|exact Hat]; by destruct ks).
  destruct (op_on_doc _ _ _ _ _ HD Hobj Et) as (h' & Ha & HD'). by exists h', t'.
Qed.

Lemma apply_patch_one h v op : apply_patch h v [op] = apply_operation h v op.
Proof. unfold apply_patch. cbn [apply_ops]. by destruct (apply_operation h v op) as [h' [v'| |]]. Qed.
Lemma apply_patch_in_place h l p h' v : apply_patch h (VObj l) p = (h', Ok v) -> p <> [] -> v = VObj l.
Proof. intros E Hp. apply apply_ops_obj in E as [(-> & _)|[_ ->]]; done. Qed.
Lemma apply_patch_empty h v : v <> VNil -> exists v', apply_patch h v [] = (h, Ok v') ∧ v' <> v.
Proof. intros Hv. exists VNil. split; [done|]. by intros <-. Qed.
Lemma other_docs h v t ds op h' r :
  docs_of h ((v, t) :: ds) -> apply_operation h v op = (h', r) ->
  exists v' t', docs_of h' ((v', t') :: ds) ∧ match r with Ok w => v' = w | _ => v' = v end.
Proof.
  intros HD Ea. destruct (apply_operation_docs _ _ _ _ _ _ _ HD Ea) as (v' & t' & H1 & _ & H2 & _). by exists v', t'.
Qed.
