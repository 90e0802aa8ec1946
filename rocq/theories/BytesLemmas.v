(** Proofs about the JSON written for documents. *)
From Verif Require Import Base F64 Tson TsonInd BaseSpec BaseLemmas TextSpec TsonSpec ConvLemmas ReadLemmas Bytes BytesSpec.
From Coq Require Import Lia.

(** ** The order of keys *)
Lemma str_lt_spec s t : str_lt s t = true <-> before s t.
Proof.
  revert t. induction s as [|a s IH]; intros [|b t]; cbn [str_lt].
  - split; [done|]. intros [(c & r & H)|(p & x & y & r & r' & H & _)]; [done|]. by destruct p.
  - split; [|done]. intros _. left. by exists b, t.
  - split; [done|]. intros [(c & r & H)|(p & x & y & r & r' & _ & H & _)]; [done|]. by destruct p.
  - case_decide as E.
    + subst b. rewrite IH. split.
      * intros [(c & r & ->)|(p & x & y & r & r' & -> & -> & H)]; [left; by exists c, r|right].
        by exists (String a p), x, y, r, r'.
      * intros [(c & r & H)|(p & x & y & r & r' & H1 & H2 & H)].
        -- left. exists c, r. by injection H.
        -- right. destruct p as [|q p].
           ++ cbn in H1, H2. injection H1 as <- <-. injection H2 as <- <-. lia.
           ++ change (String q p +++ String x r) with (String q (p +++ String x r)) in H1.
              change (String q p +++ String y r') with (String q (p +++ String y r')) in H2.
              injection H1 as <- ->. injection H2 as ->. by exists p, x, y, r, r'.
    + rewrite N.ltb_lt. split.
      * intros H. right. by exists "", a, b, s, t.
      * intros [(c & r & H)|(p & x & y & r & r' & H1 & H2 & H)].
        -- change (String a s +++ String c r) with (String a (s +++ String c r)) in H. congruence.
        -- destruct p as [|q p].
           ++ cbn in H1, H2. injection H1 as <- <-. by injection H2 as <- <-.
           ++ change (String q p +++ String x r) with (String q (p +++ String x r)) in H1.
              change (String q p +++ String y r') with (String q (p +++ String y r')) in H2. congruence.
Qed.
Lemma str_lt_trans s t u : str_lt s t = true -> str_lt t u = true -> str_lt s u = true.
Proof.
  revert t u. induction s as [|a s IH]; intros [|b t] [|c u]; cbn [str_lt]; try done.
  repeat case_decide; subst; try done; rewrite ?N.ltb_lt; try lia; eauto.
Qed.
Lemma str_lt_irrefl s : str_lt s s = false.
Proof. induction s as [|a s IH]; cbn [str_lt]; [done|]. by rewrite decide_True. Qed.
Lemma str_lt_total s t : s <> t -> str_lt s t = false -> str_lt t s = true.
Proof.
  revert t. induction s as [|a s IH]; intros [|b t]; cbn [str_lt]; try done.
  intros Hne. destruct (decide (a = b)) as [->|E].
  - rewrite decide_True by done. apply IH. congruence.
  - rewrite decide_False by done. rewrite N.ltb_ge, N.ltb_lt. intros H.
    assert (N_of_ascii a <> N_of_ascii b); [|lia].
    intros HN. apply E. rewrite <- (ascii_N_embedding a), <- (ascii_N_embedding b). by rewrite HN.
Qed.

(** ** Sorting *)
Section sorting.
Context {V : Type}.
Implicit Types m : list (string * V).
Lemma insert_member_perm k (v : V) m : insert_member k v m ≡ₚ (k, v) :: m.
Proof.
  induction m as [|[k' v'] m IH]; cbn [insert_member]; [done|].
  destruct (str_lt k k'); [done|]. rewrite IH. apply perm_swap.
Qed.
Lemma sort_members_perm m : sort_members m ≡ₚ m.
Proof. induction m as [|[k v] m IH]; cbn; [done|]. by rewrite insert_member_perm, IH. Qed.
Definition key_lt (a b : string * V) : Prop := str_lt (fst a) (fst b) = true.
Lemma insert_member_sorted k (v : V) m : k ∉ akeys m -> StronglySorted key_lt m -> StronglySorted key_lt (insert_member k v m).
Proof.
  intros Hk HS. induction HS as [|[k' v'] m HS IH HF]; cbn [insert_member]; [repeat constructor|].
  destruct (str_lt k k') eqn:E.
  - constructor; [by constructor|]. constructor; [done|]. eapply Forall_impl; [exact HF|].
    intros [k2 v2] H. unfold key_lt in *. cbn [fst] in *. by eapply str_lt_trans.
  - assert (Hk' : k <> k') by (intros ->; apply Hk; set_solver).
    constructor; [apply IH; set_solver|]. rewrite insert_member_perm. constructor; [|done].
    unfold key_lt. cbn [fst]. by apply str_lt_total.
Qed.
Lemma sort_members_sorted m : NoDup (akeys m) -> StronglySorted key_lt (sort_members m).
Proof.
  induction m as [|[k v] m IH]; [constructor|]. unfold akeys. cbn [map]. rewrite NoDup_cons. intros [H1 H2].
  change (sort_members ((k, v) :: m)) with (insert_member k v (sort_members m)).
  apply insert_member_sorted; [|by apply IH]. intros H. apply H1. unfold akeys in *. by rewrite <- (sort_members_perm m).
Qed.
#[global] Instance key_lt_antisymm : AntiSymm (=) key_lt.
Proof.
  intros [k v] [k' v'] H1 H2. unfold key_lt in *. cbn [fst] in *.
  pose proof (str_lt_trans _ _ _ H1 H2) as H. by rewrite str_lt_irrefl in H.
Qed.
Lemma sort_members_eq m m' : NoDup (akeys m) -> m ≡ₚ m' -> sort_members m = sort_members m'.
Proof.
  intros HN HP. apply (StronglySorted_unique key_lt).
  - by apply sort_members_sorted.
  - apply sort_members_sorted. unfold akeys in *. by rewrite <- HP.
  - by rewrite !sort_members_perm.
Qed.
Lemma sort_members_id m : StronglySorted key_lt m -> sort_members m = m.
Proof.
  intros HS. apply (StronglySorted_unique key_lt); [|done|apply sort_members_perm].
  apply sort_members_sorted. induction HS as [|[k v] m HS IH HF]; [constructor|].
  unfold akeys in *. cbn [map]. constructor; [|done]. intros Hin. apply elem_of_list_fmap in Hin as ([k' v'] & E & Hin).
  rewrite Forall_forall in HF. specialize (HF _ Hin). unfold key_lt in HF. cbn in HF, E. subst k'.
  by rewrite str_lt_irrefl in HF.
Qed.
End sorting.
Lemma sort_members_map {V W} (f : V -> W) (m : list (string * V)) :
  sort_members (map (fun kv => (fst kv, f (snd kv))) m) = map (fun kv => (fst kv, f (snd kv))) (sort_members m).
Proof.
  assert (HI : forall k v (m : list (string * V)), insert_member k (f v) (map (fun kv => (fst kv, f (snd kv))) m)
     = map (fun kv => (fst kv, f (snd kv))) (insert_member k v m)).
  { clear. intros k v m. induction m as [|[k' v'] m IH]; [done|]. cbn. destruct (str_lt k k'); cbn; [done|]. by f_equal. }
  induction m as [|[k v] m IH]; [done|].
  change (sort_members ((k, v) :: m)) with (insert_member k v (sort_members m)). rewrite <- HI, <- IH. done.
Qed.
Lemma akeys_map {V W} (f : V -> W) (m : list (string * V)) : akeys (map (fun kv => (fst kv, f (snd kv))) m) = akeys m.
Proof. unfold akeys. rewrite map_map. done. Qed.

(** ** Documents that are the same are written the same *)
Lemma same_doc_members {A} (f : tson -> A) m m' :
  Forall2 (fun a b : string * tson => fst a = fst b ∧ same_doc (snd a) (snd b)) m m' ->
  Forall (fun kv => forall t', same_doc (snd kv) t' -> wf (snd kv) -> f (snd kv) = f t') m ->
  Forall (fun kv => wf (snd kv)) m ->
  map (fun kv => (fst kv, f (snd kv))) m = map (fun kv => (fst kv, f (snd kv))) m'.
Proof.
  induction 1 as [|[k v] [k' v'] m m' [E Hs] _ IH]; intros HI HW; [done|]. cbn in *.
  inversion HI; subst. inversion HW; subst. cbn in *. f_equal; [|auto]. f_equal. auto.
Qed.
Lemma written_same t : forall t', same_doc t t' -> wf t -> json_written t = json_written t'.
Proof.
  induction t as [|p ts|m IH|l IH] using tson_ind'; intros t' H HW;
    inversion H as [| |? ? HF|? m1 m2 HP HF]; subst; try done.
  - cbn [json_written]. f_equal.
    inversion HW as [| |? HN HWm|]; subst.
    rewrite (sort_members_eq _ (map (fun kv => (fst kv, json_written (snd kv))) m1)).
    + f_equal. apply same_doc_members; [done|by rewrite <- HP|by rewrite <- HP].
    + by rewrite akeys_map.
    + by rewrite HP.
  - cbn [json_written]. f_equal. inversion HW as [| | |? HWl]; subst. clear H HW.
    induction HF as [|v v' l l' Hv HF IHF]; [done|]. inversion IH; subst. inversion HWl; subst. cbn. f_equal; auto.
Qed.
Lemma encodable_finite t : encodable t = true <-> finite_nums t.
Proof.
  induction t as [|p ts|m IH|l IH] using tson_ind'; cbn [encodable].
  - split; [constructor|done].
  - destruct p as [s|f|b]; cbn [prim_encodable]; [split; [constructor|done]| |split; [constructor|done]].
    split.
    + intros H. constructor; destruct f; done.
    + inversion 1 as [| | |? ? H1 H2| |]; subst. destruct f as [s|s| |s m e]; try done. by destruct (H2 s).
  - rewrite forallb_forall. split.
    + intros H. constructor. apply Forall_forall. intros x Hx. rewrite Forall_forall in IH.
      apply IH; [done|]. apply H. by apply elem_of_list_In.
    + inversion 1 as [| | | |? HF|]; subst. intros x Hx%elem_of_list_In. rewrite Forall_forall in IH, HF. apply IH; auto.
  - rewrite forallb_forall. split.
    + intros H. constructor. apply Forall_forall. intros x Hx. rewrite Forall_forall in IH.
      apply IH; [done|]. apply H. by apply elem_of_list_In.
    + inversion 1 as [| | | | |? HF]; subst. intros x Hx%elem_of_list_In. rewrite Forall_forall in IH, HF. apply IH; auto.
Qed.

(** ** The written text stands for the document, and only for it *)
Lemma written_stands t : wf t -> stands_for (json_written t) t.
Proof.
  induction t as [|p ts|m IH|l IH] using tson_ind'; intros HW; cbn [json_written].
  - constructor.
  - destruct p; by constructor.
  - inversion HW as [| |? HN HWm|]; subst. eapply sf_obj; [apply sort_members_perm|]. clear HN HW.
    induction IH as [|[k v] m Hv _ IHm]; [constructor|]. inversion HWm; subst. constructor; [|auto]. cbn in *. auto.
  - inversion HW as [| | |? HWl]; subst. constructor. clear HW.
    induction IH as [|v l Hv _ IHl]; [constructor|]. inversion HWl; subst. constructor; auto.
Qed.
Lemma leaf_not_object (x : wjson) ts ws ws' (m : list (string * tson)) :
  ws ≡ₚ [("value", x); ("timestamp", WInt ts)] -> ws ≡ₚ ws' ->
  Forall2 (fun a b => fst a = fst b ∧ stands_for (snd a) (snd b)) ws' m -> False.
Proof.
  intros H1 H2 HF. assert (Hin : ("timestamp", WInt ts) ∈ ws') by (rewrite <- H2, H1; set_solver).
  apply elem_of_list_lookup in Hin as [i Hi]. destruct (Forall2_lookup_l _ _ _ _ _ HF Hi) as (u & _ & _ & Hu).
  inversion Hu.
Qed.
Lemma leaf_members (x y : wjson) ts ts' ws :
  ws ≡ₚ [("value", x); ("timestamp", WInt ts)] -> ws ≡ₚ [("value", y); ("timestamp", WInt ts')] -> x = y ∧ ts = ts'.
Proof. intros H H'. rewrite H in H'. apply Permutation_length_2_inv in H'. by destruct H' as [[= -> ->]|[=]]. Qed.
(** Induction on written JSON. *)
Section wind.
Context (P : wjson -> Prop).
Context (Hnull : P WNull) (Hbool : forall b, P (WBool b)) (Hnum : forall f, P (WNum f))
  (Hint : forall z, P (WInt z)) (Hstr : forall s, P (WStr s))
  (Harr : forall l, Forall P l -> P (WArr l)) (Hobj : forall m, Forall (fun kv => P (snd kv)) m -> P (WObj m)).
Fixpoint wjson_ind' (w : wjson) : P w :=
  match w with
  | WNull => Hnull
  | WBool b => Hbool b
  | WNum f => Hnum f
  | WInt z => Hint z
  | WStr s => Hstr s
  | WArr l => Harr l ((fix go (l : list wjson) : Forall P l :=
      match l with [] => Forall_nil_2 _ | x :: l' => Forall_cons_2 _ _ _ (wjson_ind' x) (go l') end) l)
  | WObj m => Hobj m ((fix go (m : list (string * wjson)) : Forall (fun kv => P (snd kv)) m :=
      match m with [] => Forall_nil_2 _ | x :: m' => Forall_cons_2 _ _ _ (wjson_ind' (snd x)) (go m') end) m)
  end.
End wind.
Lemma Forall2_compose {A B C} (R : A -> B -> Prop) (S : A -> C -> Prop) (T : B -> C -> Prop) l k k' :
  Forall2 R l k -> Forall2 S l k' -> Forall (fun a => forall b c, R a b -> S a c -> T b c) l -> Forall2 T k k'.
Proof.
  intros HR. revert k'. induction HR as [|a b l k Hab HR IH]; intros k' HS HF; inversion HS; subst; [constructor|].
  inversion HF; subst. constructor; auto.
Qed.
Lemma stands_for_fun w : forall t t', stands_for w t -> stands_for w t' -> same_doc t t'.
Proof.
  induction w as [|b|f|z|s|l IH|m IH] using wjson_ind'; intros t t' H H';
    inversion H as [|? s1 ts HP|? f1 ts HP|? b1 ts HP|? l1 HF|? ws1 m1 HP HF]; subst;
    inversion H' as [|? s2 ts2 HP2|? f2 ts2 HP2|? b2 ts2 HP2|? l2 HF2|? ws2 m2 HP2 HF2]; subst;
    try (exfalso; exact (leaf_not_object _ _ _ _ _ HP2 HP HF)); try (exfalso; exact (leaf_not_object _ _ _ _ _ HP HP2 HF2));
    try (destruct (leaf_members _ _ _ _ _ HP HP2) as [E Ets]; simplify_eq; constructor).
  - constructor.
  - constructor. eapply Forall2_compose; [done..|]. exact IH.
  - assert (HPP : ws1 ≡ₚ ws2) by (by rewrite <- HP, HP2).
    destruct (Forall2_perm_r _ _ _ _ HF HPP) as (k & Hk & HFk).
    apply (sd_obj _ k); [done|]. eapply Forall2_compose; [exact HFk|exact HF2|].
    rewrite <- HP2. eapply Forall_impl; [exact IH|].
    cbn. intros a Ha b c [E1 S1] [E2 S2]. split; [congruence|auto].
Qed.

Lemma written_iff a b : wf a -> wf b -> json_written a = json_written b <-> same_doc a b.
Proof.
  intros Ha Hb. split; [|intros H; by apply written_same].
  intros E. eapply stands_for_fun; [by apply written_stands|]. rewrite E. by apply written_stands.
Qed.
Lemma finite_same t t' : same_doc t t' -> finite_nums t -> finite_nums t'.
Proof.
  revert t'. induction t as [|p ts|m IH|l IH] using tson_ind'; intros t' H HF; inversion H as [| |? l' H2|? m1 m2 HP H2]; subst; try done.
  - inversion HF as [| | | |? HFm|]; subst. constructor. rewrite HP in HFm, IH. clear HP H HF.
    induction H2 as [|a b m1 m2 [E Hab] _ IH2]; [constructor|]. inversion IH; subst. inversion HFm; subst. constructor; auto.
  - inversion HF as [| | | | |? HFl]; subst. constructor. clear H HF.
    induction H2 as [|a b m1 m2 Hab _ IH2]; [constructor|]. inversion IH; subst. inversion HFl; subst. constructor; auto.
Qed.
Lemma bytes_canonical a b w : wf a -> wf b -> to_bytes a = Ok w -> to_bytes b = Ok w <-> same_doc a b.
Proof.
  intros Ha Hb. unfold to_bytes. destruct (encodable a) eqn:Ea; [|done]. intros [= <-]. split.
  - destruct (encodable b) eqn:Eb; [|done]. intros [= E]. by apply written_iff.
  - intros H. rewrite (proj2 (encodable_finite b)).
    + f_equal. symmetry. by apply written_iff.
    + eapply finite_same; [done|]. by apply encodable_finite.
Qed.
Lemma bytes_ok t w : wf t -> to_bytes t = Ok w -> finite_nums t ∧ stands_for w t.
Proof.
  intros HW. unfold to_bytes. destruct (encodable t) eqn:E; [|done]. intros [= <-].
  split; [by apply encodable_finite|by apply written_stands].
Qed.
Lemma bytes_succeed t : (exists w, to_bytes t = Ok w) <-> finite_nums t.
Proof.
  rewrite <- encodable_finite. unfold to_bytes. destruct (encodable t); [|by split; [intros [? ?]|]].
  split; [done|]. intros _. by eexists.
Qed.
Lemma bytes_no_panic t : to_bytes t <> Panic.
Proof. unfold to_bytes. by destruct (encodable t). Qed.

(** Decoding gives the data of [ToCompatibleTson]. *)
Lemma stands_decoded w t : stands_for w t -> same_json (unmarshal_any w) (compat_image t).
Proof.
  revert t. induction w as [|b|f|z|s|l IH|m IH] using wjson_ind'; intros t H;
    inversion H as [|? s' ts HP|? f' ts HP|? b' ts HP|? l' HF|? ws' m' HP HF]; subst; cbn [unmarshal_any compat_image].
  - constructor.
  - constructor. clear H. induction HF as [|a b l l' Hab _ IHF]; [constructor|]. inversion IH; subst. constructor; auto.
  - eapply sj_obj; [apply Permutation_map; exact HP|]. cbn. repeat constructor.
  - eapply sj_obj; [apply Permutation_map; exact HP|]. cbn. repeat constructor.
  - eapply sj_obj; [apply Permutation_map; exact HP|]. cbn. repeat constructor.
  - eapply sj_obj; [apply Permutation_map; exact HP|]. rewrite HP in IH. clear H HP.
    induction HF as [|a b l l' [E Hab] _ IHF]; [constructor|]. inversion IH; subst. constructor; [split; [done|cbn; auto]|auto].
Qed.
Lemma bytes_decoded t w : wf t -> to_bytes t = Ok w ->
  exists j, to_compatible t = Ok j ∧ same_json (unmarshal_any w) j.
Proof.
  intros HW H. destruct (bytes_ok _ _ HW H) as [_ HS]. unfold to_bytes in H. unfold to_compatible.
  destruct (encodable t); [|done]. eexists. split; [done|]. by apply stands_decoded.
Qed.

(** ** The sorted variant *)
Fixpoint si_members (m : list (string * tson)) : res (list (string * wjson)) :=
  match m with
  | [] => Ok []
  | (k, v) :: m' => do c <- sorted_interface v; do cs <- si_members m'; Ok ((k, c) :: cs)
  end.
Fixpoint si_elems (l : list tson) : res (list wjson) :=
  match l with
  | [] => Ok []
  | v :: l' => do c <- sorted_interface v; do cs <- si_elems l'; Ok (c :: cs)
  end.
Lemma si_obj m : sorted_interface (TObj m) = do ms <- si_members m; Ok (WObj (sort_members ms)).
Proof. reflexivity. Qed.
Lemma si_arr l : sorted_interface (TArr l) = do ls <- si_elems l; Ok (WArr ls).
Proof. reflexivity. Qed.
Lemma si_cases t : wf t -> match sorted_interface t with
  | Ok w => null_free t ∧ stands_for w t ∧ (any_encodable w = true <-> finite_nums t)
  | Err => ~ null_free t
  | Panic => False
  end.
Proof.
  induction t as [|p ts|m IH|l IH] using tson_ind'; intros HW.
  - cbn. inversion 1.
  - cbn [sorted_interface]. split; [constructor|]. split; [destruct p; by constructor|].
    rewrite <- encodable_finite. cbn. destruct p; cbn; rewrite ?andb_true_r; done.
  - rewrite si_obj. inversion HW as [| |? HN HWm|]; subst. clear HW HN.
    assert (H : match si_members m with
      | Ok ms => Forall (fun kv => null_free (snd kv)) m
          ∧ Forall2 (fun a b => fst a = fst b ∧ stands_for (snd a) (snd b)) ms m
          ∧ (Forall (fun kv => any_encodable (snd kv) = true) ms <-> Forall (fun kv => finite_nums (snd kv)) m)
      | Err => ~ Forall (fun kv => null_free (snd kv)) m
      | Panic => False end).
    { induction IH as [|[k v] m Hv _ IHm]; cbn [si_members].
      { split; [constructor|]. split; [constructor|]. split; constructor. }
      inversion HWm as [|? ? W1 W2]; subst. cbn [snd] in *. specialize (Hv W1). specialize (IHm W2).
      destruct (sorted_interface v) as [c| |]; cbn [rbind]; [|by inversion 1|done].
      destruct (si_members m) as [cs| |]; cbn [rbind]; [|by inversion 1|done].
      destruct Hv as (A1 & A2 & A3), IHm as (B1 & B2 & B3).
      split; [by constructor|]. split; [by constructor|]. rewrite !Forall_cons. cbn [snd]. by rewrite A3, B3. }
    destruct (si_members m) as [ms| |]; cbn [rbind]; [|by inversion 1|done].
    destruct H as (A1 & A2 & A3). split; [by constructor|]. split; [eapply sf_obj; [apply sort_members_perm|done]|].
    cbn [any_encodable]. rewrite forallb_forall. split.
    + intros H. constructor. apply A3. apply Forall_forall. intros x Hx. apply H.
      apply elem_of_list_In. by rewrite sort_members_perm.
    + inversion 1 as [| | | |? HF|]; subst. apply A3 in HF. intros x Hx%elem_of_list_In.
      rewrite sort_members_perm in Hx. rewrite Forall_forall in HF. by apply HF.
  - rewrite si_arr. inversion HW as [| | |? HWl]; subst. clear HW.
    assert (H : match si_elems l with
      | Ok ms => Forall null_free l ∧ Forall2 stands_for ms l
          ∧ (Forall (fun v => any_encodable v = true) ms <-> Forall finite_nums l)
      | Err => ~ Forall null_free l
      | Panic => False end).
    { induction IH as [|v l Hv _ IHm]; cbn [si_elems].
      { split; [constructor|]. split; [constructor|]. split; constructor. }
      inversion HWl as [|? ? W1 W2]; subst. cbn [snd] in *. specialize (Hv W1). specialize (IHm W2).
      destruct (sorted_interface v) as [c| |]; cbn [rbind]; [|by inversion 1|done].
      destruct (si_elems l) as [cs| |]; cbn [rbind]; [|by inversion 1|done].
      destruct Hv as (A1 & A2 & A3), IHm as (B1 & B2 & B3).
      split; [by constructor|]. split; [by constructor|]. rewrite !Forall_cons. by rewrite A3, B3. }
    destruct (si_elems l) as [ms| |]; cbn [rbind]; [|by inversion 1|done].
    destruct H as (A1 & A2 & A3). split; [by constructor|]. split; [by constructor|].
    cbn [any_encodable]. rewrite forallb_forall. split.
    + intros H. constructor. apply A3. apply Forall_forall. intros x Hx. apply H. by apply elem_of_list_In.
    + inversion 1 as [| | | | |? HF]; subst. apply A3 in HF. intros x Hx%elem_of_list_In.
      rewrite Forall_forall in HF. by apply HF.
Qed.
Lemma stands_write w t : stands_for w t -> stands_for (write_any w) t.
Proof.
  revert t. induction w as [|b|f|z|s|l IH|m IH] using wjson_ind'; intros t H;
    inversion H as [|? s' ts HP|? f' ts HP|? b' ts HP|? l' HF|? ws' m' HP HF]; subst; cbn [write_any].
  - constructor.
  - constructor. clear H. induction HF as [|a b l l' Hab _ IHF]; [constructor|]. inversion IH; subst. constructor; auto.
  - constructor. by rewrite sort_members_perm, HP.
  - constructor. by rewrite sort_members_perm, HP.
  - constructor. by rewrite sort_members_perm, HP.
  - eapply sf_obj; [etrans; [apply sort_members_perm|apply Permutation_map; exact HP]|]. rewrite HP in IH. clear H HP.
    induction HF as [|a b l l' [E Hab] _ IHF]; [constructor|]. inversion IH; subst. constructor; [split; [done|cbn; auto]|auto].
Qed.
Lemma sorted_keys_of {V} (m : list (string * V)) : NoDup (akeys m) -> StronglySorted before (map fst (sort_members m)).
Proof.
  intros HN. pose proof (sort_members_sorted m HN) as HS. induction HS as [|a l HS IH HF]; cbn; constructor; [done|].
  rewrite Forall_map. eapply Forall_impl; [exact HF|]. intros b H. by apply str_lt_spec.
Qed.
Lemma written_laid_out t : wf t -> laid_out (json_written t) t.
Proof.
  intros HW0. pose proof (written_stands t HW0) as HS. revert HW0 HS.
  induction t as [|p ts|m IH|l IH] using tson_ind'; intros HW HS; cbn [json_written] in *.
  - constructor.
  - by constructor.
  - inversion HW as [| |? HN HWm|]; subst. clear HS. eapply lo_obj; [|apply sort_members_perm|].
    + apply sorted_keys_of. by rewrite akeys_map.
    + clear HN HW. induction IH as [|[k v] m Hv _ IHm]; [constructor|]. inversion HWm; subst. constructor; [|auto]. cbn in *.
      split; [done|]. apply Hv; [done|]. by apply written_stands.
  - inversion HW as [| | |? HWl]; subst. clear HS. constructor. clear HW.
    induction IH as [|v l Hv _ IHl]; [constructor|]. inversion HWl; subst. constructor; [|auto]. apply Hv; [done|]. by apply written_stands.
Qed.
Lemma bytes_laid_out t w : wf t -> to_bytes t = Ok w -> laid_out w t.
Proof. unfold to_bytes. destruct (encodable t); [|done]. intros HW [= <-]. by apply written_laid_out. Qed.
Lemma stands_keys ws m : Forall2 (fun a b => fst a = fst b ∧ stands_for (snd a) (snd b)) ws m -> akeys ws = akeys (m : list (string * tson)).
Proof. unfold akeys. induction 1 as [|a b ws m [E _] _ IH]; [done|]. cbn. by f_equal. Qed.
Lemma leaf_keys (x : wjson) ts ws : ws ≡ₚ [("value", x); ("timestamp", WInt ts)] -> NoDup (akeys ws).
Proof. intros H. unfold akeys. rewrite H. cbn. repeat constructor; set_solver. Qed.
Lemma leaf_ordered (x : wjson) ts ws : ordered (write_any x) -> ws ≡ₚ [("value", x); ("timestamp", WInt ts)] ->
  ordered (WObj (sort_members (map (fun kv => (fst kv, write_any (snd kv))) ws))).
Proof.
  intros Hx HP. constructor.
  - apply sorted_keys_of. rewrite akeys_map. by eapply leaf_keys.
  - rewrite sort_members_perm, HP. cbn. repeat constructor; done.
Qed.
Lemma write_ordered w t : wf t -> stands_for w t -> ordered (write_any w).
Proof.
  revert t. induction w as [|b|f|z|s|l IH|m IH] using wjson_ind'; intros t HW H;
    inversion H as [|? s' ts HP|? f' ts HP|? b' ts HP|? l' HF|? ws' m' HP HF]; subst; cbn [write_any].
  - constructor.
  - constructor. inversion HW as [| | |? HWl]; subst. clear H HW.
    induction HF as [|a b l l' Hab _ IHF]; [constructor|]. inversion IH; subst. inversion HWl; subst. constructor; eauto.
  - eapply leaf_ordered; [|exact HP]. constructor.
  - eapply leaf_ordered; [|exact HP]. constructor.
  - eapply leaf_ordered; [|exact HP]. constructor.
  - inversion HW as [| |? HN HWm|]; subst. constructor.
    + apply sorted_keys_of. rewrite akeys_map. unfold akeys. rewrite HP. change (NoDup (akeys ws')). by rewrite (stands_keys _ _ HF).
    + rewrite sort_members_perm, Forall_map. rewrite HP in *. clear HP H HN HW.
      induction HF as [|a b l l' [E Hab] _ IHF]; [constructor|]. inversion IH; subst. inversion HWm; subst. constructor; [|auto].
      cbn. eauto.
Qed.
(** Two ordered texts for one document are equal. *)
Lemma perm_ordered (m m' : list (string * wjson)) :
  StronglySorted before (map fst m) -> StronglySorted before (map fst m') -> m ≡ₚ m' -> m = m'.
Proof.
  assert (HK : forall m : list (string * wjson), StronglySorted before (map fst m) -> StronglySorted key_lt m).
  { clear. induction m as [|a m IH]; cbn; intros H; [constructor|]. inversion H as [|? ? H1 H2]; subst. constructor; [auto|].
    rewrite Forall_map in H2. eapply Forall_impl; [exact H2|]. intros b Hb. by apply str_lt_spec. }
  intros H1 H2 HP. apply (StronglySorted_unique key_lt); auto.
Qed.
Lemma ordered_unique w : forall w' t t', ordered w -> ordered w' -> stands_for w t -> stands_for w' t' -> same_doc t t' -> w = w'.
Proof.
  induction w as [|b|f|z|s|l IH|m IH] using wjson_ind'; intros w' t t' O O' H H' HS;
    inversion H as [|? s1 ts HP|? f1 ts HP|? b1 ts HP|? l1 HF|? ws1 m1 HP HF]; subst;
    inversion HS as [| |? l3 HL|? m2 m3 HM HL]; subst;
    inversion H' as [|m' s2 ts2 HP2|m' f2 ts2 HP2|m' b2 ts2 HP2|lw l2 HF2|m' ws2 m4 HP2 HF2]; subst;
    try (f_equal; inversion O; inversion O'; subst; apply perm_ordered; [done|done|by rewrite HP, HP2]).
  - done.
  - f_equal. inversion O as [| | | | |? OF|]; inversion O' as [| | | | |? OF'|]; subst. clear H H' HS O O'.
    revert l3 lw HL HF2 OF'. induction HF as [|a b l l1 Hab _ IHF]; intros l3 lw HL HF2 OF'; inversion HL; subst; inversion HF2; subst; [done|].
    inversion IH; subst. inversion OF; subst. inversion OF'; subst. f_equal; eauto.
  - f_equal. inversion O as [| | | | | |? OS OF]; inversion O' as [| | | | | |? OS' OF']; subst.
    apply perm_ordered; [done|done|]. rewrite HP, HP2.
    destruct (Forall2_perm_l _ _ _ _ HF HM) as (k & Hk & HFk). rewrite Hk.
    assert (IHk : Forall (fun kv : string * wjson => forall w' t t', ordered (snd kv) -> ordered w' ->
      stands_for (snd kv) t -> stands_for w' t' -> same_doc t t' -> snd kv = w') k) by (by rewrite <- Hk, <- HP).
    assert (OFk : Forall (fun kv => ordered (snd kv)) k) by (by rewrite <- Hk, <- HP).
    assert (OF2 : Forall (fun kv => ordered (snd kv)) ws2) by (by rewrite <- HP2).
    enough (k = ws2) as -> by done. clear - HFk HL HF2 IHk OFk OF2.
    revert ws2 m3 HL HF2 OF2. induction HFk as [|[k1 v1] [k2 v2] k m2 [E Hab] _ IHF]; intros ws2 m3 HL HF2 OF2.
    + inversion HL; subst. by inversion HF2.
    + inversion HL as [|? [k3 v3] ? ? [E3 S3]]; subst. inversion HF2 as [|[k4 v4] ? ? ? [E4 S4]]; subst. cbn in *. subst.
      inversion IHk; subst. inversion OFk; subst. inversion OF2; subst. cbn in *. f_equal; [f_equal|]; eauto.
Qed.
Lemma sorted_result t w : wf t -> to_bytes_sorted t = Ok w -> null_free t ∧ finite_nums t ∧ stands_for w t ∧ ordered w.
Proof.
  intros HW. pose proof (si_cases t HW) as H. unfold to_bytes_sorted.
  destruct (sorted_interface t) as [v| |]; cbn [rbind]; [|done|done]. destruct H as (A1 & A2 & A3).
  destruct (any_encodable v) eqn:E; [|done]. intros [= <-].
  split; [done|]. split; [by apply A3|]. split; [by apply stands_write|by eapply write_ordered].
Qed.
Lemma sorted_succeeds t : wf t -> (exists w, to_bytes_sorted t = Ok w) <-> null_free t ∧ finite_nums t.
Proof.
  intros HW. split.
  - intros [w H]. apply sorted_result in H; [|done]. tauto.
  - intros [HN HF]. pose proof (si_cases t HW) as H. unfold to_bytes_sorted.
    destruct (sorted_interface t) as [v| |]; cbn [rbind]; [|done|done]. destruct H as (A1 & A2 & A3).
    rewrite (proj2 A3 HF). by eexists.
Qed.
Lemma sorted_no_panic t : wf t -> to_bytes_sorted t <> Panic.
Proof.
  intros HW. pose proof (si_cases t HW) as H. unfold to_bytes_sorted.
  destruct (sorted_interface t) as [v| |]; cbn [rbind]; [|done|done]. by destruct (any_encodable v).
Qed.

Lemma null_free_same t t' : same_doc t t' -> null_free t -> null_free t'.
Proof.
  revert t'. induction t as [|p ts|m IH|l IH] using tson_ind'; intros t' H HF; inversion H as [| |? l' H2|? m1 m2 HP H2]; subst; try done.
  - inversion HF as [|? HFm|]; subst. constructor. rewrite HP in HFm, IH. clear HP H HF.
    induction H2 as [|a b m1 m2 [E Hab] _ IH2]; [constructor|]. inversion IH; subst. inversion HFm; subst. constructor; auto.
  - inversion HF as [| |? HFl]; subst. constructor. clear H HF.
    induction H2 as [|a b m1 m2 Hab _ IH2]; [constructor|]. inversion IH; subst. inversion HFl; subst. constructor; auto.
Qed.
Lemma sorted_canonical a b w : wf a -> wf b -> to_bytes_sorted a = Ok w -> to_bytes_sorted b = Ok w <-> same_doc a b.
Proof.
  intros Ha Hb E. destruct (sorted_result _ _ Ha E) as (N1 & F1 & S1 & O1). split.
  - intros E2. destruct (sorted_result _ _ Hb E2) as (_ & _ & S2 & _). by eapply stands_for_fun.
  - intros HS. destruct (proj2 (sorted_succeeds b Hb)) as [w' E2].
    + split; [by eapply null_free_same|by eapply finite_same].
    + rewrite E2. destruct (sorted_result _ _ Hb E2) as (_ & _ & S2 & O2). f_equal. symmetry. by eapply ordered_unique.
Qed.

(** ** parseValue *)
Fixpoint pv_members (m : list (string * json)) : res (list (string * tson)) :=
  match m with
  | [] => Ok []
  | (k, v) :: m' => do t <- parse_value v; do ts <- pv_members m'; Ok ((k, t) :: ts)
  end.
Fixpoint pv_elems (l : list json) : res (list tson) :=
  match l with
  | [] => Ok []
  | v :: l' => do t <- parse_value v; do ts <- pv_elems l'; Ok (t :: ts)
  end.
Lemma pv_obj m : parse_value (JObj m) =
  match check_leaf m with
  | Some (JStr s, ts) => Ok (TLeaf (PStr s) ts)
  | Some (JNum f, ts) => Ok (TLeaf (PNum f) ts)
  | Some (JBool b, ts) => Ok (TLeaf (PBool b) ts)
  | Some (_, _) => Err
  | None => do ms <- pv_members m; Ok (TObj ms)
  end.
Proof. reflexivity. Qed.
Lemma pv_arr l : parse_value (JArr l) = do ls <- pv_elems l; Ok (TArr ls).
Proof. reflexivity. Qed.
Lemma pv_total j : parse_value j <> Panic.
Proof.
  induction j as [|b|f|s|l IH|m IH] using json_ind'; try done.
  - rewrite pv_arr. assert (H : pv_elems l <> Panic).
    { induction IH as [|v l Hv _ IHl]; cbn [pv_elems]; [done|]. destruct (parse_value v); try done. by destruct (pv_elems l). }
    by destruct (pv_elems l).
  - rewrite pv_obj. destruct (check_leaf m) as [[[] ts]|]; try done. assert (H : pv_members m <> Panic).
    { induction IH as [|[k v] l Hv _ IHl]; cbn [pv_members]; [done|]. cbn [snd] in Hv.
      destruct (parse_value v); try done. by destruct (pv_members l). }
    by destruct (pv_members m).
Qed.
Lemma pv_spec j : forall t, parse_value j = Ok t <-> parses j t.
Proof.
  induction j as [|b|f|s|l IH|m IH] using json_ind'; intros t.
  - cbn. split; [intros [= <-]; constructor|by inversion 1].
  - cbn. by split; [|inversion 1].
  - cbn. by split; [|inversion 1].
  - cbn. by split; [|inversion 1].
  - rewrite pv_arr. assert (H : forall ls, pv_elems l = Ok ls <-> Forall2 parses l ls).
    { induction IH as [|v l Hv _ IHl]; intros ls; cbn [pv_elems].
      { split; [by intros [= <-]|by inversion 1]. }
      split.
      - destruct (parse_value v) as [u| |] eqn:E; try done. cbn [rbind]. destruct (pv_elems l) as [us| |]; try done.
        intros [= <-]. constructor; [by apply Hv|by apply IHl].
      - inversion 1 as [|? u ? us H1 H2]; subst. apply Hv in H1. apply IHl in H2. by rewrite H1, H2. }
    split.
    + destruct (pv_elems l) as [us| |]; try done. intros [= <-]. constructor. by apply H.
    + inversion 1 as [| | |? ? HF]; subst. apply H in HF. by rewrite HF.
  - rewrite pv_obj. assert (H : forall ls, pv_members m = Ok ls <-> Forall2 (fun a b => fst a = fst b ∧ parses (snd a) (snd b)) m ls).
    { induction IH as [|[k v] l Hv _ IHl]; intros ls; cbn [pv_members].
      { split; [by intros [= <-]|by inversion 1]. }
      cbn [snd] in Hv. split.
      - destruct (parse_value v) as [u| |] eqn:E; try done. cbn [rbind]. destruct (pv_members l) as [us| |]; try done.
        intros [= <-]. constructor; [split; [done|by apply Hv]|by apply IHl].
      - inversion 1 as [|? [k' u] ? us [E H1] H2]; subst. cbn in E, H1. subst k'. apply Hv in H1. apply IHl in H2. by rewrite H1, H2. }
    destruct (check_leaf m) as [[v ts]|] eqn:E.
    + assert (HL : forall p f z, leaf_shape m (json_of_prim p) f -> read_stamp f z -> v = json_of_prim p ∧ ts = z).
      { intros p f z H1 H2. apply check_leaf_shape in H1. apply read_stamp_spec in H2. rewrite H1 in E. by simplify_eq. }
      apply check_leaf_some in E as (f & Hs & Ht). split.
      * destruct v; try done; intros [= <-]; [by apply (ps_leaf m (PBool _) f)|by apply (ps_leaf m (PNum _) f)|by apply (ps_leaf m (PStr _) f)].
      * inversion 1 as [|? p f' ? H1 H2|? ? HN|]; subst; [|by destruct (HN _ _ Hs)].
        destruct (HL p f' ts0 H1 H2) as [-> ->]. by destruct p.
    + pose proof (proj1 (check_leaf_none m) E) as HN. split.
      * destruct (pv_members m) as [us| |]; try done. intros [= <-]. constructor; [done|]. by apply H.
      * inversion 1 as [|? p f' ? H1 H2|? ? _ HF|]; subst; [by destruct (HN _ _ H1)|]. apply H in HF. by rewrite HF.
Qed.
(** A non-null result that has no nil inside is what [FromCompatibleTson] reads. *)
Lemma parses_reads j : forall t, parses j t -> null_free t -> reads j t.
Proof.
  induction j as [|b|f|s|l IH|m IH] using json_ind'; intros t H HN; inversion H as [|? p f' ts H1 H2|? ms HL HF|? ls HF]; subst.
  - inversion HN.
  - constructor. inversion HN as [| |? HNl]; subst. clear H HN.
    induction HF as [|a b l ls Hab _ IHF]; [constructor|]. inversion IH; subst. inversion HNl; subst. constructor; auto.
  - by eapply rd_leaf.
  - constructor; [done|]. inversion HN as [|? HNm|]; subst. clear H HN HL.
    induction HF as [|a b l ls [E Hab] _ IHF]; [constructor|]. inversion IH; subst. inversion HNm; subst. constructor; auto.
Qed.
Lemma reads_parses j : forall t, reads j t -> null_free t -> parses j t.
Proof.
  induction j as [|b|f|s|l IH|m IH] using json_ind'; intros t H HN; inversion H as [? p f' ts H1 H2|? ? ? H1 H2|? ms HL HF|? ls HF]; subst.
  - constructor. inversion HN as [| |? HNl]; subst. clear H HN.
    induction HF as [|a b l ls Hab _ IHF]; [constructor|]. inversion IH; subst. inversion HNl; subst. constructor; auto.
  - by eapply ps_leaf.
  - inversion HN.
  - constructor; [done|]. inversion HN as [|? HNm|]; subst. clear H HN HL.
    induction HF as [|a b l ls [E Hab] _ IHF]; [constructor|]. inversion IH; subst. inversion HNm; subst. constructor; auto.
Qed.
Lemma pv_agrees j t : null_free t -> parse_value j = Ok t <-> from_compatible j = Ok t.
Proof.
  intros HN. rewrite pv_spec, from_compatible_reads. split; intros H; [by apply parses_reads|by apply reads_parses].
Qed.
