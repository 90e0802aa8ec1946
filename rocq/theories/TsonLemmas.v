(** Proofs about the document operations of [Tson.v]. *)
From Verif Require Import Base F64 Tson TsonInd BaseLemmas BaseSpec BaseSpecLemmas F64Lemmas TextSpec TsonSpec.
From Coq Require Import Lia.

Lemma nth_error_lookup {A} (l : list A) i : nth_error l i = l !! i.
Proof. revert i. induction l; intros [|i]; simpl; auto. Qed.

(** ** GetValue *)
Lemma get_parts_spec t ks :
  wf t -> ks ≠ [] ->
  (forall v, get_parts t ks = Ok v <-> node_at t ks v) ∧ get_parts t ks ≠ Panic.
Proof.
  revert t. induction ks as [|k ks IH]; intros t Hwf Hne; [done|].
  destruct t as [|p ts|m|l]; simpl.
  - split; [|done]. intros v. split; [done|]. inversion 1.
  - split; [|done]. intros v. split; [done|]. inversion 1.
  - inversion Hwf as [| |? HND HF|]; subst.
    destruct (alookup k m) as [v'|] eqn:E.
    + pose proof (alookup_Some_in _ _ _ E) as Hin.
      assert (Hv : wf v').
      { rewrite Forall_forall in HF. by apply (HF (k, v')). }
      assert (Hiff : forall v, node_at (TObj m) (k :: ks) v <-> node_at v' ks v).
      { intros v. split.
        - inversion 1 as [|? ? v2 ? ? Hin2|]; subst. apply (alookup_in _ _ _ HND) in Hin2. congruence.
        - intros. by eapply na_member. }
      destruct ks as [|k2 ks].
      * split; [|done]. intros v. rewrite Hiff. split; [intros [=->]; constructor|].
        by inversion 1.
      * destruct (IH v' Hv ltac:(done)) as [IH1 IH2]. split; [|done].
        intros v. by rewrite Hiff.
    + split; [|done]. intros v. split; [done|]. inversion 1 as [|? ? v2 ? ? Hin2|]; subst.
      apply (alookup_in _ _ _ HND) in Hin2. congruence.
  - inversion Hwf as [| | |? HF]; subst.
    destruct (parse_int k) as [z|] eqn:E.
    + destruct ((z <? 0) || (Z.of_nat (length l) <=? z)) eqn:B.
      * split; [|done]. intros v. split; [done|]. inversion 1 as [| |? ? i ? ? ? Hi Hl]; subst.
        apply parse_int_spec in Hi. rewrite E in Hi. injection Hi as ->. apply lookup_lt_Some in Hl.
        apply orb_true_iff in B as [B|B]; [apply Z.ltb_lt in B|apply Z.leb_le in B]; lia.
      * apply orb_false_iff in B as [B1 B2]. apply Z.ltb_ge in B1. apply Z.leb_gt in B2.
        destruct (nth_error l (Z.to_nat z)) as [v'|] eqn:N.
        2:{ apply nth_error_None in N. lia. }
        rewrite nth_error_lookup in N.
        assert (Hv : wf v'). { rewrite Forall_lookup in HF. eauto. }
        assert (Hiff : forall v, node_at (TArr l) (k :: ks) v <-> node_at v' ks v).
        { intros v. split.
          - inversion 1 as [| |? ? i v2 ? ? Hi Hl]; subst. apply parse_int_spec in Hi. rewrite E in Hi. injection Hi as ->.
            rewrite Nat2Z.id in N. congruence.
          - intros. eapply (na_element _ _ (Z.to_nat z)); eauto. apply parse_int_spec. rewrite E. f_equal. lia. }
        destruct ks as [|k2 ks].
        -- split; [|done]. intros v. rewrite Hiff. split; [intros [=->]; constructor|].
           by inversion 1.
        -- destruct (IH v' Hv ltac:(done)) as [IH1 IH2]. split; [|done].
           intros v. by rewrite Hiff.
    + split; [|done]. intros v. split; [done|]. inversion 1 as [| |? ? i ? ? ? Hi Hl]; subst.
      apply parse_int_spec in Hi. congruence.
Qed.

Lemma rfc_decode_encode_app k r : rfc_decode (escaped k +++ r) = k +++ rfc_decode r.
Proof.
  rewrite <- encode_escaped.
  induction k as [|a k IH]; [done|]. simpl. case_decide as H1.
  - subst. simpl. by rewrite IH.
  - case_decide as H2; [subst; simpl; by rewrite IH|].
    simpl. rewrite decide_False by done. by rewrite IH.
Qed.
Lemma split_on_app_gen c s s' : split_on c (s +++ String c s') = split_on c s ++ split_on c s'.
Proof.
  induction s as [|a s IH]; simpl; [by rewrite decide_True|].
  case_decide as H; [by rewrite IH|]. rewrite IH.
  pose proof (split_on_ne c s). by destruct (split_on c s).
Qed.
Lemma pointer_parts ks :
  ks ≠ [] -> split_on slash (rfc_decode (pointer ks)) = "" :: concat (map (split_on slash) ks).
Proof.
  induction ks as [|k ks IH]; [done|]. intros _. cbn [pointer map concat].
  change (rfc_decode ("/" +++ escaped k +++ pointer ks))
    with (String slash (rfc_decode (escaped k +++ pointer ks))).
  rewrite rfc_decode_encode_app. cbn [split_on]. rewrite decide_True by done. f_equal.
  destruct ks as [|k2 ks].
  - simpl. by rewrite sapp_nil_r, app_nil_r.
  - specialize (IH ltac:(done)).
    assert (E : exists r, rfc_decode (pointer (k2 :: ks)) = String slash r).
    { eexists. reflexivity. }
    destruct E as [r E]. rewrite E in IH |- *. rewrite split_on_app_gen. f_equal.
    cbn [split_on] in IH. rewrite decide_True in IH by done. by injection IH.
Qed.

Definition key_parts (ks : list string) : list string := concat (map (split_on slash) ks).
Lemma key_parts_ne ks : ks ≠ [] -> key_parts ks ≠ [].
Proof.
  destruct ks as [|k ks]; [done|]. intros _. unfold key_parts. simpl.
  pose proof (split_on_ne slash k). by destruct (split_on slash k).
Qed.
Lemma contains_slash_iff k : contains slash k = true <-> contains_slash k.
Proof.
  split.
  - induction k as [|a k IH]; [done|]. simpl. intros H. apply orb_true_iff in H as [H|H].
    + apply bool_decide_eq_true in H. subst. by exists "", k.
    + destruct (IH H) as (x & y & ->). by exists (String a x), y.
  - intros (x & y & ->). rewrite contains_app. cbn [contains]. rewrite bool_decide_eq_true_2 by done.
    cbn [orb]. by rewrite orb_true_r.
Qed.
Lemma no_slash_false k : ~ contains_slash k -> contains slash k = false.
Proof. rewrite <- contains_slash_iff. by destruct (contains slash k). Qed.
Lemma key_parts_plain ks : Forall (fun k => ~ contains_slash k) ks -> key_parts ks = ks.
Proof.
  induction 1 as [|k ks Hk _ IH]; [done|]. unfold key_parts in *. simpl.
  rewrite split_on_none by (by apply no_slash_false). simpl. by rewrite IH.
Qed.
Lemma get_value_pointer t ks : ks ≠ [] -> get_value t (pointer ks) = get_parts t (key_parts ks).
Proof. intros H. unfold get_value. by rewrite pointer_parts. Qed.

Lemma get_value_spec t ks :
  wf t -> ks ≠ [] -> Forall (fun k => ~ contains_slash k) ks ->
  (forall v, get_value t (pointer ks) = Ok v <-> node_at t ks v) ∧ get_value t (pointer ks) ≠ Panic.
Proof.
  intros Hwf Hne Hk. rewrite get_value_pointer by done. rewrite key_parts_plain by done.
  by apply get_parts_spec.
Qed.
Lemma split_parted k ps : parted k ps -> split_on slash k = ps.
Proof.
  intros (-> & Hne & HF). induction HF as [|p ps Hp HF IH]; [done|].
  assert (Hs : contains slash p = false) by (by apply no_slash_false).
  destruct ps as [|p2 ps].
  - cbn [String.concat]. by apply split_on_none.
  - change (String.concat "/" (p :: p2 :: ps)) with (p +++ String slash (String.concat "/" (p2 :: ps))).
    rewrite split_on_app by done. f_equal. by apply IH.
Qed.
Lemma get_value_split t ks qs :
  wf t -> ks ≠ [] -> Forall2 parted ks qs ->
  (forall v, get_value t (pointer ks) = Ok v <-> node_at t (concat qs) v)
  ∧ get_value t (pointer ks) ≠ Panic.
Proof.
  intros Hwf Hne HF. assert (E : concat qs = key_parts ks).
  { unfold key_parts. clear Hne. induction HF as [|k ps ks qs Hp HF IH]; [done|]. cbn [map concat].
    by rewrite (split_parted _ _ Hp), IH. }
  rewrite E, get_value_pointer by done. apply get_parts_spec; [done|].
  by apply key_parts_ne.
Qed.

Lemma split_on_no_sep c s w : w ∈ split_on c s -> contains c w = false.
Proof.
  revert w. induction s as [|a s IH]; intros w; simpl.
  - intros ->%elem_of_list_singleton. done.
  - case_decide as H.
    + intros [->|Hw]%elem_of_cons; [done|auto].
    + destruct (split_on c s) as [|x xs] eqn:E.
      * by apply split_on_ne in E.
      * intros [->|Hw]%elem_of_cons.
        -- simpl. rewrite bool_decide_eq_false_2 by done. apply IH. constructor.
        -- apply IH. by constructor.
Qed.
Lemma slash_key_lost k v : contains_slash k -> get_value (TObj [(k, v)]) (pointer [k]) = Err.
Proof.
  intros Hk. rewrite get_value_pointer by done. unfold key_parts. simpl. rewrite app_nil_r.
  destruct (split_on slash k) as [|x xs] eqn:E; [by apply split_on_ne in E|].
  simpl. rewrite decide_False; [done|]. intros ->.
  apply contains_slash_iff in Hk.
  rewrite (split_on_no_sep slash k k) in Hk; [done|]. rewrite E. constructor.
Qed.
Lemma no_slash_path_panics t p d :
  container t -> decoded p d -> ~ contains_slash d -> get_value t p = Panic.
Proof.
  intros Ht <-%decode_spec Hp. unfold get_value. rewrite split_on_none by (by apply no_slash_false).
  simpl. by destruct Ht as [[m ->]|[l ->]].
Qed.

(** ** GetLatestTimestamp *)
Fixpoint max_stamp (acc : Z) (l : list Z) : Z :=
  match l with [] => acc | z :: l' => max_stamp (if acc <? z then z else acc) l' end.

Lemma latest_obj m : latest_timestamp (TObj m) =
      (fix go (acc : Z) (m : list (string * tson)) : res Z :=
         match m with
         | [] => Ok acc
         | (_, v) :: m' => do ts <- latest_timestamp v; go (if acc <? ts then ts else acc) m'
         end) 0 m.
Proof. reflexivity. Qed.
Lemma latest_arr l : latest_timestamp (TArr l) =
      (fix go (acc : Z) (l : list tson) : res Z :=
         match l with
         | [] => Ok acc
         | v :: l' => do ts <- latest_timestamp v; go (if acc <? ts then ts else acc) l'
         end) 0 l.
Proof. reflexivity. Qed.

(** [z] is the greatest of [l], or 0 when nothing exceeds it. *)
Definition top_of (l : list Z) (z : Z) : Prop :=
  0 <= z ∧ Forall (fun x => x <= z) l ∧ (z = 0 ∨ z ∈ l).
Lemma top_unique l z z' : top_of l z -> top_of l z' -> z = z'.
Proof.
  intros (A & B & C) (A' & B' & C'). rewrite Forall_forall in B, B'.
  destruct C as [C|C], C' as [C'|C']; subst; try lia.
  - apply B in C'. lia.
  - apply B' in C. lia.
  - apply B in C'. apply B' in C. lia.
Qed.

(** What one child contributes. *)
Definition contributes (t : tson) (z : Z) : Prop :=
  latest_timestamp t = Ok z ∧ Forall (fun x => x <= z) (stamps t) ∧ (z ≤ 0 ∨ z ∈ stamps t).

Lemma latest_contributes t : null_free t -> exists z, contributes t z ∧ (container t -> top_of (stamps t) z).
Proof.
  induction t as [|p ts|m IH|l IH] using tson_ind'; intros HN.
  - inversion HN.
  - exists ts. split; [|by intros [[? ?]|[? ?]]]. split; [done|]. simpl. split.
    + repeat constructor; lia.
    + right. constructor.
  - inversion HN as [|? HF|]; subst.
    assert (G : forall acc, 0 <= acc -> exists z,
      (fix go (acc : Z) (m : list (string * tson)) : res Z :=
         match m with
         | [] => Ok acc
         | (_, v) :: m' => do ts <- latest_timestamp v; go (if acc <? ts then ts else acc) m'
         end) acc m = Ok z ∧ acc <= z ∧ Forall (fun x => x <= z) (stamps (TObj m))
         ∧ (z = acc ∨ z ∈ stamps (TObj m))).
    { clear HN. induction m as [|[k v] m IHm]; intros acc Ha.
      - exists acc. repeat split; auto; [lia|constructor].
      - inversion HF as [|? ? Hv HF']; inversion IH as [|? ? IHv IH']; subst. simpl in Hv, IHv.
        destruct (IHv Hv) as (zv & (Ev & Bv & Cv) & _). rewrite Ev. simpl.
        destruct (IHm IH' HF' (if acc <? zv then zv else acc)) as (z & E1 & E2 & E3 & E4).
        { destruct (acc <? zv) eqn:C; [apply Z.ltb_lt in C|]; lia. }
        exists z. split; [done|].
        assert (Hle : acc <= z ∧ zv <= z).
        { destruct (acc <? zv) eqn:C; [apply Z.ltb_lt in C|apply Z.ltb_ge in C]; lia. }
        split; [lia|]. simpl in E3, E4 |- *. split.
        + apply Forall_app. split; [|done]. eapply Forall_impl; [exact Bv|]. simpl. lia.
        + destruct E4 as [E4|E4]; [|right; set_solver].
          destruct (acc <? zv) eqn:C; [apply Z.ltb_lt in C|apply Z.ltb_ge in C]; [|by left].
          subst. destruct Cv as [Cv|Cv]; [lia|]. right. set_solver. }
    destruct (G 0 ltac:(lia)) as (z & E1 & E2 & E3 & E4). exists z. split.
    + split; [exact E1|]. split; [done|]. destruct E4; [left; lia|by right].
    + intros _. split; [lia|]. split; [done|]. destruct E4; [left; lia|by right].
  - inversion HN as [| |? HF]; subst.
    assert (G : forall acc, 0 <= acc -> exists z,
      (fix go (acc : Z) (l : list tson) : res Z :=
         match l with
         | [] => Ok acc
         | v :: l' => do ts <- latest_timestamp v; go (if acc <? ts then ts else acc) l'
         end) acc l = Ok z ∧ acc <= z ∧ Forall (fun x => x <= z) (stamps (TArr l))
         ∧ (z = acc ∨ z ∈ stamps (TArr l))).
    { clear HN. induction l as [|v l IHm]; intros acc Ha.
      - exists acc. repeat split; auto; [lia|constructor].
      - inversion HF as [|? ? Hv HF']; inversion IH as [|? ? IHv IH']; subst.
        destruct (IHv Hv) as (zv & (Ev & Bv & Cv) & _). rewrite Ev. simpl.
        destruct (IHm IH' HF' (if acc <? zv then zv else acc)) as (z & E1 & E2 & E3 & E4).
        { destruct (acc <? zv) eqn:C; [apply Z.ltb_lt in C|]; lia. }
        exists z. split; [done|].
        assert (Hle : acc <= z ∧ zv <= z).
        { destruct (acc <? zv) eqn:C; [apply Z.ltb_lt in C|apply Z.ltb_ge in C]; lia. }
        split; [lia|]. simpl in E3, E4 |- *. split.
        + apply Forall_app. split; [|done]. eapply Forall_impl; [exact Bv|]. simpl. lia.
        + destruct E4 as [E4|E4]; [|right; set_solver].
          destruct (acc <? zv) eqn:C; [apply Z.ltb_lt in C|apply Z.ltb_ge in C]; [|by left].
          subst. destruct Cv as [Cv|Cv]; [lia|]. right. set_solver. }
    destruct (G 0 ltac:(lia)) as (z & E1 & E2 & E3 & E4). exists z. split.
    + split; [exact E1|]. split; [done|]. destruct E4; [left; lia|by right].
    + intros _. split; [lia|]. split; [done|]. destruct E4; [left; lia|by right].
Qed.
Lemma latest_max t :
  null_free t -> container t ->
  exists z, latest_timestamp t = Ok z ∧ 0 <= z ∧ Forall (fun x => x <= z) (stamps t)
    ∧ (z = 0 ∨ z ∈ stamps t).
Proof.
  intros H Hc. destruct (latest_contributes t H) as (z & (E & _) & T).
  exists z. split; [done|]. exact (T Hc).
Qed.

Lemma stamps_same t t' : same_doc t t' -> stamps t ≡ₚ stamps t'.
Proof.
  revert t'. induction t as [| |m IH|l IH] using tson_ind'; intros t' H.
  - by inversion H.
  - by inversion H.
  - inversion H as [| | |? m' m'' HP HF]; subst. simpl.
    assert (E : concat (map (fun kv => stamps (snd kv)) m) ≡ₚ concat (map (fun kv => stamps (snd kv)) m')).
    { rewrite <- !flat_map_concat_map. by rewrite HP. }
    rewrite E. rewrite HP in IH. clear E HP H.
    induction HF as [|a b m' m'' [_ Hab] HF IHF]; [done|]. simpl. inversion IH; subst.
    rewrite (H1 _ Hab). by rewrite IHF.
  - inversion H as [| |? l' HF|]; subst. simpl. clear H.
    induction HF as [|a b l l' Hab HF IHF]; [done|]. simpl. inversion IH; subst.
    rewrite (H1 _ Hab). by rewrite IHF.
Qed.
Lemma null_free_same t t' : same_doc t t' -> null_free t -> null_free t'.
Proof.
  revert t'. induction t as [| |m IH|l IH] using tson_ind'; intros t' H E.
  - inversion E.
  - inversion H; subst. done.
  - inversion H as [| | |? m' m'' HP HF]; subst. inversion E as [|? HE|]; subst. constructor.
    rewrite HP in HE, IH. clear HP H E. induction HF as [|a b m' m'' [Ek Hab] HF IHF]; constructor.
    + inversion HE; subst. inversion IH; subst. eauto.
    + inversion HE; subst. inversion IH; subst. auto.
  - inversion H as [| |? l' HF|]; subst. inversion E as [| |? HE]; subst. constructor.
    clear H E. induction HF; constructor; inversion HE; subst; inversion IH; subst; eauto.
Qed.
Lemma container_same t t' : same_doc t t' -> container t -> container t'.
Proof. intros H [[m ->]|[l ->]]; inversion H; subst; [left|right]; eauto. Qed.
Lemma latest_same t t' : null_free t -> same_doc t t' -> latest_timestamp t = latest_timestamp t'.
Proof.
  intros HN HS. pose proof (null_free_same _ _ HS HN) as HN'.
  destruct t as [|p ts|m|l]; [inversion HN|by inversion HS|..].
  - assert (Hc : container (TObj m)) by (left; eauto).
    destruct (latest_max _ HN Hc) as (z & -> & T).
    destruct (latest_max _ HN' (container_same _ _ HS Hc)) as (z' & -> & T').
    rewrite (stamps_same _ _ HS) in T. f_equal. by eapply top_unique.
  - assert (Hc : container (TArr l)) by (right; eauto).
    destruct (latest_max _ HN Hc) as (z & -> & T).
    destruct (latest_max _ HN' (container_same _ _ HS Hc)) as (z' & -> & T').
    rewrite (stamps_same _ _ HS) in T. f_equal. by eapply top_unique.
Qed.
Lemma latest_ok_null_free t : latest_timestamp t ≠ Err ∧ forall z, latest_timestamp t = Ok z -> null_free t.
Proof.
  induction t as [| |m IH|l IH] using tson_ind'.
  - done.
  - split; [done|]. intros. constructor.
  - assert (G : forall acc,
      (fix go (acc : Z) (m : list (string * tson)) : res Z :=
         match m with
         | [] => Ok acc
         | (_, v) :: m' => do ts <- latest_timestamp v; go (if acc <? ts then ts else acc) m'
         end) acc m ≠ Err ∧ forall z,
      (fix go (acc : Z) (m : list (string * tson)) : res Z :=
         match m with
         | [] => Ok acc
         | (_, v) :: m' => do ts <- latest_timestamp v; go (if acc <? ts then ts else acc) m'
         end) acc m = Ok z -> Forall (fun kv => null_free (snd kv)) m).
    { induction IH as [|[k v] m [Hv1 Hv2] IH IHm]; intros acc; [split; [done|constructor]|].
      simpl in Hv1, Hv2. destruct (latest_timestamp v) as [zv| |] eqn:E; simpl; [|done|done].
      destruct (IHm (if acc <? zv then zv else acc)) as [A B]. split; [done|].
      intros z Hz. constructor; [by eapply Hv2|by eapply B]. }
    destruct (G 0) as [A B]. split; [exact A|]. intros z Hz. constructor. by eapply B.
  - assert (G : forall acc,
      (fix go (acc : Z) (l : list tson) : res Z :=
         match l with
         | [] => Ok acc
         | v :: l' => do ts <- latest_timestamp v; go (if acc <? ts then ts else acc) l'
         end) acc l ≠ Err ∧ forall z,
      (fix go (acc : Z) (l : list tson) : res Z :=
         match l with
         | [] => Ok acc
         | v :: l' => do ts <- latest_timestamp v; go (if acc <? ts then ts else acc) l'
         end) acc l = Ok z -> Forall null_free l).
    { induction IH as [|v l [Hv1 Hv2] IH IHm]; intros acc; [split; [done|constructor]|].
      destruct (latest_timestamp v) as [zv| |] eqn:E; simpl; [|done|done].
      destruct (IHm (if acc <? zv then zv else acc)) as [A B]. split; [done|].
      intros z Hz. constructor; [by eapply Hv2|by eapply B]. }
    destruct (G 0) as [A B]. split; [exact A|]. intros z Hz. constructor. by eapply B.
Qed.
Lemma latest_null_panics t : ~ null_free t -> latest_timestamp t = Panic.
Proof.
  intros H. destruct (latest_ok_null_free t) as [A B].
  destruct (latest_timestamp t) as [z| |]; [|done|done]. exfalso. eauto.
Qed.
