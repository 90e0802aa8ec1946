(** Applying a patch to agreeing documents gives agreeing documents. *)
From Verif Require Import Base BaseSpec BaseSpecLemmas F64 Tson TsonInd TsonSpec BaseLemmas Heap Patch TreePatch PatchLemmas DiffLemmas.
From Coq Require Import Lia.

Lemma wf_ainsert m k c : wf (TObj m) -> wf c -> wf (TObj (ainsert k c m)).
Proof.
  inversion 1 as [| |? ND HF|]; subst. intros Hc. constructor; [by apply NoDup_ainsert|].
  apply Forall_forall. intros [k' v] Hin. cbn [snd].
  apply (alookup_in _ _ _ (NoDup_ainsert _ _ _ ND)) in Hin. rewrite alookup_ainsert in Hin.
  case_decide; [by injection Hin as <-|]. apply alookup_Some_in in Hin. rewrite Forall_forall in HF. by apply (HF (k', v)).
Qed.
Lemma wf_adelete m k : wf (TObj m) -> wf (TObj (adelete k m)).
Proof.
  inversion 1 as [| |? ND HF|]; subst. constructor; [by apply NoDup_adelete|].
  apply Forall_forall. intros [k' v] Hin. cbn [snd].
  apply (alookup_in _ _ _ (NoDup_adelete _ _ ND)) in Hin. destruct (decide (k' = k)) as [->|Hk].
  - by rewrite alookup_adelete_eq in Hin.
  - rewrite alookup_adelete_ne in Hin by done. apply alookup_Some_in in Hin. rewrite Forall_forall in HF. by apply (HF (k', v)).
Qed.
Lemma wf_lookup m k v : wf (TObj m) -> alookup k m = Some v -> wf v.
Proof. inversion 1 as [| |? ND HF|]; subst. intros Hin%alookup_Some_in. rewrite Forall_forall in HF. by apply (HF (k, v)). Qed.

Section congr.
Variable R : Z -> Z -> Prop.
Hypothesis Rrefl : forall z, R z z.

Lemma agree_insert m n k c d : wf (TObj m) -> wf (TObj n) -> agree R (TObj m) (TObj n) -> agree R c d ->
  agree R (TObj (ainsert k c m)) (TObj (ainsert k d n)).
Proof.
  inversion 1 as [| |? ND HF|]; subst. inversion 1 as [| |? ND' HF'|]; subst. intros HA Hcd.
  destruct (agree_members_inv R m n ND ND' HA) as [H1 H2].
  apply agree_members; [by apply NoDup_ainsert..| |].
  - intros k' v. rewrite !alookup_ainsert. case_decide; [|apply H1]. intros [= <-]. by exists c.
  - intros k'. rewrite !alookup_ainsert. case_decide; [done|]. intros [u Hu]. destruct (H2 _ _ Hu) as (v & Hv & _). by eexists.
Qed.
Lemma agree_delete m n k : wf (TObj m) -> wf (TObj n) -> agree R (TObj m) (TObj n) ->
  agree R (TObj (adelete k m)) (TObj (adelete k n)).
Proof.
  inversion 1 as [| |? ND HF|]; subst. inversion 1 as [| |? ND' HF'|]; subst. intros HA.
  destruct (agree_members_inv R m n ND ND' HA) as [H1 H2].
  apply agree_members; [by apply NoDup_adelete..| |].
  - intros k' v. destruct (decide (k' = k)) as [->|Hk]; [by rewrite !alookup_adelete_eq|]. rewrite !alookup_adelete_ne by done. apply H1.
  - intros k'. destruct (decide (k' = k)) as [->|Hk]; [by rewrite !alookup_adelete_eq|]. rewrite !alookup_adelete_ne by done.
    intros [u Hu]. destruct (H2 _ _ Hu) as (v & Hv & _). by eexists.
Qed.
Lemma agree_lookup m n k : wf (TObj m) -> wf (TObj n) -> agree R (TObj m) (TObj n) ->
  match alookup k m, alookup k n with Some u, Some v => agree R u v | None, None => True | _, _ => False end.
Proof.
  inversion 1 as [| |? ND HF|]; subst. inversion 1 as [| |? ND' HF'|]; subst. intros HA.
  destruct (agree_members_inv R m n ND ND' HA) as [H1 H2].
  destruct (alookup k m) as [u|] eqn:Eu.
  - destruct (H2 _ _ Eu) as (v & -> & Huv). done.
  - destruct (alookup k n) as [v|] eqn:Ev; [|done]. destruct (H1 _ _ Ev) as (u & Eu' & _). congruence.
Qed.
Lemma agree_pad xs ys idx : Forall2 (agree R) xs ys -> Forall2 (agree R) (pad xs idx) (pad ys idx).
Proof.
  intros HF. unfold pad. rewrite (Forall2_length _ _ _ HF). destruct (_ <=? _); [|done].
  apply Forall2_app; [done|]. apply Forall2_replicate. constructor.
Qed.
Lemma wf_pad xs idx : Forall wf xs -> Forall wf (pad xs idx).
Proof.
  intros HF. unfold pad. destruct (_ <=? _); [|done]. apply Forall_app. split; [done|]. apply Forall_replicate. constructor.
Qed.
Lemma agree_default xs ys i : Forall2 (agree R) xs ys -> agree R (default TNil (xs !! i)) (default TNil (ys !! i)).
Proof.
  intros HF. destruct (xs !! i) as [u|] eqn:Eu.
  - destruct (Forall2_lookup_l _ _ _ _ _ HF Eu) as (v & -> & Huv). done.
  - apply lookup_ge_None in Eu. rewrite (Forall2_length _ _ _ HF) in Eu. apply lookup_ge_None in Eu. rewrite Eu. constructor.
Qed.
Lemma wf_default xs i : Forall wf xs -> wf (default TNil (xs !! i)).
Proof. intros HF. destruct (xs !! i) as [u|] eqn:Eu; [|constructor]. by eapply Forall_lookup_1 in HF. Qed.
Lemma agree_new p ts : prim_eq p p -> agree R (TLeaf p ts) (TLeaf p ts).
Proof. intros H. constructor; [done|apply Rrefl]. Qed.

(** The value an operation writes equals itself: it is not NaN. *)
Definition equal_self (op : operation) : Prop := forall p, scalar_of (op_value op) = Some p -> prim_eq p p.

Lemma ptrav_wf op : forall parts t, wf t -> wf (fst (ptrav op parts t)).
Proof.
  induction parts as [|part rest IH]; intros t Ht; [done|].
  assert (HPB : forall m r, wf (TObj m) -> wf (fst r) -> wf (fst (put_back m part r))).
  { intros m [c [[]| |]] Hm Hc; cbn [put_back fst] in *; apply wf_ainsert; try done. constructor. }
  cbn [ptrav]. destruct t as [|p ts|m|xs]; [done|done| |].
  - destruct rest as [|next rest].
    + destruct (op_kind op); try done; try (by apply wf_adelete);
        (destruct (scalar_of _); [|done]; apply wf_ainsert; [done|constructor]).
    + destruct (alookup part m) as [[|p ts|m'|xs]|] eqn:El.
      * destruct (is_set _); [|done]. destruct (parse_int next); (apply HPB; [done|]; apply IH; repeat constructor).
      * done.
      * apply HPB; [done|]. apply IH. by eapply wf_lookup.
      * assert (Hxs : Forall wf xs) by (pose proof (wf_lookup _ _ _ Ht El) as HH; by inversion HH).
        assert (Hset : forall idx, wf (fst (match scalar_of (op_value op) with
              | Some p =>
                  if idx <? 0 then (TObj m, Panic)
                  else (TObj (ainsert part
                          (TArr (<[Z.to_nat idx := TLeaf p (op_ts op)]> (pad xs idx))) m), Ok tt)
              | None =>
                  match op_value op with
                  | ANil => (TObj (ainsert part (TArr (pad xs idx)) m), Err)
                  | _ =>
                      if idx <? 0 then (TObj m, Panic)
                      else
                        match ptrav op (next :: rest) (default TNil (pad xs idx !! Z.to_nat idx)) with
                        | (c, Panic) =>
                            (TObj (ainsert part (TArr (<[Z.to_nat idx := c]> (pad xs idx))) m), Panic)
                        | r => put_back m part r
                        end
                  end
              end))).
        { intros idx. pose proof (wf_pad xs idx Hxs) as Hp.
          destruct (scalar_of (op_value op)) as [p|].
          - destruct (idx <? 0); [done|]. apply wf_ainsert; [done|]. constructor. apply Forall_insert; [done|constructor].
          - assert (Hn : wf (fst (if idx <? 0 then (TObj m, Panic)
                      else
                        match ptrav op (next :: rest) (default TNil (pad xs idx !! Z.to_nat idx)) with
                        | (c, Panic) =>
                            (TObj (ainsert part (TArr (<[Z.to_nat idx := c]> (pad xs idx))) m), Panic)
                        | r => put_back m part r
                        end))).
            { destruct (idx <? 0); [done|].
              pose proof (IH (default TNil (pad xs idx !! Z.to_nat idx)) (wf_default _ _ Hp)) as HI.
              destruct (ptrav op (next :: rest) _) as [c [[]| |]].
              - by apply HPB.
              - by apply HPB.
              - apply wf_ainsert; [done|]. constructor. by apply Forall_insert. }
            destruct (op_value op); try exact Hn. apply wf_ainsert; [done|]. by constructor. }
        destruct (parse_int next) as [idx|]; [|done].
        destruct (op_kind op); try done; try exact (Hset idx).
        destruct (_ || _); [done|]. apply wf_ainsert; [done|]. constructor. by apply Forall_delete.
      * destruct (is_set _); [|done]. destruct (parse_int next); (apply HPB; [done|]; apply IH; repeat constructor).
  - assert (Hxs : Forall wf xs) by (by inversion Ht).
    destruct (parse_int part) as [idx|]; [|done]. pose proof (wf_pad xs idx Hxs) as Hp.
    destruct (_ && _); [done|]. destruct rest as [|next rest].
    + destruct (op_kind op); try done;
        try (destruct (scalar_of _); [|done]; destruct (idx <? 0); [done|]; constructor; apply Forall_insert; [done|constructor]).
      destruct (idx <? 0); [done|]. constructor. by apply Forall_delete.
    + destruct (idx <? 0); [done|].
      pose proof (IH (default TNil (pad xs idx !! Z.to_nat idx)) (wf_default _ _ Hp)) as HI.
      destruct (ptrav op (next :: rest) _) as [c [[]| |]]; cbn [fst] in *; constructor; apply Forall_insert; try done. constructor.
Qed.

(** The same outcome, and agreeing documents. *)
Definition alike_out (x y : tson * res unit) : Prop := snd x = snd y ∧ agree R (fst x) (fst y).
Lemma out_put m n k x y : wf (TObj m) -> wf (TObj n) -> agree R (TObj m) (TObj n) -> alike_out x y ->
  alike_out (put_back m k x) (put_back n k y).
Proof.
  intros Hm Hn HA [E HO]. destruct x as [c r], y as [d r']. cbn [fst snd] in *. subst r'.
  destruct r as [[]| |]; (split; [done|]); cbn [put_back fst]; apply agree_insert; try done. constructor.
Qed.
Lemma Forall2_del (xs ys : list tson) i : Forall2 (agree R) xs ys -> Forall2 (agree R) (delete i xs) (delete i ys).
Proof.
  intros HF. revert i. induction HF as [|x y xs ys Hxy HF IH]; intros i; [constructor|].
  destruct i as [|i]; [done|]. cbn. apply List.Forall2_cons; [done|apply IH].
Qed.
Lemma ptrav_agree op : equal_self op -> forall parts t d, wf t -> wf d -> agree R t d ->
  alike_out (ptrav op parts t) (ptrav op parts d).
Proof.
  intros Hself. induction parts as [|part rest IH]; intros t d Ht Hd HA; [by split|].
  cbn [ptrav]. destruct t as [|p ts|m|xs], d as [|q ts0|n|ys]; try (by inversion HA); try (by split).
  - destruct rest as [|next rest].
    + assert (Hset : alike_out
        match scalar_of (op_value op) with Some p => (TObj (ainsert part (TLeaf p (op_ts op)) m), Ok tt) | None => (TObj m, Err) end
        match scalar_of (op_value op) with Some p => (TObj (ainsert part (TLeaf p (op_ts op)) n), Ok tt) | None => (TObj n, Err) end).
      { destruct (scalar_of (op_value op)) as [p|] eqn:Es; [|by split]. split; [done|]. cbn [fst].
        apply agree_insert; try done. apply agree_new. by apply Hself. }
      destruct (op_kind op); try exact Hset; try (by split). split; [done|]. by apply agree_delete.
    + pose proof (agree_lookup m n part Ht Hd HA) as HL.
      assert (Hmiss : alike_out
         (if is_set (op_kind op) then
            match parse_int next with
            | Some _ => put_back m part (ptrav op (next :: rest) (TArr []))
            | None => put_back m part (ptrav op (next :: rest) (TObj []))
            end
          else (TObj m, Err))
         (if is_set (op_kind op) then
            match parse_int next with
            | Some _ => put_back n part (ptrav op (next :: rest) (TArr []))
            | None => put_back n part (ptrav op (next :: rest) (TObj []))
            end
          else (TObj n, Err))).
      { destruct (is_set _); [|by split].
        destruct (parse_int next); apply out_put; try done; apply IH; repeat constructor.
        apply (ag_obj _ _ []); constructor. }
      destruct (alookup part m) as [u|] eqn:Eu.
      2:{ destruct (alookup part n) as [v|]; [by destruct HL|exact Hmiss]. }
      destruct (alookup part n) as [v|] eqn:Ev; [|by destruct HL].
      destruct u as [|p ts|m'|xs], v as [|q ts'|n'|ys]; try (by inversion HL); try exact Hmiss; try (by split).
      * apply out_put; try done. apply IH; [exact (wf_lookup _ _ _ Ht Eu)|exact (wf_lookup _ _ _ Hd Ev)|done].
      * assert (HF : Forall2 (agree R) xs ys) by (inversion HL; subst; assumption).
        assert (Hxs : Forall wf xs) by (pose proof (wf_lookup _ _ _ Ht Eu) as HH; by inversion HH).
        assert (Hys : Forall wf ys) by (pose proof (wf_lookup _ _ _ Hd Ev) as HH; by inversion HH).
        destruct (parse_int next) as [idx|]; [|by split].
        pose proof (agree_pad xs ys idx HF) as HP.
        assert (Hnest : alike_out
          (if idx <? 0 then (TObj m, Panic)
           else match ptrav op (next :: rest) (default TNil (pad xs idx !! Z.to_nat idx)) with
                | (c, Panic) => (TObj (ainsert part (TArr (<[Z.to_nat idx := c]> (pad xs idx))) m), Panic)
                | r => put_back m part r
                end)
          (if idx <? 0 then (TObj n, Panic)
           else match ptrav op (next :: rest) (default TNil (pad ys idx !! Z.to_nat idx)) with
                | (c, Panic) => (TObj (ainsert part (TArr (<[Z.to_nat idx := c]> (pad ys idx))) n), Panic)
                | r => put_back n part r
                end)).
        { destruct (idx <? 0); [by split|].
          pose proof (IH (default TNil (pad xs idx !! Z.to_nat idx)) (default TNil (pad ys idx !! Z.to_nat idx))
            (wf_default _ _ (wf_pad xs idx Hxs)) (wf_default _ _ (wf_pad ys idx Hys)) (agree_default _ _ _ HP)) as HI.
          pose proof (out_put m n part _ _ Ht Hd HA HI) as HO. destruct HI as [E HI].
          destruct (ptrav op (next :: rest) (default TNil (pad xs idx !! Z.to_nat idx))) as [c r].
          destruct (ptrav op (next :: rest) (default TNil (pad ys idx !! Z.to_nat idx))) as [c' r']. cbn [fst snd] in *. subst r'.
          destruct r as [[]| |]; [exact HO|exact HO|]. split; [done|]. cbn [fst]. apply agree_insert; try done.
          constructor. by apply Forall2_insert. }
        assert (Hset : alike_out
          match scalar_of (op_value op) with
          | Some p => if idx <? 0 then (TObj m, Panic)
              else (TObj (ainsert part (TArr (<[Z.to_nat idx := TLeaf p (op_ts op)]> (pad xs idx))) m), Ok tt)
          | None => match op_value op with
              | ANil => (TObj (ainsert part (TArr (pad xs idx)) m), Err)
              | _ => if idx <? 0 then (TObj m, Panic)
                 else match ptrav op (next :: rest) (default TNil (pad xs idx !! Z.to_nat idx)) with
                      | (c, Panic) => (TObj (ainsert part (TArr (<[Z.to_nat idx := c]> (pad xs idx))) m), Panic)
                      | r => put_back m part r
                      end
              end
          end
          match scalar_of (op_value op) with
          | Some p => if idx <? 0 then (TObj n, Panic)
              else (TObj (ainsert part (TArr (<[Z.to_nat idx := TLeaf p (op_ts op)]> (pad ys idx))) n), Ok tt)
          | None => match op_value op with
              | ANil => (TObj (ainsert part (TArr (pad ys idx)) n), Err)
              | _ => if idx <? 0 then (TObj n, Panic)
                 else match ptrav op (next :: rest) (default TNil (pad ys idx !! Z.to_nat idx)) with
                      | (c, Panic) => (TObj (ainsert part (TArr (<[Z.to_nat idx := c]> (pad ys idx))) n), Panic)
                      | r => put_back n part r
                      end
              end
          end).
        { destruct (scalar_of (op_value op)) as [p|] eqn:Es.
          - destruct (idx <? 0); [by split|]. split; [done|]. cbn [fst]. apply agree_insert; try done. constructor.
            apply Forall2_insert; [done|]. apply agree_new. by apply Hself.
          - destruct (op_value op); try exact Hnest. split; [done|]. cbn [fst]. apply agree_insert; try done. by constructor. }
        destruct (op_kind op); try exact Hset; try (by split). rewrite (Forall2_length _ _ _ HF).
        destruct (_ || _); [by split|]. split; [done|]. cbn [fst]. apply agree_insert; try done. constructor. by apply Forall2_del.
  - assert (HF : Forall2 (agree R) xs ys) by (inversion HA; subst; assumption).
    assert (Hxs : Forall wf xs) by (by inversion Ht). assert (Hys : Forall wf ys) by (by inversion Hd).
    destruct (parse_int part) as [idx|]; [|by split]. pose proof (agree_pad xs ys idx HF) as HP.
    rewrite (Forall2_length _ _ _ HF). destruct (_ && _); [by split|]. destruct rest as [|next rest].
    + assert (Hset : alike_out
        match scalar_of (op_value op) with Some p => if idx <? 0 then (TArr xs, Panic)
           else (TArr (<[Z.to_nat idx := TLeaf p (op_ts op)]> (pad xs idx)), Ok tt) | None => (TArr xs, Err) end
        match scalar_of (op_value op) with Some p => if idx <? 0 then (TArr ys, Panic)
           else (TArr (<[Z.to_nat idx := TLeaf p (op_ts op)]> (pad ys idx)), Ok tt) | None => (TArr ys, Err) end).
      { destruct (scalar_of (op_value op)) as [p|] eqn:Es; [|by split]. destruct (idx <? 0); [by split|]. split; [done|]. cbn [fst].
        constructor. apply Forall2_insert; [done|]. apply agree_new. by apply Hself. }
      destruct (op_kind op); try exact Hset; try (by split). destruct (idx <? 0); [by split|]. split; [done|].
      constructor. by apply Forall2_del.
    + destruct (idx <? 0); [by split|].
      pose proof (IH (default TNil (pad xs idx !! Z.to_nat idx)) (default TNil (pad ys idx !! Z.to_nat idx))
        (wf_default _ _ (wf_pad xs idx Hxs)) (wf_default _ _ (wf_pad ys idx Hys)) (agree_default _ _ _ HP)) as HI.
      destruct HI as [E HI].
      destruct (ptrav op (next :: rest) (default TNil (pad xs idx !! Z.to_nat idx))) as [c r].
      destruct (ptrav op (next :: rest) (default TNil (pad ys idx !! Z.to_nat idx))) as [c' r']. cbn [fst snd] in *. subst r'.
      destruct r as [[]| |]; (split; [done|]); cbn [fst]; constructor; apply Forall2_insert; try done. constructor.
Qed.
Lemma papply_wf ops : forall t, wf t -> wf (fst (papply t ops)).
Proof.
  induction ops as [|op ops IH]; intros t Ht; [done|]. cbn [papply].
  pose proof (ptrav_wf op (op_parts (op_path op)) t Ht) as HW. destruct (ptrav op _ t) as [t1 [[]| |]]; [by apply IH|done|done].
Qed.
Lemma papply_agree ops : Forall equal_self ops -> forall t d, wf t -> wf d -> agree R t d -> alike_out (papply t ops) (papply d ops).
Proof.
  induction 1 as [|op ops Hop Hops IH]; intros t d Ht Hd HA; [by split|]. cbn [papply].
  pose proof (ptrav_wf op (op_parts (op_path op)) t Ht) as Ht1. pose proof (ptrav_wf op (op_parts (op_path op)) d Hd) as Hd1.
  destruct (ptrav_agree op Hop (op_parts (op_path op)) t d Ht Hd HA) as [E HA1].
  destruct (ptrav op (op_parts (op_path op)) t) as [t1 r], (ptrav op (op_parts (op_path op)) d) as [d1 r']. cbn [fst snd] in *. subst r'.
  destruct r as [[]| |]; [by apply IH|by split|by split].
Qed.
End congr.
