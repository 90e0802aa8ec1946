(** Patches between documents of the same frame. *)
From stdpp Require Import pretty.
From Verif Require Import Base BaseLemmas BaseSpec BaseSpecLemmas F64 Tson TsonInd TsonSpec Heap Patch PatchSpec Diff DiffSpec DiffLemmas DiffPaths TsonLemmas JsonSpec.
From Coq Require Import Lia.

Lemma frame_type a b : same_frame a b -> Diff.same_type a b = true.
Proof. by destruct 1. Qed.
Definition differs (wt : bool) (x : prim) (ts : Z) (y : prim) (ts' : Z) : Prop := ~ TsonSpec.prim_eq x y ∨ wt = true ∧ ts ≠ ts'.
Definition frame_op (wt : bool) (a b : tson) (q0 : list step) (p : operation) : Prop :=
  exists q x ts y ts', meets a b q (TLeaf x ts) (TLeaf y ts') ∧ differs wt x ts y ts' ∧
    p = Op OReplace (written (q0 ++ q)) (any_of_prim y) ts'.

Lemma frame_op_member wt m m' q0 p : frame_op wt (TObj m) (TObj m') q0 p <->
  exists k u v, alookup k m = Some u ∧ alookup k m' = Some v ∧ frame_op wt u v (q0 ++ [Key k]) p.
Proof.
  split.
  - intros (q & x & ts & y & ts' & HM & HD & ->). inversion HM as [|? ? k u v q' ? ? Hu Hv HM'|]; subst.
    exists k, u, v. split; [done|]. split; [done|]. exists q', x, ts, y, ts'. rewrite <- app_assoc. done.
  - intros (k & u & v & Hu & Hv & q & x & ts & y & ts' & HM & HD & ->).
    exists (Key k :: q), x, ts, y, ts'. rewrite <- app_assoc. split; [by econstructor|done].
Qed.
Lemma frame_op_elem wt l l' q0 p : length l = length l' -> frame_op wt (TArr l) (TArr l') q0 p <->
  exists i u v, l !! i = Some u ∧ l' !! i = Some v ∧ frame_op wt u v (q0 ++ [Elem i]) p.
Proof.
  intros Hl. split.
  - intros (q & x & ts & y & ts' & HM & HD & ->). inversion HM as [| |? ? i u v q' ? ? _ Hu Hv HM']; subst.
    exists i, u, v. split; [done|]. split; [done|]. exists q', x, ts, y, ts'. rewrite <- app_assoc. done.
  - intros (i & u & v & Hu & Hv & q & x & ts & y & ts' & HM & HD & ->).
    exists (Elem i :: q), x, ts, y, ts'. rewrite <- app_assoc. split; [by econstructor|done].
Qed.
Lemma frame_members wt mo q0 mm :
  (forall k v, (k, v) ∈ mm -> exists u, alookup k mo = Some u ∧ Diff.same_type u v = true ∧
     exists ops, handle_values wt u v (written (q0 ++ [Key k])) = Ok ops ∧ forall p, p ∈ ops <-> frame_op wt u v (q0 ++ [Key k]) p) ->
  exists ops, hv_members wt mo (written q0) mm = Ok ops ∧
    forall p, p ∈ ops <-> exists k u v, alookup k mo = Some u ∧ (k, v) ∈ mm ∧ frame_op wt u v (q0 ++ [Key k]) p.
Proof.
  induction mm as [|[k v] mm IH]; intros H.
  - exists []. split; [done|]. intros p. split; [by intros ?%elem_of_nil|]. by intros (? & ? & ? & _ & ?%elem_of_nil & _).
  - destruct IH as (rest & Er & Hr); [intros k' v' Hin; apply H; by right|].
    destruct (H k v) as (u & Hu & Ht & here & Eh & Hh); [by left|].
    rewrite hv_members_cons, Hu, Ht, written_key, Eh. cbn [rbind]. rewrite Er. cbn [rbind].
    exists (here ++ rest). split; [done|]. intros p. rewrite elem_of_app, Hh, Hr. split.
    + intros [Hp|(k' & u' & v' & Hu' & Hv' & Hp)]; [exists k, u, v|exists k', u', v']; (split; [done|]); split; try done; [by left|by right].
    + intros (k' & u' & v' & Hu' & Hv' & Hp). apply elem_of_cons in Hv' as [[= -> ->]|Hv']; [|right; eauto 10].
      left. rewrite Hu in Hu'. by injection Hu' as <-.
Qed.
Lemma frame_elems wt q0 lo lm : forall i,
  Forall2 (fun u v => forall q1, exists ops, handle_values wt u v (written q1) = Ok ops ∧ forall p, p ∈ ops <-> frame_op wt u v q1 p) lo lm ->
  exists ops, hv_elems wt (written q0) i lo lm = Ok ops ∧
    forall p, p ∈ ops <-> exists n u v, lo !! n = Some u ∧ lm !! n = Some v ∧ frame_op wt u v (q0 ++ [Elem (i + n)]) p.
Proof.
  intros i H. revert i. induction H as [|u v lo lm Huv HF IH]; intros i.
  - exists []. split; [done|]. intros p. split; [by intros ?%elem_of_nil|]. by intros (? & ? & ? & ? & _).
  - destruct (IH (S i)) as (rest & Er & Hr). destruct (Huv (q0 ++ [Elem i])) as (here & Eh & Hh).
    rewrite hv_elems_cons, written_elem, Eh. cbn [rbind]. rewrite Er. cbn [rbind].
    exists (here ++ rest). split; [done|]. intros p. rewrite elem_of_app, Hh, Hr. split.
    + intros [Hp|(n & u' & v' & Hu' & Hv' & Hp)].
      * exists 0%nat, u, v. by rewrite Nat.add_0_r.
      * exists (S n), u', v'. by rewrite Nat.add_succ_r.
    + intros ([|n] & u' & v' & Hu' & Hv' & Hp).
      * left. injection Hu' as <-. injection Hv' as <-. by rewrite Nat.add_0_r in Hp.
      * right. exists n, u', v'. by rewrite Nat.add_succ_r in Hp.
Qed.
Lemma frame_leaf wt x ts y ts' q0 : Diff.same_type (TLeaf x ts) (TLeaf y ts') = true ->
  exists ops, handle_values wt (TLeaf x ts) (TLeaf y ts') (written q0) = Ok ops ∧
    forall p, p ∈ ops <-> frame_op wt (TLeaf x ts) (TLeaf y ts') q0 p.
Proof.
  intros Ht. cbn [handle_values]. rewrite Ht.
  assert (Hop : forall p, frame_op wt (TLeaf x ts) (TLeaf y ts') q0 p <->
     differs wt x ts y ts' ∧ p = Op OReplace (written q0) (any_of_prim y) ts').
  { intros p. split.
    - intros (q & ? & ? & ? & ? & HM & HD & ->). inversion HM; subst. by rewrite app_nil_r.
    - intros [HD ->]. exists [], x, ts, y, ts'. rewrite app_nil_r. split; [constructor|done]. }
  destruct (prim_eq x y && (negb wt || (ts =? ts'))) eqn:E.
  - exists []. split; [done|]. intros p. rewrite Hop. split; [by intros ?%elem_of_nil|]. intros [HD _].
    apply andb_true_iff in E as [E1 E2]. destruct HD as [HD|[-> HD]]; [by destruct HD; apply prim_eq_iff|].
    cbn in E2. lia.
  - eexists. split; [done|]. intros p. rewrite Hop, elem_of_list_singleton. split; [|by intros [_ ->]]. intros ->.
    split; [|done]. apply andb_false_iff in E as [E|E]; [left; intros HP%prim_eq_iff; congruence|]. right.
    apply orb_false_iff in E as [E1 E2]. apply negb_false_iff in E1. split; [done|lia].
Qed.
Lemma frame_exact wt b : forall a q0, same_frame a b -> wf a -> wf b ->
  exists ops, handle_values wt a b (written q0) = Ok ops ∧ forall p, p ∈ ops <-> frame_op wt a b q0 p.
Proof.
  induction b as [|y ts'|m' IH|l' IH] using tson_ind'; intros a q0 HF Ha Hb.
  - inversion HF; subst. exists []. split; [done|]. intros p. split; [by intros ?%elem_of_nil|].
    intros (q & x & ts & y & ts' & HM & _). inversion HM.
  - pose proof (frame_type _ _ HF) as Ht. inversion HF; subst; by apply frame_leaf.
  - inversion HF as [| | | | |m ? Hk Hm]; subst. inversion Ha as [| |? Na Fa|]; inversion Hb as [| |? Nb Fb|]; subst.
    rewrite handle_obj. destruct (frame_members wt m q0 m') as (ops & E & Hops).
    { intros k v Hin. assert (Hv : alookup k m' = Some v) by (by apply alookup_in).
      destruct (proj2 (Hk k)) as (u & Hu); [by eexists|]. exists u. split; [done|].
      assert (Huv := Hm k u v Hu Hv). split; [by apply frame_type|].
      rewrite Forall_forall in IH, Fa, Fb. apply (IH (k, v)); [done..| |by apply (Fb (k, v))].
      apply (Fa (k, u)). by apply alookup_Some_in. }
    rewrite E. cbn [rbind]. rewrite diff_removed_none.
    2:{ intros k Hin. apply Hk. destruct (alookup k m) eqn:En; [by eexists|]. by apply alookup_None_iff in En. }
    cbn [rbind]. rewrite app_nil_r. exists ops. split; [done|]. intros p. rewrite Hops, frame_op_member.
    split; intros (k & u & v & Hu & Hv & Hp); exists k, u, v; (split; [done|]); split; try done.
    + by apply alookup_in.
    + by apply alookup_Some_in.
  - inversion HF as [| | | |l ? HFl|]; subst. inversion Ha as [| | |? Fa]; inversion Hb as [| | |? Fb]; subst.
    assert (Hl := Forall2_length _ _ _ HFl). rewrite handle_arr, (proj2 (Nat.eqb_eq _ _) Hl).
    destruct (frame_elems wt q0 l l' 0) as (ops & E & Hops).
    + clear HF Ha Hb Hl. induction HFl as [|u v l l' Huv HFl IHl]; constructor.
      * intros q1. inversion IH; inversion Fa; inversion Fb; subst. auto.
      * apply IHl; [by inversion IH|by inversion Fa|by inversion Fb].
    + exists ops. split; [done|]. intros p. rewrite Hops, frame_op_elem by done. done.
Qed.

(** ** No path is written twice *)
Lemma escaped_no_slash k : contains slash (escaped k) = false.
Proof.
  induction k as [|a k IH]; [done|]. cbn [escaped]. rewrite contains_app, IH, orb_false_r.
  case_decide as H1; [done|]. case_decide as H2; [done|]. cbn. rewrite orb_false_r. by apply bool_decide_eq_false.
Qed.
Lemma split_pointer ks : forall s, contains slash s = false -> split_on slash (s +++ pointer ks) = s :: map escaped ks.
Proof.
  induction ks as [|k ks IH]; intros s Hs.
  - cbn [pointer map]. rewrite sapp_nil_r. by apply split_on_none.
  - cbn [pointer map]. change ("/" +++ escaped k +++ pointer ks) with (String slash (escaped k +++ pointer ks)).
    rewrite split_on_app_gen, split_on_none by done. rewrite IH by apply escaped_no_slash. done.
Qed.
Lemma pointer_inj ks ks' : pointer ks = pointer ks' -> ks = ks'.
Proof.
  intros E. assert (H : split_on slash ("" +++ pointer ks) = split_on slash ("" +++ pointer ks')) by (by rewrite E).
  rewrite !split_pointer in H by done. injection H as H. apply (f_equal (map rfc_decode)) in H. rewrite !map_map in H.
  assert (HD : forall l, map (fun x => rfc_decode (escaped x)) l = l).
  { intros l. induction l as [|k l IH]; [done|]. cbn [map]. rewrite IH. f_equal.
    pose proof (rfc_decode_encode_app k "") as Hk. by rewrite !sapp_nil_r in Hk. }
  by rewrite !HD in H.
Qed.
Lemma pretty_nat_ne (n : nat) : pretty n ≠ "".
Proof. change (pretty (N.of_nat n) ≠ ""). rewrite <- dec_text_pretty. apply dec_text_spec. Qed.
Lemma meets_names a b q x y : meets a b q x y -> every_name (.≠ "") a -> Forall (fun s => step_name s ≠ "") q.
Proof.
  induction 1 as [|m m' k u v q x y Hu Hv HM IH|l l' i u v q x y Hl Hu Hv HM IH]; intros HN; constructor.
  - inversion HN as [| |? HF|]; subst. rewrite Forall_forall in HF. apply alookup_Some_in in Hu. by destruct (HF _ Hu).
  - apply IH. inversion HN as [| |? HF|]; subst. rewrite Forall_forall in HF. apply alookup_Some_in in Hu. by destruct (HF _ Hu).
  - cbn [step_name]. by apply pretty_nat_ne.
  - apply IH. inversion HN as [| | |? HF]; subst. rewrite Forall_forall in HF. apply HF. by eapply elem_of_list_lookup_2.
Qed.
Lemma written_steps q q' : Forall (fun s => step_name s ≠ "") q -> Forall (fun s => step_name s ≠ "") q' ->
  written q = written q' -> map step_name q = map step_name q'.
Proof. intros H H' E. rewrite !written_plain in E by done. by apply pointer_inj. Qed.
Lemma frame_paths wt u v u' v' q0 s s' p p' : every_name (.≠ "") u -> every_name (.≠ "") u' ->
  Forall (fun s => step_name s ≠ "") q0 -> step_name s ≠ "" -> step_name s' ≠ "" ->
  frame_op wt u v (q0 ++ [s]) p -> frame_op wt u' v' (q0 ++ [s']) p' -> op_path p = op_path p' -> step_name s = step_name s'.
Proof.
  intros Nu Nu' H0 Hs Hs' (q & x & ts & y & ts1 & HM & _ & ->) (q' & x' & ts' & y' & ts1' & HM' & _ & ->) E. cbn [op_path] in E.
  apply written_steps in E.
  - rewrite !map_app, <- !app_assoc in E. apply app_inv_head in E. cbn in E. by injection E.
  - apply Forall_app. split; [apply Forall_app; by repeat constructor|by eapply meets_names].
  - apply Forall_app. split; [apply Forall_app; by repeat constructor|by eapply meets_names].
Qed.
Lemma frame_nodup wt b : forall a q0 ops, same_frame a b -> wf a -> wf b -> every_name (.≠ "") a ->
  Forall (fun s => step_name s ≠ "") q0 -> handle_values wt a b (written q0) = Ok ops -> NoDup (map op_path ops).
Proof.
  induction b as [|y ts'|m' IH|l' IH] using tson_ind'; intros a q0 ops HF Ha Hb HN H0 E.
  - inversion HF; subst. injection E as <-. constructor.
  - pose proof (frame_type _ _ HF) as Ht. inversion HF; subst; cbn [handle_values] in E; rewrite Ht in E;
      destruct (prim_eq _ _ && _); injection E as <-; repeat constructor; by intros ?%elem_of_nil.
  - inversion HF as [| | | | |m ? Hk Hm]; subst. inversion Ha as [| |? Na Fa|]; inversion Hb as [| |? Nb Fb|]; subst.
    inversion HN as [| |? HNm|]; subst.
    rewrite handle_obj in E. apply bind_ok in E as (ch & E & E2). apply bind_ok in E2 as (rm & E2 & [= <-]).
    rewrite diff_removed_none in E2.
    2:{ intros k Hin. apply Hk. destruct (alookup k m) eqn:En; [by eexists|]. by apply alookup_None_iff in En. }
    injection E2 as <-. rewrite app_nil_r.
    assert (Hin' : forall k v, (k, v) ∈ m' -> alookup k m' = Some v) by (intros k v Hin; by apply alookup_in).
    clear HF Hb. revert ch E. 
    assert (Hsub : forall k v, (k, v) ∈ m' -> k ≠ "" ∧ exists u, alookup k m = Some u ∧ same_frame u v ∧ wf u ∧ wf v ∧ every_name (.≠ "") u).
    { intros k v Hin. destruct (proj2 (Hk k)) as (u & Hu); [rewrite (Hin' k v Hin); by eexists|].
      rewrite Forall_forall in Fa, Fb, HNm. assert (Hum := alookup_Some_in _ _ _ Hu).
      split; [by apply (HNm (k, u))|]. exists u. split; [done|]. split; [eapply Hm; eauto|].
      split; [by apply (Fa (k, u))|]. split; [by apply (Fb (k, v))|by apply (HNm (k, u))]. }
    clear Hk Hm Hin' Fb. unfold akeys in Nb. induction m' as [|[k v] mm IHm]; intros ch E.
    { injection E as <-. constructor. }
    destruct (Hsub k v) as (Hne & u & Hu & Huv & Wu & Wv & Nu); [by left|].
    rewrite hv_members_cons, Hu, (frame_type _ _ Huv), written_key in E.
    apply bind_ok in E as (here & Eh & E). apply bind_ok in E as (rest & Er & [= <-]).
    cbn [map fst] in Nb. apply NoDup_cons in Nb as [Hknot Nb].
    rewrite map_app. apply NoDup_app. split; [|split].
    + inversion IH as [|? ? IHv _]; subst. cbn [snd] in IHv. eapply (IHv u (q0 ++ [Key k])); eauto.
      apply Forall_app. by repeat constructor.
    + intros x (p & -> & Hp)%elem_of_list_fmap (p' & Ep & Hp')%elem_of_list_fmap.
      destruct (frame_exact wt v u (q0 ++ [Key k]) Huv Wu Wv) as (here' & Eh' & Hh). rewrite Eh in Eh'. injection Eh' as <-.
      destruct (hv_members_in _ _ _ _ _ _ Er Hp') as (k' & v' & h' & Hin & Em & Hp2).
      destruct (Hsub k' v') as (Hne' & u' & Hu' & Huv' & Wu' & Wv' & Nu'); [by right|].
      unfold member_ops in Em. rewrite Hu', (frame_type _ _ Huv'), written_key in Em.
      destruct (frame_exact wt v' u' (q0 ++ [Key k']) Huv' Wu' Wv') as (h2 & Eh2 & Hh2). rewrite Em in Eh2. injection Eh2 as <-.
      apply Hh in Hp. apply Hh2 in Hp2.
      assert (Hkk := frame_paths wt u v u' v' q0 (Key k) (Key k') p p' Nu Nu' H0 Hne Hne' Hp Hp2 Ep). cbn in Hkk. subst k'.
      apply Hknot. apply elem_of_list_fmap. by exists (k, v').
    + apply IHm; [by inversion IH|done| |done]. intros k' v' Hin. apply Hsub. by right.
  - inversion HF as [| | | |l ? HFl|]; subst. inversion Ha as [| | |? Fa]; inversion Hb as [| | |? Fb]; subst.
    inversion HN as [| | |? HNl]; subst.
    assert (Hl := Forall2_length _ _ _ HFl). rewrite handle_arr, (proj2 (Nat.eqb_eq _ _) Hl) in E.
    clear HF Ha Hb HN Hl. revert ops E. generalize 0%nat as i. intros i ops E. revert i ops E.
    induction HFl as [|u v l l' Huv HFl IHl]; intros i ops E; [injection E as <-; constructor|].
    inversion IH as [|? ? IHv IH']; inversion Fa as [|? ? Wu Fa']; inversion Fb as [|? ? Wv Fb']; inversion HNl as [|? ? Nu HNl']; subst.
    rewrite hv_elems_cons, written_elem in E.
    apply bind_ok in E as (here & Eh & E). apply bind_ok in E as (rest & Er & [= <-]).
    rewrite map_app. apply NoDup_app. split; [|split].
    + eapply (IHv u (q0 ++ [Elem i])); eauto. apply Forall_app. split; [done|]. repeat constructor. by apply pretty_nat_ne.
    + intros x (p & -> & Hp)%elem_of_list_fmap (p' & Ep & Hp')%elem_of_list_fmap.
      destruct (frame_exact wt v u (q0 ++ [Elem i]) Huv Wu Wv) as (here' & Eh' & Hh). rewrite Eh in Eh'. injection Eh' as <-.
      destruct (hv_elems_in _ _ _ _ _ _ _ Er Hp') as (n & u' & v' & h' & Hu' & Hv' & Em & Hp2). rewrite written_elem in Em.
      assert (Huv' : same_frame u' v').
      { eapply Forall2_lookup_lr; eauto. }
      assert (Wu' : wf u') by (rewrite Forall_forall in Fa'; apply Fa'; by eapply elem_of_list_lookup_2).
      assert (Nu' : every_name (.≠ "") u') by (rewrite Forall_forall in HNl'; apply HNl'; by eapply elem_of_list_lookup_2).
      assert (Wv' : wf v') by (rewrite Forall_forall in Fb'; apply Fb'; by eapply elem_of_list_lookup_2).
      destruct (frame_exact wt v' u' (q0 ++ [Elem (S i + n)]) Huv' Wu' Wv') as (h2 & Eh2 & Hh2). rewrite Em in Eh2. injection Eh2 as <-.
      apply Hh in Hp. apply Hh2 in Hp2.
      assert (Hkk := frame_paths wt u v u' v' q0 (Elem i) (Elem (S i + n)) p p' Nu Nu' H0 (pretty_nat_ne _) (pretty_nat_ne _) Hp Hp2 Ep).
      cbn [step_name] in Hkk. apply (inj pretty) in Hkk. lia.
    + by apply (IHl IH' Fa' Fb' HNl' (S i)).
Qed.

(** ** The two kinds of patches *)
Lemma frame_replacing wt a b : same_frame a b -> wf a -> wf b ->
  exists ops, handle_values wt a b "" = Ok ops ∧
    (forall p, p ∈ ops -> exists q x ts y ts', meets a b q (TLeaf x ts) (TLeaf y ts') ∧ differs wt x ts y ts' ∧ replacing q y ts' p) ∧
    (forall q x ts y ts', meets a b q (TLeaf x ts) (TLeaf y ts') -> differs wt x ts y ts' -> exists p, p ∈ ops ∧ replacing q y ts' p) ∧
    (every_name (.≠ "") a -> NoDup (map op_path ops)).
Proof.
  intros HF Ha Hb. destruct (frame_exact wt b a [] HF Ha Hb) as (ops & E & Hops). rewrite written_nil in E.
  exists ops. split; [done|]. split; [|split].
  - intros p Hp. apply Hops in Hp as (q & x & ts & y & ts' & HM & HD & ->). exists q, x, ts, y, ts'. split; [done|]. split; [done|].
    split; [done|]. split; [done|]. split; [apply payload_any|done].
  - intros q x ts y ts' HM HD. exists (Op OReplace (written q) (any_of_prim y) ts'). split; [apply Hops; by exists q, x, ts, y, ts'|].
    split; [done|]. split; [done|]. split; [apply payload_any|done].
  - intros HN. by apply (frame_nodup wt b a [] ops).
Qed.
Lemma frame_values a b : same_frame a b -> wf a -> wf b ->
  exists ops, generate_patch a b = Ok ops ∧
    (forall p, p ∈ ops -> exists q x ts y ts', meets a b q (TLeaf x ts) (TLeaf y ts') ∧ ~ TsonSpec.prim_eq x y ∧ replacing q y ts' p) ∧
    (forall q x ts y ts', meets a b q (TLeaf x ts) (TLeaf y ts') -> ~ TsonSpec.prim_eq x y -> exists p, p ∈ ops ∧ replacing q y ts' p) ∧
    (every_name (.≠ "") a -> NoDup (map op_path ops)).
Proof.
  intros HF Ha Hb. destruct (frame_replacing false a b HF Ha Hb) as (ops & E & H1 & H2 & H3). exists ops. split; [done|]. split; [|split; [|done]].
  - intros p Hp. destruct (H1 p Hp) as (q & x & ts & y & ts' & HM & [HD|[? _]] & HR); [|done]. by exists q, x, ts, y, ts'.
  - intros q x ts y ts' HM HD. apply (H2 q x ts y ts' HM). by left.
Qed.
Lemma frame_stamps a b : same_frame a b -> wf a -> wf b ->
  exists ops, generate_patch_with_timestamp a b = Ok ops ∧
    (forall p, p ∈ ops -> exists q x ts y ts', meets a b q (TLeaf x ts) (TLeaf y ts') ∧ (~ TsonSpec.prim_eq x y ∨ ts ≠ ts') ∧ replacing q y ts' p) ∧
    (forall q x ts y ts', meets a b q (TLeaf x ts) (TLeaf y ts') -> ~ TsonSpec.prim_eq x y ∨ ts ≠ ts' -> exists p, p ∈ ops ∧ replacing q y ts' p) ∧
    (every_name (.≠ "") a -> NoDup (map op_path ops)).
Proof.
  intros HF Ha Hb. destruct (frame_replacing true a b HF Ha Hb) as (ops & E & H1 & H2 & H3). exists ops. split; [done|]. split; [|split; [|done]].
  - intros p Hp. destruct (H1 p Hp) as (q & x & ts & y & ts' & HM & HD & HR). exists q, x, ts, y, ts'. split; [done|]. split; [|done].
    destruct HD as [?|[_ ?]]; auto.
  - intros q x ts y ts' HM HD. apply (H2 q x ts y ts' HM). destruct HD as [?|?]; [by left|by right].
Qed.
