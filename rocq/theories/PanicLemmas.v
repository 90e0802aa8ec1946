(** [Unmarshal] panics exactly on the texts with a null inside an object or an array. *)
From Verif Require Import Base F64 Tson Serial BaseLemmas BaseSpec BaseSpecLemmas TextSpec
  ParseComplete ParseSound.
From Coq Require Import Lia.

Section panic.
Context (L : textlib).

Lemma null_member_blank w s : blank w -> null_member L s -> null_member L (w +++ s).
Proof.
  intros Hw H.
  assert (Hone : forall k t s, member_text L k t s -> member_text L k t (w +++ s)).
  { intros k t s0 Hx. destruct Hx. rewrite <- sapp_assoc. econstructor; eauto. by apply blank_app. }
  destruct H as [w1 txt k w2 st ots w3 w4 s Hw1 Hl Hw2 Ho Hw3 Hw4 Hs|k t s s' Hm Hs].
  - rewrite <- sapp_assoc. eapply nm_here; eauto. by apply blank_app.
  - rewrite <- sapp_assoc. eapply nm_later; eauto.
Qed.
Lemma null_elem_blank w s : blank w -> null_elem L s -> null_elem L (w +++ s).
Proof.
  intros Hw H.
  assert (Hone : forall t s, elem_text L t s -> elem_text L t (w +++ s)).
  { intros t s0 Hx. destruct Hx. rewrite <- sapp_assoc. econstructor; eauto. by apply blank_app. }
  destruct H as [w1 st ots w2 s Hw1 Ho Hw2 Hs|t s s' Hm Hs].
  - rewrite <- sapp_assoc. eapply ne_here; eauto. by apply blank_app.
  - rewrite <- sapp_assoc. eapply ne_later; eauto.
Qed.

Definition at_null (s : string) : Prop := exists w v, s = w +++ v ∧ blank w ∧ null_inside L v.

Lemma panic_sound_mut f :
  (forall s, parse_val L f s = PPanic -> at_null s) ∧
  (forall acc s, parse_members L f acc s = PPanic -> null_member L s) ∧
  (forall acc s, parse_elems L f acc s = PPanic -> null_elem L s).
Proof.
  induction f as [|f (IHv & IHm & IHe)].
  { repeat split; intros; done. }
  assert (Hval : forall w s, blank w -> parse_val L f s = PPanic ->
     exists w' v, w +++ s = w' +++ v ∧ blank w' ∧ null_here L v).
  { intros w s Hw H. apply IHv in H as (w' & v & -> & Hw' & Hv). exists (w +++ w'), v.
    split; [by rewrite sapp_assoc|]. split; [by apply blank_app|by apply nh_inside]. }
  assert (Hnil : forall w s v r ts, blank w -> parse_val L f s = POk v r -> wrap v ts = None ->
     exists w' v, w +++ s = w' +++ v ∧ blank w' ∧ null_here L v).
  { intros w s v r ts Hw H Hwr. destruct v; try done.
    apply (proj1 (parse_sound_mut _ _)) in H as (w' & k & vs & w'' & -> & Hw' & _ & Hv & _).
    inversion Hv; subst. exists (w +++ w'), ("null" +++ w'' +++ r).
    split; [by rewrite !sapp_assoc|]. split; [by apply blank_app|apply nh_null]. }
  split; [|split].
  - intros s H. rewrite parse_val_S in H. cbv zeta in H.
    destruct (skip_ws_split s) as (w & Hw & E).
    case_decide as Hlt.
    { exfalso. pose proof (parse_timestamp_nf (skip_ws s)).
      destruct (parse_timestamp (skip_ws s)) as [ts r| | |]; simpl in H; try (tauto || done).
      pose proof (parse_primitive_nf L (skip_ws r)).
      destruct (parse_primitive L (skip_ws r)); simpl in H; tauto || done. }
    case_decide as Hob.
    { unfold expect in H. rewrite skip_ws_idem in H.
      destruct (skip_ws s) as [|a r] eqn:Es; [done|]. simpl in Hob. subst a.
      rewrite decide_True in H by done. cbn [pbind] in H.
      destruct (skip_ws_split r) as (w3 & Hw3 & E3).
      assert (Hgo : parse_members L f [] (skip_ws r) = PPanic -> at_null s).
      { intros Hm. apply IHm in Hm. exists w, (String "{" r). split; [done|]. split; [done|].
        apply (ni_obj L r). rewrite E3. by apply null_member_blank. }
      destruct (skip_ws r) as [|c r2]; [auto|]. case_decide; [done|auto]. }
    case_decide as Har.
    { unfold expect in H. rewrite skip_ws_idem in H.
      destruct (skip_ws s) as [|a r] eqn:Es; [done|]. simpl in Har. subst a.
      rewrite decide_True in H by done. cbn [pbind] in H.
      destruct (skip_ws_split r) as (w3 & Hw3 & E3).
      assert (Hgo : parse_elems L f [] (skip_ws r) = PPanic -> at_null s).
      { intros Hm. apply IHe in Hm. exists w, (String "[" r). split; [done|]. split; [done|].
        apply (ni_arr L r). rewrite E3. by apply null_elem_blank. }
      destruct (skip_ws r) as [|c r2]; [auto|]. case_decide; [done|auto]. }
    exfalso.
    assert (Hp : pbind (parse_primitive L (skip_ws s)) (fun p r => trailing_ts p r) ≠ PPanic).
    { pose proof (parse_primitive_nf L (skip_ws s)).
      destruct (parse_primitive L (skip_ws s)); simpl; try (tauto || done). apply trailing_nf. }
    case_decide; [done|]. destruct (starts_number _); [done|].
    destruct (drop_prefix "true" _); [by apply (trailing_nf (PBool true) s0)|].
    destruct (drop_prefix "false" _); [by apply (trailing_nf (PBool false) s0)|].
    destruct (drop_prefix "null" _); done.
  - intros acc s H. rewrite parse_members_S in H. cbv zeta in H.
    destruct (skip_ws_split s) as (w & Hw & E).
    pose proof (parse_string_nf (skip_ws s)) as [_ Hnf].
    destruct (parse_string (skip_ws s)) as [key r| | |] eqn:E1; simpl pbind in H; try done.
    apply parse_string_sound in E1 as (w1 & txt & Hw1 & Hl & E1).
    pose proof (opt_stamp_nf r) as [_ Hnf'].
    match type of H with pbind ?x _ = _ => destruct x as [ts r3| | |] eqn:E2 end; simpl pbind in H;
      try done.
    apply opt_stamp_sound in E2 as (w2 & st & ots & w3 & Hw2 & Hw3 & Ho & E2 & Hts & Hlt & Hsk).
    destruct (expect ":" r3) as [u r4| | |] eqn:E3; simpl pbind in H; try done.
    2:{ exfalso. unfold expect in E3. destruct (skip_ws r3); [done|]. by case_decide. }
    apply expect_sound in E3 as (w4 & Hw4 & E3).
    destruct (skip_ws_split r4) as (w5 & Hw5 & E5).
    assert (Hhere : (exists w' v, w5 +++ skip_ws r4 = w' +++ v ∧ blank w' ∧ null_here L v) ->
      null_member L s).
    { intros (w' & v & Ev & Hw' & Hv). rewrite <- E5 in Ev.
      rewrite E, E1, E2, E3, Ev.
      assert (Es : w +++ w1 +++ String dquote (txt +++ String dquote
          (w2 +++ st +++ w3 +++ w4 +++ String ":" (w' +++ v)))
        = (w +++ w1) +++ String dquote (txt +++ String dquote
          (w2 +++ st +++ (w3 +++ w4) +++ ":" +++ w' +++ v))) by by rewrite !sapp_assoc.
      rewrite Es. eapply nm_here; eauto; by apply blank_app. }
    destruct (parse_val L f (skip_ws r4)) as [v r5| | |] eqn:E4; simpl pbind in H; try done.
    2:{ apply Hhere. eauto. }
    destruct (wrap v ts) as [v'|] eqn:Hwr; [|eauto].
    apply (proj1 (parse_sound_mut _ _)) in E4 as (w6 & k & vs & w7 & E6 & Hw6 & Hw7 & Hv & Ht).
    destruct (wrap_sound _ _ ots _ Hwr Hts) as [-> Hnn].
    destruct (skip_ws_split r5) as (w8 & Hw8 & E8).
    assert (Hmt : member_text L key (retime ots v)
      ((w +++ w1) +++ String (ascii_of_N 34) (txt +++ String (ascii_of_N 34)
        (w2 +++ st +++ (w3 +++ w4) +++ ":" +++ (w5 +++ w6) +++ vs +++ (w7 +++ w8))))).
    { econstructor; eauto; by apply blank_app. }
    assert (Es : s = ((w +++ w1) +++ String (ascii_of_N 34) (txt +++ String (ascii_of_N 34)
        (w2 +++ st +++ (w3 +++ w4) +++ ":" +++ (w5 +++ w6) +++ vs +++ (w7 +++ w8)))) +++ skip_ws r5).
    { rewrite !sapp_assoc, scons_app, sapp_assoc, scons_app, !sapp_assoc. simpl String.append.
      rewrite ?sapp_assoc. rewrite E at 1. rewrite E1, E2, E3, E5, E6, E8 at 1.
      rewrite ?sapp_assoc. done. }
    destruct (skip_ws r5) as [|a r6]; [done|].
    case_decide; [|by case_decide]. subst a. apply IHm in H. rewrite Es.
    by apply (nm_later L _ _ _ r6 Hmt).
  - intros acc s H. rewrite parse_elems_S in H. cbv zeta in H.
    pose proof (opt_stamp_nf s) as [_ Hnf'].
    match type of H with pbind ?x _ = _ => destruct x as [ts r3| | |] eqn:E2 end; simpl pbind in H;
      try done.
    apply opt_stamp_sound in E2 as (w2 & st & ots & w3 & Hw2 & Hw3 & Ho & E2 & Hts & Hlt & Hsk).
    assert (Hhere : (exists w' v, w3 +++ r3 = w' +++ v ∧ blank w' ∧ null_here L v) ->
      null_elem L s).
    { intros (w' & v & Ev & Hw' & Hv). rewrite E2, Ev. eapply ne_here; eauto. }
    destruct (parse_val L f r3) as [v r5| | |] eqn:E4; simpl pbind in H; try done.
    2:{ apply Hhere. eauto. }
    destruct (wrap v ts) as [v'|] eqn:Hwr; [|eauto].
    apply (proj1 (parse_sound_mut _ _)) in E4 as (w6 & k & vs & w7 & E6 & Hw6 & Hw7 & Hv & Ht).
    destruct (wrap_sound _ _ ots _ Hwr Hts) as [-> Hnn].
    destruct (skip_ws_split r5) as (w8 & Hw8 & E8).
    assert (Hw6n : w6 = "").
    { destruct Hw6 as [|b w6 Hb Hw6]; [done|]. exfalso. rewrite E6 in Hsk. simpl in Hsk.
      apply blank_ws in Hb. rewrite Hb in Hsk.
      pose proof (slength_skip_ws (w6 +++ vs +++ w7 +++ r5)) as Hlen. rewrite Hsk in Hlen.
      simpl in Hlen. lia. }
    subst w6. simpl in E6.
    assert (Hmt : elem_text L (retime ots v) (w2 +++ st +++ w3 +++ vs +++ (w7 +++ w8))).
    { econstructor; eauto; [|by apply blank_app]. intros HN [r' E']. apply (Hlt HN).
      rewrite E6, E'. by eexists. }
    assert (Es : s = (w2 +++ st +++ w3 +++ vs +++ (w7 +++ w8)) +++ skip_ws r5).
    { rewrite E2, E6, E8 at 1. by rewrite !sapp_assoc. }
    destruct (skip_ws r5) as [|a r6]; [done|].
    case_decide; [|by case_decide]. subst a. apply IHe in H. rewrite Es.
    by apply (ne_later L _ _ r6 Hmt).
Qed.

Lemma null_here_head s : null_here L s ->
  exists a r, s = String a r ∧ (a = "n" ∨ a = "{" ∨ a = "[")%char.
Proof.
  destruct 1 as [rest|s H]; [simpl; eauto|]. destruct H; simpl; eauto 10.
Qed.

Lemma panic_complete_mut :
  (forall s, null_inside L s -> forall f, (2 * slength s + 1 <= f)%nat -> parse_val L f s = PPanic) ∧
  (forall s, null_here L s -> forall f, (2 * slength s + 1 <= f)%nat ->
     parse_val L f s = PPanic ∨ exists r, parse_val L f s = POk TNil r) ∧
  (forall s, null_member L s -> forall f acc, (2 * slength s + 2 <= f)%nat ->
     parse_members L f acc s = PPanic) ∧
  (forall s, null_elem L s -> forall f acc, (2 * slength s + 2 <= f)%nat ->
     parse_elems L f acc s = PPanic).
Proof.
  apply null_mutind.
  - intros s Hs IH f Hf. destruct f as [|f]; [lia|]. simpl in Hf.
    change ("{" +++ s) with (String "{" s).
    rewrite parse_val_S. cbv zeta. rewrite (skip_ws_id _ s) by done. cbn [peek].
    rewrite decide_False by done. rewrite decide_True by done.
    rewrite (expect_ok "{" _ s); [|done|by rewrite skip_ws_id]. cbn [pbind].
    assert (Hskip : forall f acc x, parse_members L f acc (skip_ws x) = parse_members L f acc x).
    { intros [|f0] acc x; [done|]; rewrite !parse_members_S; cbv zeta. by rewrite skip_ws_idem. }
    rewrite <- (IH f []) by lia. rewrite <- (Hskip f [] s).
    destruct (skip_ws s) as [|a r] eqn:E; [done|].
    rewrite decide_False; [done|]. intros ->.
    assert (Hh : exists w r, blank w ∧ s = w +++ String dquote r).
    { destruct Hs as [|k t s s' Hm _]; [do 2 eexists; eauto|]. destruct Hm.
      rewrite sapp_assoc. do 2 eexists; eauto. }
    destruct Hh as (w & r' & Hw & ->). rewrite skip_ws_blank in E by done. done.
  - intros s Hs IH f Hf. destruct f as [|f]; [lia|]. simpl in Hf.
    change ("[" +++ s) with (String "[" s).
    rewrite parse_val_S. cbv zeta. rewrite (skip_ws_id _ s) by done. cbn [peek].
    do 2 rewrite decide_False by done. rewrite decide_True by done.
    rewrite (expect_ok "[" _ s); [|done|by rewrite skip_ws_id]. cbn [pbind].
    assert (Hskip : forall f acc x, parse_elems L f acc (skip_ws x) = parse_elems L f acc x).
    { intros [|f0] acc x; [done|]; rewrite !parse_elems_S; cbv zeta. by rewrite skip_ws_idem. }
    rewrite <- (IH f []) by lia. rewrite <- (Hskip f [] s).
    destruct (skip_ws s) as [|a r] eqn:E; [done|].
    rewrite decide_False; [done|]. intros ->.
    assert (Hh : exists w a r, blank w ∧ s = w +++ String a r ∧ is_ws a = false ∧ a ≠ "]"%char).
    { destruct Hs as [w1 st ots w2 s Hw1 Ho Hw2 Hs|t s s' Hm _].
      - destruct Ho as [|st ts Hst].
        + destruct (null_here_head _ Hs) as (a & r' & -> & Ha).
          exists (w1 +++ w2), a, r'. split; [by apply blank_app|]. split; [by rewrite sapp_assoc|].
          destruct Ha as [->|[->| ->]]; done.
        + exists w1. destruct Hst; simpl; do 2 eexists; eauto.
      - destruct (elems_head L _ _ (es_one L _ _ Hm)) as (w & a & r' & Hw & -> & Ha & Ha').
        exists w, a, (r' +++ "," +++ s'). rewrite sapp_assoc. done. }
    destruct Hh as (w & a & r' & Hw & -> & Ha & Ha').
    rewrite skip_ws_blank, skip_ws_id in E by done. congruence.
  - intros rest f Hf. destruct f as [|f]; [simpl in Hf; lia|]. right. exists rest.
    rewrite parse_val_S. cbv zeta. simpl. done.
  - intros s _ IH f Hf. left. auto.
  - intros w1 txt k w2 st ots w3 w4 s Hw1 Hl Hw2 Ho Hw3 Hw4 Hs IH f acc Hf.
    destruct f as [|f]; [lia|].
    rewrite parse_members_S. cbv zeta. rewrite skip_ws_blank by done. rewrite skip_ws_id by done.
    rewrite (parse_string_ok0 txt k _ Hl). cbn [pbind].
    change (":" +++ w4 +++ s) with (String ":" (w4 +++ s)).
    destruct (opt_stamp_ok st ots w2 w3 ":" (w4 +++ s) Ho Hw2 Hw3)
      as (ts & Hts & ->); [done|done|].
    cbn [pbind]. rewrite (expect_ok ":" _ (w4 +++ s)) by done.
    cbn [pbind]. rewrite skip_ws_blank by done.
    assert (Esk : skip_ws s = s).
    { destruct (null_here_head _ Hs) as (a & r' & -> & Ha). apply skip_ws_id.
      destruct Ha as [->|[->| ->]]; done. }
    rewrite Esk. destruct (IH f) as [->|[r ->]]; [|done|done].
    rewrite slength_app in Hf. simpl in Hf. rewrite !slength_app in Hf. simpl in Hf.
    rewrite !slength_app in Hf. simpl in Hf. rewrite !slength_app in Hf. lia.
  - intros k t s s' Hm Hs IH f acc Hf. destruct f as [|f]; [lia|].
    rewrite !slength_app in Hf. simpl in Hf.
    destruct (parse_complete_mut L) as (_ & _ & Hmem & _).
    change ("," +++ s') with (String "," s').
    rewrite (Hmem _ _ _ Hm) by (auto; lia). rewrite decide_True by done. apply IH. lia.
  - intros w1 st ots w2 s Hw1 Ho Hw2 Hs IH f acc Hf. destruct f as [|f]; [lia|].
    rewrite parse_elems_S. cbv zeta.
    destruct (null_here_head _ Hs) as (c & r & Es & Hc). rewrite Es.
    destruct (opt_stamp_ok st ots w1 w2 c r Ho Hw1 Hw2)
      as (ts & Hts & ->); [by destruct Hc as [->|[->| ->]]|by destruct Hc as [->|[->| ->]]|].
    rewrite <- Es. cbn [pbind]. destruct (IH f) as [->|[r' ->]]; [|done|done].
    rewrite !slength_app in Hf. lia.
  - intros t s s' Hm Hs IH f acc Hf. destruct f as [|f]; [lia|].
    rewrite !slength_app in Hf. simpl in Hf.
    destruct (parse_complete_mut L) as (_ & _ & _ & _ & Hmem).
    change ("," +++ s') with (String "," s').
    rewrite (Hmem _ _ Hm) by (auto; lia). rewrite decide_True by done. apply IH. lia.
Qed.

Lemma unmarshal_panic s :
  unmarshal L s = Panic <-> exists w v, s = w +++ v ∧ blank w ∧ null_inside L v.
Proof.
  unfold unmarshal. pose proof (unmarshal_terminates L s) as Ht. split.
  - destruct (parse_val L (parse_fuel s) (skip_ws s)) eqn:E; try done. intros _.
    apply (proj1 (panic_sound_mut _)) in E as (w & v & E & Hw & Hv).
    destruct (skip_ws_split s) as (w0 & Hw0 & E0).
    exists (w0 +++ w), v. split; [rewrite E0, E; by rewrite sapp_assoc|].
    split; [by apply blank_app|done].
  - intros (w & v & -> & Hw & Hv).
    assert (Es : skip_ws (w +++ v) = v).
    { rewrite skip_ws_blank by done.
      destruct (null_here_head _ (nh_inside L _ Hv)) as (a & r' & -> & Ha). apply skip_ws_id.
      destruct Ha as [->|[->| ->]]; done. }
    rewrite Es. rewrite (proj1 panic_complete_mut _ Hv); [done|].
    unfold parse_fuel. rewrite slength_app. lia.
Qed.
End panic.
