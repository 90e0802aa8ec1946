(** Texts that are both TSON and JSON: outside of string literals, JSON has no angle bracket. *)
From Verif Require Import Base BaseLemmas BaseSpec BaseSpecLemmas F64 Tson TsonInd Serial JsonSpec JsonParse TextSpec Bytes BytesSpec.
From Coq Require Import Lia.

Inductive mode := Out | Within | Escaped.
Fixpoint run (st : mode) (s : string) : mode * bool :=
  match s with
  | "" => (st, false)
  | String a s' =>
      let n := N_of_ascii a in
      let '(st1, b1) := match st with
        | Out => (if decide (n = 34%N) then Within else Out, bool_decide (n = 60%N))
        | Within => (if decide (n = 34%N) then Out else if decide (n = 92%N) then Escaped else Within, false)
        | Escaped => (Within, false)
        end in
      let '(st2, b2) := run st1 s' in (st2, b1 || b2)
  end.
Lemma run_app st s s' : run st (s +++ s') = let '(st1, b1) := run st s in let '(st2, b2) := run st1 s' in (st2, b1 || b2).
Proof.
  revert st. induction s as [|a s IH]; intros st.
  - cbn [run String.append]. by destruct (run st s').
  - cbn [run String.append]. destruct st; rewrite IH; (case_decide; [|try case_decide]) || idtac;
      repeat match goal with |- context [run ?x ?y] => destruct (run x y) end; by rewrite ?orb_assoc.
Qed.
Lemma run_join st st' st'' s s' b b' : run st s = (st', b) -> run st' s' = (st'', b') -> run st (s +++ s') = (st'', b || b').
Proof. intros E E'. rewrite run_app, E, E'. done. Qed.
Notation calm s := (run Out s = (Out, false)).
Lemma calm_app s s' : calm s -> calm s' -> calm (s +++ s').
Proof. intros H H'. exact (run_join _ _ _ _ _ _ _ H H'). Qed.
Lemma in_app s s' : run Within s = (Within, false) -> run Within s' = (Within, false) -> run Within (s +++ s') = (Within, false).
Proof. intros H H'. exact (run_join _ _ _ _ _ _ _ H H'). Qed.
Lemma calm_cons a s : N_of_ascii a ≠ 34%N -> N_of_ascii a ≠ 60%N -> calm s -> calm (String a s).
Proof. intros H1 H2 H. cbn [run]. rewrite decide_False, bool_decide_eq_false_2, H by done. done. Qed.
Lemma in_cons a s : N_of_ascii a ≠ 34%N -> N_of_ascii a ≠ 92%N -> run Within s = (Within, false) -> run Within (String a s) = (Within, false).
Proof. intros H1 H2 H. cbn [run]. rewrite !decide_False, H by done. done. Qed.
Lemma digits_calm s n : digits s n -> calm s.
Proof.
  induction 1 as [a d [Hd E]|s n a d _ IH [Hd E]].
  - apply calm_cons; [lia|lia|done].
  - apply calm_app; [done|]. apply calm_cons; [lia|lia|done].
Qed.
Lemma white_calm s : white s -> calm s.
Proof. induction 1 as [|a s Ha _ IH]; [done|]. simpl in Ha. apply calm_cons; [lia|lia|done]. Qed.
Lemma blank_calm s : blank s -> calm s.
Proof. induction 1 as [|a s Ha _ IH]; [done|]. simpl in Ha. apply calm_cons; [lia|lia|done]. Qed.

(** ** JSON *)
Lemma number_calm s : number_text s -> calm s.
Proof.
  assert (Hs : forall s, some_digits s -> calm s) by (intros ? (n & H); by eapply digits_calm).
  intros [g i f e Hg Hi Hf He]. repeat apply calm_app.
  - by destruct Hg as [-> | ->].
  - destruct Hi; [done|]. by apply Hs.
  - destruct Hf; [done|]. apply calm_app; [done|]. by apply Hs.
  - destruct He as [|e g' s0 He Hg' Hd]; [done|]. apply calm_app; [by destruct He as [-> | ->]|].
    apply calm_app; [by destruct Hg' as [-> |[-> | ->]]|]. by apply Hs.
Qed.
Lemma hex_in a d s : hex a d -> run Within s = (Within, false) -> run Within (String a s) = (Within, false).
Proof. intros H Hs. apply in_cons; [| |done]; destruct H as [[? ?]|[? [?|?]]]; lia. Qed.
Lemma u_in u r : u_text u r -> run Within u = (Within, false).
Proof.
  intros (h & -> & Hh). inversion Hh; subst. change (run Within (bytes [92; 117]%N) = (Within, false)) with (run Within (bytes [92; 117]%N) = (Within, false)).
  apply in_app; [done|]. repeat (eapply hex_in; [eassumption|]). done.
Qed.
Lemma high_in l s : Forall (fun n => 128 <= n < 256)%N l -> run Within s = (Within, false) -> run Within (bytes l +++ s) = (Within, false).
Proof.
  intros HF Hs. induction HF as [|n l Hn HF IH]; [done|]. change (bytes (n :: l) +++ s) with (String (ascii_of_N n) (bytes l +++ s)).
  apply in_cons; [| |done]; rewrite N_ascii_embedding by lia; lia.
Qed.
Lemma utf8_high r : code_point r -> Forall (fun n => 128 <= n < 256)%N (utf8_bytes r).
Proof.
  unfold code_point, utf8_bytes. intros Hr.
  assert (Hm : forall x, (128 <= 128 + x mod 64 < 256)%N).
  { intros x. assert (G : (x mod 64 < 64)%N) by (by apply N.mod_lt). revert G. generalize (x mod 64)%N. intros; lia. }
  assert (Hd : forall a x, (192 <= a -> x < 256 - a -> 128 <= a + x < 256)%N) by (intros; lia).
  repeat case_decide; repeat apply Forall_cons_2; try apply Forall_nil_2; try apply Hm; apply Hd; try done; apply N.div_lt_upper_bound; lia.
Qed.
Lemma chars_in s v : chars s v -> run Within s = (Within, false).
Proof.
  induction 1 as [|a s v H1 H2 H3 _ IH|r s v Hr _ IH|a s v Ha _ _ IH|e c s v He _ IH|u r s v Hu _ _ IH|u u' r r' s v Hu Hu' _ _ _ _ IH|u r s v Hu _ _ _ IH].
  - done.
  - by apply in_cons.
  - apply high_in; [by apply utf8_high|done].
  - apply in_cons; [lia|lia|done].
  - apply in_app; [|done]. simpl in He. intuition (simplify_eq; vm_compute; reflexivity).
  - apply in_app; [by eapply u_in|done].
  - apply in_app; [by eapply u_in|]. apply in_app; [by eapply u_in|done].
  - apply in_app; [by eapply u_in|done].
Qed.
Lemma string_calm s v : string_text s v -> calm s.
Proof.
  intros (c & -> & H%chars_in). apply (run_join Out Within Out _ _ false false); [done|]. exact (run_join Within Within Out c (bytes [34]%N) false false H eq_refl).
Qed.
Lemma json_calm : (forall s t, value_text s t -> calm s) ∧ (forall s l, JsonSpec.elems_text s l -> calm s) ∧ (forall s m, JsonSpec.members_text s m -> calm s).
Proof.
  apply JsonParse.text_ind; intros; try done; repeat apply calm_app; try done; eauto using white_calm, number_calm, string_calm.
Qed.
Lemma json_text_calm s t : json_text s t -> calm s.
Proof. intros [w s' w' t' H1 H2 H3]. repeat apply calm_app; [by apply white_calm|by eapply (proj1 json_calm)|by apply white_calm]. Qed.

(** ** TSON *)
Definition unstamped (t : tson) : Prop := every_stamp (fun ts => ts = 0 ∨ ts = -1) t.
Lemma stamp_loud s ts : stamp s ts -> run Out s = (Out, true).
Proof.
  intros [|d n w Hd _ Hw]; [done|]. apply (run_join Out Out Out "<" _ true false); [done|].
  apply calm_app; [by eapply digits_calm|]. apply calm_app; [by apply blank_calm|done].
Qed.
Lemma literal_in txt s : literal txt s -> run Within txt = (Within, false).
Proof.
  induction 1 as [|a txt s H1 H2 _ IH|e c txt s He _ IH]; [done| |].
  - apply in_cons; [| |done]; intros E; [apply H1|apply H2]; rewrite <- (ascii_N_embedding a), E; done.
  - exact (in_app (String (ascii_of_N 92) (String e "")) txt eq_refl IH).
Qed.
Lemma quoted_run txt s rest : literal txt s -> run Out (String (ascii_of_N 34) (txt +++ String (ascii_of_N 34) rest)) = run Out rest.
Proof.
  intros H%literal_in. change (String (ascii_of_N 34) (txt +++ String (ascii_of_N 34) rest)) with (bytes [34]%N +++ (txt +++ (bytes [34]%N +++ rest))).
  destruct (run Out rest) as [st b] eqn:E. apply (run_join Out Within st _ _ false b); [done|]. apply (run_join Within Within st _ _ false b); [done|].
  by apply (run_join Within Out st _ _ false b).
Qed.
Section tson.
Context (L : textlib).
Lemma scalar_calm k p s : scalar_text L k p s -> calm s.
Proof.
  intros [txt s' H|txt f d [sg ip fp f' dd H1 H2 H3 _]| |].
  - by rewrite (quoted_run txt s' "" H).
  - assert (Hd : forall x, opt_digits x -> calm x) by (intros x [->|(n & Hx)]; [done|by eapply digits_calm]).
    apply calm_app; [by destruct H1 as [-> |[-> _]]|]. apply calm_app; [by apply Hd|].
    destruct H3 as [[_ ->]|(_ & x & -> & Hx)]; [done|]. by apply calm_cons; [done|done|apply Hd].
  - done.
  - done.
Qed.
(** [says s P]: outside of literals [s] is complete, and without an angle bracket [P] holds. *)
Definition says (s : string) (P : Prop) : Prop := exists b, run Out s = (Out, b) ∧ (b = false -> P).
Lemma says_calm s (P : Prop) : calm s -> P -> says s P.
Proof. intros H HP. by exists false. Qed.
Lemma says_app s s' (P Q PQ : Prop) : says s P -> says s' Q -> (P -> Q -> PQ) -> says (s +++ s') PQ.
Proof.
  intros (b & E & HP) (b' & E' & HQ) H. exists (b || b'). split; [exact (run_join _ _ _ _ _ _ _ E E')|].
  intros [-> ->]%orb_false_iff. apply H; [by apply HP|by apply HQ].
Qed.
Lemma says_pre s s' (P : Prop) : calm s -> says s' P -> says (s +++ s') P.
Proof. intros H H'. eapply says_app; [by apply (says_calm s True)|exact H'|done]. Qed.
Lemma says_post s s' (P : Prop) : says s P -> calm s' -> says (s +++ s') P.
Proof. intros H H'. eapply says_app; [exact H|by apply (says_calm s' True)|done]. Qed.
Lemma stamp_says s o : opt_stamp s o -> says s (o = None).
Proof. intros [|s' ts H%stamp_loud]; [by exists false|by exists true]. Qed.
Lemma insert_unstamped k t m : unstamped t -> Forall (fun kv : string * tson => unstamped (snd kv)) m -> Forall (fun kv => unstamped (snd kv)) (ainsert k t m).
Proof.
  intros Ht HF. induction HF as [|[k' t'] m Hx HF IH]; cbn [ainsert]; [by repeat constructor|].
  case_decide; by constructor.
Qed.
Lemma last_unstamped m : Forall (fun kv : string * tson => unstamped (snd kv)) m -> Forall (fun kv => unstamped (snd kv)) (last_wins m).
Proof.
  unfold last_wins. assert (H : Forall (fun kv : string * tson => unstamped (snd kv)) []) by constructor. revert H. generalize (@nil (string * tson)).
  induction m as [|[k t] m IH]; intros acc Hacc HF; [done|]. inversion HF; subst. cbn [fold_left]. apply IH; [by apply insert_unstamped|done].
Qed.
Lemma retime_unstamped t : unstamped t -> unstamped (retime None t).
Proof. intros H. destruct t; try done. constructor. by left. Qed.
Lemma tson_says :
  (forall k t s, val_text L k t s -> says s (unstamped t)) ∧
  (forall m s, members_text L m s -> says s (Forall (fun kv => unstamped (snd kv)) m)) ∧
  (forall k t s, member_text L k t s -> says s (unstamped t)) ∧
  (forall l s, elems_text L l s -> says s (Forall unstamped l)) ∧
  (forall t s, elem_text L t s -> says s (unstamped t)).
Proof.
  apply text_mutind.
  - apply says_calm; [done|constructor].
  - intros k p s H. apply says_calm; [by eapply scalar_calm|]. constructor. by right.
  - intros k p s w st ts H Hw Hst. apply says_pre; [by eapply scalar_calm|]. apply says_pre; [by apply blank_calm|].
    exists true. split; [by eapply stamp_loud|done].
  - intros k p s w st ts Hst Hw H _. apply says_post; [|apply calm_app; [by apply blank_calm|by eapply scalar_calm]].
    exists true. split; [by eapply stamp_loud|done].
  - intros w Hw. apply says_calm; [|by repeat constructor]. apply calm_app; [done|]. apply calm_app; [by apply blank_calm|done].
  - intros m s _ IH. apply says_pre; [done|]. apply says_post; [|done]. destruct IH as (b & E & H). exists b. split; [done|].
    intros Hb. constructor. by apply last_unstamped, H.
  - intros w Hw. apply says_calm; [|by repeat constructor]. apply calm_app; [done|]. apply calm_app; [by apply blank_calm|done].
  - intros l s _ IH. apply says_pre; [done|]. apply says_post; [|done]. destruct IH as (b & E & H). exists b. split; [done|].
    intros Hb. constructor. by apply H.
  - intros k t s _ IH. destruct IH as (b & E & H). exists b. split; [done|]. intros Hb. constructor; [by apply H|constructor].
  - intros k t s m s' _ IH _ IH'. eapply says_app; [exact IH|by apply says_pre; [|exact IH']|]. intros H1 H2. by constructor.
  - intros w1 txt k w2 st ots w3 w4 tl v vs w5 H1 Hl H2 Hst H3 H4 _ IH _ H5. apply says_pre; [by apply blank_calm|].
    assert (G : says (w2 +++ st +++ w3 +++ ":" +++ w4 +++ vs +++ w5) (unstamped (retime ots v))).
    { apply says_pre; [by apply blank_calm|]. eapply says_app; [by apply stamp_says| |].
      - apply says_pre; [by apply blank_calm|]. apply says_pre; [done|]. apply says_pre; [by apply blank_calm|].
        apply says_post; [exact IH|by apply blank_calm].
      - intros -> H. by apply retime_unstamped. }
    destruct G as (b & E & H). exists b. split; [|done]. by rewrite (quoted_run txt k).
  - intros t s _ IH. destruct IH as (b & E & H). exists b. split; [done|]. intros Hb. constructor; [by apply H|constructor].
  - intros t s l s' _ IH _ IH'. eapply says_app; [exact IH|by apply says_pre; [|exact IH']|]. intros H1 H2. by constructor.
  - intros w1 st ots w2 tl v vs w3 H1 Hst H2 _ IH _ _ H3. apply says_pre; [by apply blank_calm|].
    eapply says_app; [by apply stamp_says| |].
    + apply says_pre; [by apply blank_calm|]. apply says_post; [exact IH|by apply blank_calm].
    + intros -> H. by apply retime_unstamped.
Qed.
Lemma both_unstamped s t tr : doc_text L t s -> json_text s tr -> unstamped t.
Proof.
  intros (w & k & vs & rest & -> & Hw & Hv & _) HJ%json_text_calm.
  destruct (proj1 tson_says _ _ _ Hv) as (b & E & H). apply H. rewrite run_app, (blank_calm w Hw), run_app, E in HJ.
  destruct (run Out rest) as [st b']. injection HJ as _ Hb. by apply orb_false_iff in Hb as [? _].
Qed.
End tson.
