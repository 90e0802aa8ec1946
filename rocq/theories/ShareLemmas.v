(** Proofs about several logs over shared operation arrays. *)
From Verif Require Import Base F64 Tson Heap Patch Logument LogSpec Alias AliasSpec AliasLemmas Share ShareSpec.
From Coq Require Import Lia.

#[global] Instance slice_eq_dec : EqDecision slice.
Proof. solve_decision. Defined.

(** ** The invariant *)
Definition patch_use (w : shares) (s : slice) : Prop := exists k L v, snd w !! k = Some L ∧ al_patches L !! v = Some s.
Definition pool_use (w : shares) (k : nat) (p : slice) : Prop := exists L, snd w !! k = Some L ∧ al_pool L = Some p.
(** The versions of one log have different slices. *)
Definition once (L : alog) : Prop := forall u v s, al_patches L !! u = Some s -> al_patches L !! v = Some s -> u = v.
(** Patches share an array only when they are one slice; the array of a pool is its own. *)
Record kinv (w : shares) : Prop := {
  k_patch : forall s, patch_use w s -> valid (fst w) s;
  k_pool : forall k p, pool_use w k p -> valid (fst w) p;
  k_same : forall s s', patch_use w s -> patch_use w s' -> s_arr s = s_arr s' -> s = s';
  k_apart : forall k p s, pool_use w k p -> patch_use w s -> s_arr s <> s_arr p;
  k_own : forall k k' p p', pool_use w k p -> pool_use w k' p' -> k <> k' -> s_arr p <> s_arr p';
  k_once : forall k L, snd w !! k = Some L -> once L }.

Lemma used_iff w x : used w x <-> (exists s, patch_use w s ∧ s_arr s = x) ∨ (exists k p, pool_use w k p ∧ s_arr p = x).
Proof.
  split.
  - intros (k & L & EL & [(p & E & <-)|(v & s & E & <-)]); [right|left].
    + exists k, p. split; [by exists L|done].
    + exists s. split; [by exists k, L, v|done].
  - intros [(s & (k & L & v & EL & E) & <-)|(k & p & (L & EL & E) & <-)]; exists k, L; (split; [done|]).
    + right. by exists v, s.
    + left. by exists p.
Qed.
Lemma fresh_unused w : kinv w -> ~ used w (length (fst w)).
Proof.
  intros [I1 I2 _ _ _ _] H. apply used_iff in H as [(s & H & E)|(k & p & H & E)].
  - destruct (I1 _ H) as (_ & Hl & _). lia.
  - destruct (I2 _ _ H) as (_ & Hl & _). lia.
Qed.
Lemma kinv_single w k L : kinv w -> snd w !! k = Some L -> inv (fst w, L).
Proof.
  intros [I1 I2 I3 I4 I5 I6] E. constructor; cbn [fst snd].
  - intros v s Es. apply I1. by exists k, L, v.
  - intros p Ep. apply (I2 k). by exists L.
  - intros p v s Ep Es. left. apply (I4 k); [by exists L|by exists k, L, v].
Qed.

(** Lookups in a changed list of logs. *)
Lemma use_insert M Ls k L L' s : Ls !! k = Some L -> patch_use (M, <[k := L']> Ls) s ->
  (exists v, al_patches L' !! v = Some s) ∨ patch_use (M, Ls) s.
Proof.
  intros E (j & L0 & v & E0 & Es). cbn [snd] in *. destruct (decide (k = j)) as [<-|Hne].
  - rewrite list_lookup_insert in E0 by (by eapply lookup_lt_Some). injection E0 as <-. left. by exists v.
  - rewrite list_lookup_insert_ne in E0 by done. right. by exists j, L0, v.
Qed.
Lemma pool_insert M Ls k L L' j p : Ls !! k = Some L -> pool_use (M, <[k := L']> Ls) j p ->
  (j = k ∧ al_pool L' = Some p) ∨ (j <> k ∧ pool_use (M, Ls) j p).
Proof.
  intros E (L0 & E0 & Ep). cbn [snd] in *. destruct (decide (k = j)) as [<-|Hne].
  - rewrite list_lookup_insert in E0 by (by eapply lookup_lt_Some). injection E0 as <-. by left.
  - rewrite list_lookup_insert_ne in E0 by done. right. split; [done|]. by exists L0.
Qed.
Lemma once_insert (Ls : list alog) (k : nat) L' : (forall (j : nat) L, Ls !! j = Some L -> once L) -> once L' ->
  forall (j : nat) L, <[k := L']> Ls !! j = Some L -> once L.
Proof. intros H H' j L E. apply list_lookup_insert_Some in E as [(_ & <- & _)|[_ E]]; [done|by apply (H j)]. Qed.
(** Only the arrays matter for [patch_use] and [pool_use]. *)
Definition grows (M M' : mem) : Prop := forall s, valid M s -> valid M' s.
Lemma grows_refl M : grows M M.
Proof. by intros s. Qed.
Lemma grows_make M l : grows M (M ++ [l]).
Proof. intros s. apply valid_make. Qed.
Lemma grows_put M a i xs : (i + length xs <= length (arr_at M a))%nat -> grows M (put_arr M a i xs).
Proof. intros H s Hs. by apply valid_put. Qed.

Lemma kinv_mem M M' Ls : kinv (M, Ls) -> grows M M' -> kinv (M', Ls).
Proof.
  intros [I1 I2 I3 I4 I5 I6] G. constructor; cbn [fst] in *.
  - intros s H. apply G, I1, H.
  - intros k p H. apply G, (I2 k p), H.
  - exact I3.
  - exact I4.
  - exact I5.
  - exact I6.
Qed.
(** The pool changes. *)
Lemma kinv_pool M Ls k L vs p : kinv (M, Ls) -> Ls !! k = Some L -> valid M p ->
  ((exists p0, al_pool L = Some p0 ∧ s_arr p = s_arr p0) ∨ ~ used (M, Ls) (s_arr p)) ->
  kinv (M, <[k := ALog vs (al_patches L) (Some p)]> Ls).
Proof.
  intros HI E Hv Hp. destruct HI as [I1 I2 I3 I4 I5 I6].
  assert (HP : forall s, patch_use (M, <[k := ALog vs (al_patches L) (Some p)]> Ls) s -> patch_use (M, Ls) s).
  { intros s H. apply (use_insert _ _ _ L) in H as [(v & H)|H]; [by exists k, L, v|done|done]. }
  assert (HQ : forall j q, pool_use (M, <[k := ALog vs (al_patches L) (Some p)]> Ls) j q ->
     (j = k ∧ q = p) ∨ (j <> k ∧ pool_use (M, Ls) j q)).
  { intros j q H. apply (pool_insert _ _ _ L) in H as [[-> H]|H]; [left; split; [done|by injection H]|by right|done]. }
  assert (HA : forall s, patch_use (M, Ls) s -> s_arr s <> s_arr p).
  { intros s H Ea. destruct Hp as [(p0 & E0 & Ep)|Hp].
    - apply (I4 k p0 s); [by exists L|done|by rewrite Ea].
    - apply Hp, used_iff. left. by exists s. }
  assert (HB : forall j q, j <> k -> pool_use (M, Ls) j q -> s_arr q <> s_arr p).
  { intros j q Hj H Ea. destruct Hp as [(p0 & E0 & Ep)|Hp].
    - apply (I5 j k q p0); [done|by exists L|done|by rewrite Ea].
    - apply Hp, used_iff. right. by exists j, q. }
  constructor.
  - intros s H. by apply I1, HP.
  - intros j q H. destruct (HQ _ _ H) as [[-> ->]|[_ H']]; [done|by apply (I2 j)].
  - intros s s' H H'. apply I3; by apply HP.
  - intros j q s H H'. apply HP in H'. destruct (HQ _ _ H) as [[-> ->]|[_ H2]]; [by apply HA|by apply (I4 j)].
  - intros j j' q q' H H' Hne. destruct (HQ _ _ H) as [[-> ->]|[Hj H2]], (HQ _ _ H') as [[-> ->]|[Hj' H2']].
    + done.
    + apply not_eq_sym. by apply (HB j').
    + by apply (HB j).
    + by apply (I5 j j').
  - apply once_insert; [exact I6|]. exact (I6 k L E).
Qed.
(** The pool is dropped or kept, the versions change. *)
Lemma kinv_versions M Ls k L vs : kinv (M, Ls) -> Ls !! k = Some L -> kinv (M, <[k := ALog vs (al_patches L) (al_pool L)]> Ls).
Proof.
  intros HI E. destruct HI as [I1 I2 I3 I4 I5 I6].
  assert (HP : forall s, patch_use (M, <[k := ALog vs (al_patches L) (al_pool L)]> Ls) s -> patch_use (M, Ls) s).
  { intros s H. apply (use_insert _ _ _ L) in H as [(v & H)|H]; [by exists k, L, v|done|done]. }
  assert (HQ : forall j q, pool_use (M, <[k := ALog vs (al_patches L) (al_pool L)]> Ls) j q -> pool_use (M, Ls) j q).
  { intros j q H. apply (pool_insert _ _ _ L) in H as [[-> H]|[_ H]]; [by exists L|done|done]. }
  constructor.
  - intros s H. by apply I1, HP.
  - intros j q H. by apply (I2 j), HQ.
  - intros s s' H H'. apply I3; by apply HP.
  - intros j q s H H'. apply (I4 j); [by apply HQ|by apply HP].
  - intros j j' q q' H H' Hne. apply (I5 j j'); [by apply HQ|by apply HQ|done].
  - apply once_insert; [exact I6|]. exact (I6 k L E).
Qed.
Lemma once_added vs v s q L : once L -> (forall u, al_patches L !! u <> Some s) -> once (ALog vs (<[v := s]> (al_patches L)) q).
Proof.
  intros H Hs u u' s' E E'. cbn [al_patches] in *.
  apply lookup_insert_Some in E as [[<- <-]|[_ E]]; apply lookup_insert_Some in E' as [[<- E']|[_ E']]; [done| | |by apply (H _ _ s')].
  - by destruct (Hs u').
  - subst s'. by destruct (Hs u).
Qed.
(** The pool becomes a patch. *)
Lemma kinv_append M Ls k L vs v p : kinv (M, Ls) -> Ls !! k = Some L -> al_pool L = Some p ->
  kinv (M, <[k := ALog vs (<[v := p]> (al_patches L)) None]> Ls).
Proof.
  intros HI E Ep. destruct HI as [I1 I2 I3 I4 I5 I6].
  assert (HK : pool_use (M, Ls) k p) by (by exists L).
  assert (HP : forall s, patch_use (M, <[k := ALog vs (<[v := p]> (al_patches L)) None]> Ls) s -> s = p ∨ patch_use (M, Ls) s).
  { intros s H. apply (use_insert _ _ _ L) in H as [(w & H)|H]; [|by right|done]. cbn [al_patches] in H.
    apply lookup_insert_Some in H as [[_ <-]|[_ H]]; [by left|]. right. by exists k, L, w. }
  assert (HQ : forall j q, pool_use (M, <[k := ALog vs (<[v := p]> (al_patches L)) None]> Ls) j q -> j <> k ∧ pool_use (M, Ls) j q).
  { intros j q H. by apply (pool_insert _ _ _ L) in H as [[-> H]|H]. }
  constructor.
  - intros s H. destruct (HP _ H) as [->|H']; [by apply (I2 k)|by apply I1].
  - intros j q H. by apply (I2 j), HQ.
  - intros s s' H H' Ea. destruct (HP _ H) as [->|H2], (HP _ H') as [->|H2']; [done| | |by apply I3].
    + by destruct (I4 k p s' HK H2').
    + by destruct (I4 k p s HK H2).
  - intros j q s H H'. destruct (HQ _ _ H) as [Hj H2]. destruct (HP _ H') as [->|H2']; [|by apply (I4 j)].
    by apply (I5 k j p q HK H2).
  - intros j j' q q' H H' Hne. apply (I5 j j'); [by apply HQ|by apply HQ|done].
  - apply once_insert; [exact I6|]. apply once_added; [exact (I6 k L E)|]. intros u Eu.
    apply (I4 k p p HK); [by exists k, L, u|done].
Qed.
(** A version gets a slice over an unused array. *)
Lemma kinv_patch M Ls k L vs v s : kinv (M, Ls) -> Ls !! k = Some L -> valid M s -> ~ used (M, Ls) (s_arr s) ->
  kinv (M, <[k := ALog vs (<[v := s]> (al_patches L)) (al_pool L)]> Ls).
Proof.
  intros HI E Hv Hs. destruct HI as [I1 I2 I3 I4 I5 I6].
  set (Ls' := <[k := ALog vs (<[v := s]> (al_patches L)) (al_pool L)]> Ls).
  assert (HP : forall s', patch_use (M, Ls') s' -> s' = s ∨ patch_use (M, Ls) s').
  { intros s' H. apply (use_insert _ _ _ L) in H as [(w & H)|H]; [|by right|done]. cbn [al_patches] in H.
    apply lookup_insert_Some in H as [[_ <-]|[_ H]]; [by left|]. right. by exists k, L, w. }
  assert (HQ : forall j q, pool_use (M, Ls') j q -> pool_use (M, Ls) j q).
  { intros j q H. apply (pool_insert _ _ _ L) in H as [[-> H]|[_ H]]; [by exists L|done|done]. }
  assert (HA : forall s', patch_use (M, Ls) s' -> s_arr s' <> s_arr s).
  { intros s' H Ea. apply Hs, used_iff. left. by exists s'. }
  constructor.
  - intros s' H. destruct (HP _ H) as [->|H']; [done|by apply I1].
  - intros j q H. by apply (I2 j), HQ.
  - intros s1 s2 H H' Ea. destruct (HP _ H) as [->|H2], (HP _ H') as [->|H2']; [done| | |by apply I3].
    + by destruct (HA s2 H2').
    + by destruct (HA s1 H2).
  - intros j q s' H H' Ea. apply HQ in H. destruct (HP _ H') as [->|H2']; [|by apply (I4 j q s' H H2')].
    apply Hs, used_iff. right. by exists j, q.
  - intros j j' q q' H H' Hne. apply (I5 j j'); [by apply HQ|by apply HQ|done].
  - apply once_insert; [exact I6|]. apply once_added; [exact (I6 k L E)|]. intros u Eu.
    apply (HA s); [by exists k, L, u|done].
Qed.
(** A new log with some slices of a log, or none. *)
Lemma kinv_new M Ls L' : kinv (M, Ls) -> (forall v s, al_patches L' !! v = Some s -> patch_use (M, Ls) s) -> al_pool L' = None -> once L' ->
  kinv (M, Ls ++ [L']).
Proof.
  intros HI HL Hn Ho. destruct HI as [I1 I2 I3 I4 I5 I6].
  assert (HP : forall s, patch_use (M, Ls ++ [L']) s -> patch_use (M, Ls) s).
  { intros s (j & L0 & v & E0 & Es). cbn [snd] in *. apply lookup_app_Some in E0 as [E0|[_ E0]]; [by exists j, L0, v|].
    apply list_lookup_singleton_Some in E0 as [_ <-]. by apply (HL v). }
  assert (HQ : forall j q, pool_use (M, Ls ++ [L']) j q -> pool_use (M, Ls) j q).
  { intros j q (L0 & E0 & Eq). cbn [snd] in *. apply lookup_app_Some in E0 as [E0|[_ E0]]; [by exists L0|].
    apply list_lookup_singleton_Some in E0 as [_ <-]. congruence. }
  constructor.
  - intros s H. by apply I1, HP.
  - intros j q H. by apply (I2 j), HQ.
  - intros s s' H H'. apply I3; by apply HP.
  - intros j q s H H'. apply (I4 j); [by apply HQ|by apply HP].
  - intros j j' q q' H H' Hne. apply (I5 j j'); [by apply HQ|by apply HQ|done].
  - intros j L E. cbn [snd] in E. apply lookup_app_Some in E as [E|[_ E]]; [by apply (I6 j)|].
    by apply list_lookup_singleton_Some in E as [_ <-].
Qed.

(** ** What a call on log [k] does *)
(** The other logs keep their slices; the elements of the slices stay, apart from the one that
    was sorted. *)
Definition keeps (M M' : mem) (P : slice -> Prop) : Prop := forall s, P s -> contents M' s = contents M s.
Lemma keeps_put M a i xs (P : slice -> Prop) : (forall s, P s -> s_arr s <> a) -> keeps M (put_arr M a i xs) P.
Proof. intros H s Hs. apply contents_ext. intros j Hj. rewrite arr_put_ne; [done|]. apply not_eq_sym. by apply H. Qed.
Lemma keeps_make M l (P : slice -> Prop) : (forall s, P s -> valid M s) -> keeps M (M ++ [l]) P.
Proof. intros H s Hs. destruct (H s Hs) as (H1 & H2 & H3). unfold contents. by rewrite arr_make. Qed.

(** The slices in use apart from the pool of [k]. *)
Definition rest (w : shares) (k : nat) (s : slice) : Prop := patch_use w s ∨ exists j, j <> k ∧ pool_use w j s.
Lemma rest_valid w k s : kinv w -> rest w k s -> valid (fst w) s.
Proof. intros HI [H|(j & _ & H)]; [by apply (k_patch w)|by apply (k_pool w HI j)]. Qed.
Lemma rest_pool w k p s : kinv w -> pool_use w k p -> rest w k s -> s_arr s <> s_arr p.
Proof. intros HI Hp [H|(j & Hj & H)]; [by apply (k_apart w HI k)|by apply (k_own w HI j k)]. Qed.

Lemma store_step M Ls k L extra s : kinv (M, Ls) -> Ls !! k = Some L ->
  (forall s', s = Some s' -> valid M s' ∧ (~ used (M, Ls) (s_arr s') ∨ al_pool L <> None)) ->
  let r := astore extra s (M, L) in
  kinv (fst r, <[k := snd r]> Ls) ∧ keeps M (fst r) (rest (M, Ls) k) ∧ al_patches (snd r) = al_patches L.
Proof.
  intros HI E Hs. unfold astore. destruct (al_pool L) as [p|] eqn:Ep.
  - assert (Hpu : pool_use (M, Ls) k p) by (by exists L).
    pose proof (k_pool _ HI k p Hpu) as Hv. cbn [fst] in Hv. unfold go_append. set (xs := default [] (contents M <$> s)).
    destruct (Nat.leb_spec (s_len p + length xs) (s_cap p)) as [Hl|Hl]; cbn [make fst snd].
    + assert (Hput : (s_off p + s_len p + length xs <= length (arr_at M (s_arr p)))%nat) by (destruct Hv as (? & ? & ?); lia).
      split_and!; [|apply keeps_put; intros s' Hr; by apply (rest_pool (M, Ls) k)|done].
      apply kinv_pool; [|done| |].
      * apply (kinv_mem M); [done|by apply grows_put].
      * pose proof (valid_put M p (s_arr p) _ xs Hv Hput) as (V1 & V2 & V3). split; [cbn; lia|]. by split.
      * left. by exists p.
    + split_and!; [|apply keeps_make; intros s' Hr; by apply (rest_valid (M, Ls) k)|done].
      apply kinv_pool; [|done|apply valid_made|].
      * apply (kinv_mem M); [done|apply grows_make].
      * right. intros Hu. apply (fresh_unused _ HI). exact Hu.
  - cbn [fst snd]. split_and!; [|done|done]. destruct s as [s|].
    + destruct (Hs s eq_refl) as [Hv [Hu|Hu]]; [|done]. apply kinv_pool; [done|done|done|by right].
    + rewrite <- Ep. by apply kinv_versions.
Qed.
Lemma built_step M Ls k L spare extra p : kinv (M, Ls) -> Ls !! k = Some L ->
  let r := astore_built spare extra p (M, L) in
  kinv (fst r, <[k := snd r]> Ls) ∧ keeps M (fst r) (rest (M, Ls) k) ∧ al_patches (snd r) = al_patches L.
Proof.
  intros HI E. unfold astore_built. destruct (store_arg p) as [[xs|]| |].
  - cbn [make fst snd]. set (M' := M ++ _). set (s := Sl _ _ _ _).
    assert (HI' : kinv (M', Ls)) by (apply (kinv_mem M); [done|apply grows_make]).
    destruct (store_step M' Ls k L extra (Some s) HI' E) as (H1 & H2 & H3).
    { intros s' [= <-]. split; [apply valid_made|]. left. intros Hu. apply (fresh_unused _ HI). exact Hu. }
    split_and!; [exact H1| |exact H3]. intros s' Hr. rewrite H2 by exact Hr.
    by apply contents_make, (rest_valid (M, Ls) k).
  - by apply store_step.
  - cbn [fst snd]. by rewrite list_insert_id.
  - cbn [fst snd]. by rewrite list_insert_id.
Qed.
Lemma append_step M Ls k L : kinv (M, Ls) -> Ls !! k = Some L ->
  let r := fst (aappend (M, L)) in
  kinv (fst r, <[k := snd r]> Ls) ∧ fst r = M ∧ (forall v s, al_patches L !! v = Some s -> al_patches (snd r) !! v = Some s).
Proof.
  intros HI E. unfold aappend. destruct (agrown L); cbn [negb]; [|by rewrite list_insert_id].
  destruct (al_pool L) as [p|] eqn:Ep; [|by rewrite list_insert_id].
  destruct (last (al_version L)) as [v|]; [|by rewrite list_insert_id].
  destruct (al_patches L !! (v + 1)%N) as [s|] eqn:Es; cbn [fst snd]; [by rewrite list_insert_id|].
  split_and!; [by apply kinv_append|done|]. intros u s Eu. cbn [al_patches]. rewrite lookup_insert_ne; congruence.
Qed.
Lemma put_all M s xs : valid M s -> length xs = s_len s ->
  grows M (put_arr M (s_arr s) (s_off s) xs) ∧ contents (put_arr M (s_arr s) (s_off s) xs) s = xs.
Proof.
  intros Hv Hl. pose proof Hv as (V1 & V2 & V3). split; [apply grows_put; lia|].
  apply list_eq. intros j. destruct (decide (j < s_len s)%nat) as [Hj|Hj].
  - rewrite lookup_contents by done. rewrite arr_put_eq by done. apply lookup_put_in; lia.
  - unfold contents. rewrite lookup_take_ge by lia. symmetry. apply lookup_ge_None. lia.
Qed.
Lemma sort_step orc M Ls k L v : oracle_ok orc -> kinv (M, Ls) -> Ls !! k = Some L ->
  let r := asort orc v (M, L) in
  kinv (fst r, <[k := snd r]> Ls) ∧ snd r = L ∧
  (forall s, al_patches L !! v = Some s -> contents (fst r) s = or_sort orc (contents M s)) ∧
  (forall s, rest (M, Ls) k s ∨ pool_use (M, Ls) k s -> al_patches L !! v <> Some s -> contents (fst r) s = contents M s).
Proof.
  intros Ho HI E. unfold asort. destruct (al_patches L !! v) as [s|] eqn:Es; cbn [fst snd].
  - assert (Hu : patch_use (M, Ls) s) by (by exists k, L, v).
    pose proof (k_patch _ HI _ Hu) as Hv. cbn [fst] in Hv.
    destruct (put_all M s (or_sort orc (contents M s)) Hv) as [G1 G2].
    { destruct (proj1 Ho (contents M s)) as [Hp _]. rewrite Hp. by apply contents_length. }
    split_and!.
    + rewrite list_insert_id by done. by apply (kinv_mem M).
    + done.
    + intros s' [= <-]. exact G2.
    + intros s' Hs' Hne. apply contents_ext. intros j Hj. rewrite arr_put_ne; [done|]. intros Ea.
      destruct Hs' as [[H|(i & _ & H)]|H].
      * apply Hne. f_equal. by apply (k_same _ HI).
      * by apply (k_apart _ HI i s' s).
      * by apply (k_apart _ HI k s' s).
  - split_and!; [by rewrite list_insert_id|done|done|done].
Qed.
(** Arrays are only added. *)
Definition extends (M M' : mem) : Prop := forall s, valid M s -> valid M' s ∧ contents M' s = contents M s.
Lemma extends_refl M : extends M M.
Proof. by intros s. Qed.
Lemma extends_make M xs n : extends M (M ++ [xs ++ replicate n zero_op]).
Proof. intros s H. split; [by apply valid_make|by apply contents_make]. Qed.
Lemma extends_trans M1 M2 M3 : extends M1 M2 -> extends M2 M3 -> extends M1 M3.
Proof. intros H1 H2 s H. destruct (H1 s H) as [H3 H4]. destruct (H2 s H3) as [H5 H6]. split; [done|congruence]. Qed.

Lemma compact_step sel vs : forall latest M Ls k L, kinv (M, Ls) -> Ls !! k = Some L ->
  let r := acompact_versions sel latest vs (M, L) in
  kinv (fst r, <[k := snd r]> Ls) ∧ extends M (fst r) ∧
  al_version (snd r) = al_version L ∧ al_pool (snd r) = al_pool L.
Proof.
  induction vs as [|v vs IH]; intros latest M Ls k L HI E; cbn [acompact_versions].
  { cbn [fst snd]. split_and!; try done. by rewrite list_insert_id. }
  destruct (change_filter sel true latest _) as [[latest' ps']| |]; cbn [fst snd];
    [|split_and!; try done; by rewrite list_insert_id..].
  cbn [make]. set (M' := M ++ _). set (s := Sl _ _ _ _). set (L' := ALog _ _ _).
  assert (HI' : kinv (M', <[k := L']> Ls)).
  { apply kinv_patch; [apply (kinv_mem M); [done|apply grows_make]|done|apply valid_made|].
    intros Hu. apply (fresh_unused _ HI). exact Hu. }
  assert (E' : <[k := L']> Ls !! k = Some L') by (apply list_lookup_insert; by eapply lookup_lt_Some).
  destruct (IH latest' M' (<[k := L']> Ls) k L' HI' E') as (H1 & H2 & H3 & H4). rewrite list_insert_insert in H1.
  split_and!; [exact H1| |exact H3|exact H4]. apply (extends_trans _ M'); [apply extends_make|done].
Qed.
Lemma copy_step spare tsi tsj src vs : forall M Ls L, kinv (M, Ls ++ [L]) ->
  let r := acopy_versions spare tsi tsj src vs (M, L) in
  kinv (fst r, Ls ++ [snd r]) ∧ extends M (fst r) ∧ al_pool (snd r) = al_pool L.
Proof.
  induction vs as [|v vs IH]; intros M Ls L HI; cbn [acopy_versions]; [done|].
  destruct (tslice_ops tsi tsj _) as [|q qs]; [by apply IH|].
  cbn [make]. set (M' := M ++ _). set (s := Sl _ _ _ _). set (L' := ALog _ _ _).
  assert (E : (Ls ++ [L]) !! length Ls = Some L) by (by apply list_lookup_middle).
  assert (HI' : kinv (M', Ls ++ [L'])).
  { replace (Ls ++ [L']) with (<[length Ls := L']> (Ls ++ [L])).
    - apply kinv_patch; [apply (kinv_mem M); [done|apply grows_make]|done|apply valid_made|].
      intros Hu. apply (fresh_unused _ HI). exact Hu.
    - by rewrite insert_app_r_alt, Nat.sub_diag by lia. }
  destruct (IH M' Ls L' HI') as (H1 & H2 & H3). split_and!; [done| |done].
  apply (extends_trans _ M'); [apply extends_make|done].
Qed.
Lemma continuous_shape L : exists vs, fst (acontinuous L) = ALog vs (al_patches L) (al_pool L).
Proof. unfold acontinuous. destruct L as [[|v [|w vs]] ps q]; cbn; eauto. Qed.

(** One call keeps the invariant; the elements of the slices that log [j], another log, uses are
    kept, apart from the sorted slice. *)
Lemma used_slices w j L : kinv w -> snd w !! j = Some L ->
  (forall v s, al_patches L !! v = Some s -> valid (fst w) s) ∧ (forall p, al_pool L = Some p -> valid (fst w) p).
Proof.
  intros HI E. split.
  - intros v s Es. apply (k_patch _ HI). by exists j, L, v.
  - intros p Ep. apply (k_pool _ HI j). by exists L.
Qed.
(** What is said of a log that a call is not made on. *)
Definition untouched (M M' : mem) (L : alog) : Prop :=
  (forall v s, al_patches L !! v = Some s -> contents M' s = contents M s) ∧ (forall p, al_pool L = Some p -> contents M' p = contents M p).
Lemma untouched_extends M M' Ls j L : kinv (M, Ls) -> Ls !! j = Some L -> extends M M' -> untouched M M' L.
Proof.
  intros HI E HX. destruct (used_slices (M, Ls) j L HI E) as [H1 H2]. split.
  - intros v s Es. by apply HX, (H1 v).
  - intros p Ep. by apply HX, H2.
Qed.
Lemma untouched_rest M M' Ls k j L : kinv (M, Ls) -> Ls !! j = Some L -> j <> k -> keeps M M' (rest (M, Ls) k) -> untouched M M' L.
Proof.
  intros HI E Hj HK. split.
  - intros v s Es. apply HK. left. by exists j, L, v.
  - intros p Ep. apply HK. right. exists j. split; [done|]. by exists L.
Qed.
Lemma temporal_step orc v M Ls k L : oracle_ok orc -> kinv (M, Ls) -> Ls !! k = Some L ->
  let r := atemporal orc v (M, L) in
  kinv (fst r, <[k := snd r]> Ls) ∧
  (forall u s, al_patches L !! u = Some s -> al_patches (snd r) !! u = Some s) ∧
  (forall s, rest (M, Ls) k s -> contents (fst r) s = contents M s ∨ contents (fst r) s = or_sort orc (contents M s)) ∧
  (forall j p, j <> k -> pool_use (M, Ls) j p -> contents (fst r) p = contents M p).
Proof.
  intros Ho HI E.
  assert (Hsort : forall L1, kinv (M, <[k := L1]> Ls) -> (forall u s, al_patches L !! u = Some s -> al_patches L1 !! u = Some s) ->
    let r := asort orc (v + 1) (M, L1) in
    kinv (fst r, <[k := snd r]> Ls) ∧
    (forall u s, al_patches L !! u = Some s -> al_patches (snd r) !! u = Some s) ∧
    (forall s, rest (M, Ls) k s -> contents (fst r) s = contents M s ∨ contents (fst r) s = or_sort orc (contents M s)) ∧
    (forall j p, j <> k -> pool_use (M, Ls) j p -> contents (fst r) p = contents M p)).
  { intros L1 HI1 HL1. assert (E1 : <[k := L1]> Ls !! k = Some L1) by (apply list_lookup_insert; by eapply lookup_lt_Some).
    destruct (sort_step orc M (<[k := L1]> Ls) k L1 (v + 1) Ho HI1 E1) as (H1 & H2 & H3 & H4).
    rewrite list_insert_insert in H1.
    assert (Hp : forall j p, j <> k -> pool_use (M, Ls) j p -> pool_use (M, <[k := L1]> Ls) j p).
    { intros j p Hj (L0 & E0 & Ep). exists L0. split; [|done]. cbn [snd] in *. by rewrite list_lookup_insert_ne. }
    assert (Hr : forall s, rest (M, Ls) k s -> rest (M, <[k := L1]> Ls) k s).
    { intros s [(j & L0 & u & E0 & Es)|(j & Hj & Hs)].
      - left. cbn [snd] in *. destruct (decide (j = k)) as [->|Hj].
        + exists k, L1, u. split; [done|]. apply HL1. congruence.
        + exists j, L0, u. split; [|done]. cbn [snd]. by rewrite list_lookup_insert_ne.
      - right. exists j. split; [done|]. by apply Hp. }
    split_and!.
    - exact H1.
    - intros u s Es. rewrite H2. by apply HL1.
    - intros s Hs. destruct (decide (al_patches L1 !! (v + 1)%N = Some s)) as [Es|Es].
      + right. by apply H3.
      + left. apply H4; [left; by apply Hr|done].
    - intros j p Hj Hs. pose proof (Hp j p Hj Hs) as Hs'. destruct (decide (al_patches L1 !! (v + 1)%N = Some p)) as [Es|Es].
      + exfalso. apply (k_apart _ HI1 j p p Hs'); [by exists k, L1, (v + 1)%N|done].
      + apply H4; [left; right; by exists j|done]. }
  unfold atemporal. cbn [snd].
  assert (Hid : kinv (fst (M, L), <[k := snd (M, L)]> Ls) ∧
    (forall u s, al_patches L !! u = Some s -> al_patches (snd (M, L)) !! u = Some s) ∧
    (forall s, rest (M, Ls) k s -> contents (fst (M, L)) s = contents M s ∨ contents (fst (M, L)) s = or_sort orc (contents M s)) ∧
    (forall j p, j <> k -> pool_use (M, Ls) j p -> contents (fst (M, L)) p = contents M p)).
  { cbn [fst snd]. split_and!; [by rewrite list_insert_id|done|by left|done]. }
  destruct (last (al_version L)) as [vl|]; [|exact Hid].
  destruct (vl <=? v)%N.
  - destruct (al_pool L) as [p|]; [|exact Hid].
    destruct (append_step M Ls k L HI E) as (H1 & H2 & H3). destruct (fst (aappend (M, L))) as [M1 L1]. cbn [fst snd] in *. subst M1.
    by apply Hsort.
  - apply Hsort; [by rewrite list_insert_id|done].
Qed.
Lemma no_patches vs q v s : al_patches (ALog vs ∅ q) !! v = Some s -> False.
Proof. cbn [al_patches]. by rewrite lookup_empty. Qed.
Lemma on_log_some k f M Ls L : Ls !! k = Some L -> on_log k f (M, Ls) = (fst (f (M, L)), <[k := snd (f (M, L))]> Ls).
Proof. intros E. unfold on_log. cbn [fst snd]. rewrite E. by destruct (f (M, L)). Qed.
Lemma on_log_none k f w : snd w !! k = None -> on_log k f w = w.
Proof. intros E. unfold on_log. by rewrite E. Qed.

(** What a call does to a log it is not made on. *)
Definition beside (c : kcall) (M M' : mem) (L : alog) : Prop :=
  (forall p, al_pool L = Some p -> contents M' p = contents M p) ∧
  (forall v s, al_patches L !! v = Some s -> contents M' s = contents M s ∨
     exists k orc u, c = KTemporal k orc u ∧ oracle_ok orc ∧ contents M' s = or_sort orc (contents M s)).
Lemma untouched_beside c M M' L : untouched M M' L -> beside c M M' L.
Proof. intros [H1 H2]. split; [done|]. intros v s E. left. by apply (H1 v). Qed.
Lemma beside_refl c M L : beside c M M L.
Proof. split; [done|]. by left. Qed.

Lemma kstep_spec w c : kinv w -> klegal w c -> kcareful w c ->
  kinv (kstep w c) ∧
  forall j L, snd w !! j = Some L -> about c <> Some j -> snd (kstep w c) !! j = Some L ∧ beside c (fst w) (fst (kstep w c)) L.
Proof.
  destruct w as [M Ls]. intros HI HL HC.
  assert (Hon : forall k f, about c = Some k -> kstep (M, Ls) c = on_log k f (M, Ls) ->
    (forall L, Ls !! k = Some L -> kinv (fst (f (M, L)), <[k := snd (f (M, L))]> Ls) ∧
       forall j L0, Ls !! j = Some L0 -> j <> k -> beside c M (fst (f (M, L))) L0) ->
    kinv (kstep (M, Ls) c) ∧
    forall j L, Ls !! j = Some L -> about c <> Some j -> snd (kstep (M, Ls) c) !! j = Some L ∧ beside c M (fst (kstep (M, Ls) c)) L).
  { intros k f Hk Ek Hf. rewrite Ek. destruct (Ls !! k) as [L|] eqn:E.
    - rewrite (on_log_some k f M Ls L E). destruct (Hf L eq_refl) as [H1 H2]. split; [exact H1|].
      intros j L0 E0 Hj. cbn [fst snd]. assert (j <> k) by congruence.
      split; [by rewrite list_lookup_insert_ne|by apply (H2 j)].
    - rewrite on_log_none by done. split; [done|]. intros j L0 E0 Hj. split; [done|apply beside_refl]. }
  destruct c as [|xs n|s i o|k extra s|k n extra p|k|k|k orc v|k vi vj|k target|k vi vj|k n tsi tsj]; cbn [about kstep] in *.
  - cbn [fst snd]. split; [apply kinv_new; [done| |done|]; [intros v s E; by apply no_patches in E|intros u v s E; by apply no_patches in E]|].
    intros j L E _. split; [|apply beside_refl]. by apply lookup_app_l_Some.
  - cbn [fst snd make]. split; [apply (kinv_mem M); [done|apply grows_make]|]. intros j L E _. split; [done|].
    apply untouched_beside, (untouched_extends M _ Ls j); [done|done|apply extends_make].
  - cbn [fst snd klegal kcareful] in *. destruct HL as [(V1 & V2 & V3) Hi].
    split; [apply (kinv_mem M); [done|apply grows_put; cbn [length]; lia]|].
    intros j L E _. split; [done|]. apply untouched_beside. split.
    + intros v s' Es. apply (keeps_put M (s_arr s) _ _ (fun x => s_arr x <> s_arr s)); [done|]. intros Ea. apply HC, used_iff.
      left. exists s'. split; [by exists j, L, v|done].
    + intros p Ep. apply (keeps_put M (s_arr s) _ _ (fun x => s_arr x <> s_arr s)); [done|]. intros Ea. apply HC, used_iff.
      right. exists j, p. split; [by exists L|done].
  - apply (Hon k (astore extra s)); [done|done|]. intros L E.
    destruct (store_step M Ls k L extra s HI E) as (H1 & H2 & H3).
    { intros s' ->. cbn [klegal kcareful fst snd] in *. split; [done|]. destruct HC as [H|(L0 & E0 & H)]; [by left|right; congruence]. }
    split; [done|]. intros j L0 E0 Hj. by apply untouched_beside, (untouched_rest M _ Ls k j).
  - apply (Hon k (astore_built n extra p)); [done|done|]. intros L E.
    destruct (built_step M Ls k L n extra p HI E) as (H1 & H2 & H3).
    split; [done|]. intros j L0 E0 Hj. by apply untouched_beside, (untouched_rest M _ Ls k j).
  - apply (Hon k (fun st => fst (aappend st))); [done|done|]. intros L E.
    destruct (append_step M Ls k L HI E) as (H1 & H2 & H3). split; [done|]. intros j L0 E0 Hj. rewrite H2. apply beside_refl.
  - apply (Hon k (fun st => (fst st, fst (acontinuous (snd st))))); [done|done|]. intros L E. cbn [fst snd].
    destruct (continuous_shape L) as [vs ->]. split; [by apply kinv_versions|]. intros j L0 E0 Hj. apply beside_refl.
  - apply (Hon k (atemporal orc v)); [done|done|]. intros L E. cbn [klegal] in HL.
    destruct (temporal_step orc v M Ls k L HL HI E) as (H1 & H2 & H3 & H4). split; [done|].
    intros j L0 E0 Hj. split.
    + intros p Ep. apply (H4 j p Hj). by exists L0.
    + intros u s Es. destruct (H3 s) as [H|H]; [left; by exists j, L0, u|by left|]. right. by exists k, orc, v.
  - apply (Hon k (atrack vi vj)); [done|done|]. intros L E. unfold atrack.
    destruct (continuous_shape L) as [vs Hc]. destruct (acontinuous L) as [L1 ok]. cbn [fst] in Hc. subst L1.
    pose proof (kinv_versions M Ls k L vs HI E) as HI1. set (L1 := ALog vs _ _) in *.
    assert (E1 : <[k := L1]> Ls !! k = Some L1) by (apply list_lookup_insert; by eapply lookup_lt_Some).
    destruct (ok && arange vi vj L1).
    + destruct (compact_step (fun _ => true) (sorted_keys (keys_in vi vj (al_patches L1))) [] M (<[k := L1]> Ls) k L1 HI1 E1) as (H1 & H2 & _).
      rewrite list_insert_insert in H1. split; [exact H1|]. intros j L0 E0 Hj. by apply untouched_beside, (untouched_extends M _ Ls j).
    + split; [exact HI1|]. intros j L0 E0 Hj. apply beside_refl.
  - apply (Hon k (acompact target)); [done|done|]. intros L E. unfold acompact.
    destruct (continuous_shape L) as [vs Hc]. destruct (acontinuous L) as [L1 ok]. cbn [fst] in Hc. subst L1.
    pose proof (kinv_versions M Ls k L vs HI E) as HI1. set (L1 := ALog vs _ _) in *.
    assert (E1 : <[k := L1]> Ls !! k = Some L1) by (apply list_lookup_insert; by eapply lookup_lt_Some).
    destruct ok.
    + destruct (compact_step (on_target target) (sorted_keys (al_patches L1)) [] M (<[k := L1]> Ls) k L1 HI1 E1) as (H1 & H2 & _).
      rewrite list_insert_insert in H1. split; [exact H1|]. intros j L0 E0 Hj. by apply untouched_beside, (untouched_extends M _ Ls j).
    + split; [exact HI1|]. intros j L0 E0 Hj. apply beside_refl.
  - cbn [snd fst]. destruct (Ls !! k) as [L|] eqn:E; [|split; [done|]; intros j L0 E0 Hj; split; [done|apply beside_refl]].
    unfold aslice. destruct (continuous_shape L) as [vs Hc]. destruct (acontinuous L) as [L1 ok]. cbn [fst] in Hc. subst L1.
    pose proof (kinv_versions M Ls k L vs HI E) as HI1. set (L1 := ALog vs _ _) in *.
    assert (E1 : <[k := L1]> Ls !! k = Some L1) by (apply list_lookup_insert; by eapply lookup_lt_Some).
    destruct (ok && arange vi vj L1); cbn [fst snd].
    + split.
      * apply kinv_new; [exact HI1| |done|].
        -- intros v s Es. cbn [al_patches] in Es. unfold keys_in in Es.
           apply map_filter_lookup_Some in Es as [Es _]. by exists k, L1, v.
        -- intros u v s Es Es'. cbn [al_patches] in *. unfold keys_in in *.
           apply map_filter_lookup_Some in Es as [Es _], Es' as [Es' _]. by apply (k_once _ HI1 k L1 E1 u v s).
      * intros j L0 E0 Hj. split; [|apply beside_refl]. apply lookup_app_l_Some. rewrite list_lookup_insert_ne by congruence. done.
    + rewrite app_nil_r. split; [exact HI1|]. intros j L0 E0 Hj. split; [|apply beside_refl]. by rewrite list_lookup_insert_ne by congruence.
  - cbn [snd fst]. destruct (Ls !! k) as [L|] eqn:E; [|split; [done|]; intros j L0 E0 Hj; split; [done|apply beside_refl]].
    destruct (continuous_shape L) as [vs Hc]. destruct (acontinuous L) as [L1 ok]. cbn [fst] in Hc. subst L1.
    pose proof (kinv_versions M Ls k L vs HI E) as HI1. set (L1 := ALog vs _ _) in *.
    destruct (ok && negb (tsj <? tsi)).
    + assert (HI2 : kinv (M, <[k := L1]> Ls ++ [ALog [] ∅ None])).
      { apply kinv_new; [exact HI1| |done|]; [intros v s Es; by apply no_patches in Es|intros u v s Es; by apply no_patches in Es]. }
      destruct (copy_step n tsi tsj L1 (sorted_keys (al_patches L1)) M (<[k := L1]> Ls) _ HI2) as (H1 & H2 & _).
      destruct (acopy_versions _ _ _ _ _ _) as [M' L2]. cbn [fst snd] in *. split; [exact H1|].
      intros j L0 E0 Hj. split; [apply lookup_app_l_Some; by rewrite list_lookup_insert_ne by congruence|].
      by apply untouched_beside, (untouched_extends M _ Ls j).
    + cbn [fst snd]. split; [exact HI1|]. intros j L0 E0 Hj. split; [by rewrite list_lookup_insert_ne by congruence|apply beside_refl].
Qed.
Lemma kinv_start : kinv ([], []).
Proof.
  constructor.
  - intros s (k & L & v & E & _). done.
  - intros k p (L & E & _). done.
  - intros s s' (k & L & v & E & _). done.
  - intros k p s (L & E & _). done.
  - intros k k' p p' (L & E & _). done.
  - intros k L E. done.
Qed.
Lemma krun_inv l : forall w, kinv w -> kalong w l -> kinv (krun w l).
Proof.
  induction l as [|c l IH]; intros w HI H; [done|]. destruct H as (H1 & H2 & H3).
  apply (IH (kstep w c)); [by apply kstep_spec|done].
Qed.
Lemma reached_inv w : reached w -> kinv w.
Proof. intros (l & H & ->). apply krun_inv; [apply kinv_start|done]. Qed.
