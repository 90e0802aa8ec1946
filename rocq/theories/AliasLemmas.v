(** Proofs about the sharing of operation slices. *)
From Verif Require Import Base F64 Tson Heap Patch Logument Alias AliasSpec.
From Coq Require Import Lia.

(** ** Arrays *)
Lemma put_length l i xs : (i + length xs <= length l)%nat -> length (put l i xs) = length l.
Proof. intros H. unfold put. rewrite !app_length, take_length, drop_length. lia. Qed.
Lemma lookup_put_lt l i xs j : (i <= length l)%nat -> (j < i)%nat -> put l i xs !! j = l !! j.
Proof.
  intros H Hj. unfold put. rewrite lookup_app_l by (rewrite take_length; lia). by apply lookup_take.
Qed.
Lemma lookup_put_ge l i xs j : (i <= length l)%nat -> (i + length xs <= j)%nat -> put l i xs !! j = l !! j.
Proof.
  intros H Hj. unfold put. rewrite lookup_app_r by (rewrite take_length; lia). rewrite take_length.
  rewrite lookup_app_r by lia. rewrite lookup_drop. f_equal. lia.
Qed.
Lemma lookup_put_in l i xs j : (i <= length l)%nat -> (j < length xs)%nat -> put l i xs !! (i + j)%nat = xs !! j.
Proof.
  intros H Hj. unfold put. rewrite lookup_app_r by (rewrite take_length; lia). rewrite take_length.
  rewrite lookup_app_l by lia. f_equal. lia.
Qed.
Lemma arr_put_eq M a i xs : (a < length M)%nat -> arr_at (put_arr M a i xs) a = put (arr_at M a) i xs.
Proof. intros H. unfold arr_at at 1, put_arr. by rewrite list_lookup_insert. Qed.
Lemma arr_put_ne M a b i xs : a <> b -> arr_at (put_arr M a i xs) b = arr_at M b.
Proof. intros H. unfold arr_at at 1, put_arr. by rewrite list_lookup_insert_ne. Qed.
Lemma arr_make M l a : (a < length M)%nat -> arr_at (M ++ [l]) a = arr_at M a.
Proof. intros H. unfold arr_at. by rewrite lookup_app_l. Qed.
Lemma arr_made M l : arr_at (M ++ [l]) (length M) = l.
Proof. unfold arr_at. by rewrite list_lookup_middle. Qed.

Lemma lookup_contents M s j : (j < s_len s)%nat -> contents M s !! j = arr_at M (s_arr s) !! (s_off s + j)%nat.
Proof. intros H. unfold contents. by rewrite lookup_take, lookup_drop. Qed.
Lemma contents_length M s : valid M s -> length (contents M s) = s_len s.
Proof. intros (H1 & H2 & H3). unfold contents. rewrite take_length, drop_length. lia. Qed.
Lemma contents_ext M M' s : (forall j, (j < s_len s)%nat -> arr_at M' (s_arr s) !! (s_off s + j)%nat = arr_at M (s_arr s) !! (s_off s + j)%nat) ->
  contents M' s = contents M s.
Proof.
  intros H. apply list_eq. intros j. destruct (decide (j < s_len s)%nat) as [Hj|Hj].
  - rewrite !lookup_contents by done. by apply H.
  - unfold contents. by rewrite !lookup_take_ge by lia.
Qed.

(** ** Appending in place *)
Definition spare_clear (p s : slice) : Prop :=
  s_arr s <> s_arr p ∨ forall j, (j < s_len s)%nat -> ~ (s_off p + s_len p <= s_off s + j < s_off p + s_cap p)%nat.
Lemma contents_put M p xs s : valid M p -> (s_len p + length xs <= s_cap p)%nat -> spare_clear p s ->
  contents (put_arr M (s_arr p) (s_off p + s_len p) xs) s = contents M s.
Proof.
  intros (H1 & H2 & H3) Hl Hc. apply contents_ext. intros j Hj.
  destruct (decide (s_arr p = s_arr s)) as [E|E]; [|by rewrite arr_put_ne].
  destruct Hc as [Hc|Hc]; [congruence|]. specialize (Hc j Hj). rewrite <- E, arr_put_eq by done.
  destruct (decide (s_off s + j < s_off p + s_len p)%nat).
  - apply lookup_put_lt; lia.
  - apply lookup_put_ge; lia.
Qed.
Lemma contents_grown M p xs : valid M p -> (s_len p + length xs <= s_cap p)%nat ->
  contents (put_arr M (s_arr p) (s_off p + s_len p) xs) (Sl (s_arr p) (s_off p) (s_len p + length xs) (s_cap p)) = contents M p ++ xs.
Proof.
  intros Hv Hl. pose proof Hv as (H1 & H2 & H3). apply list_eq. intros j.
  destruct (decide (j < s_len p + length xs)%nat) as [Hj|Hj].
  - rewrite lookup_contents by done. cbn [s_arr s_off]. rewrite arr_put_eq by done.
    destruct (decide (j < s_len p)%nat) as [Hj'|Hj'].
    + rewrite lookup_app_l by (rewrite contents_length; done). rewrite lookup_contents by done. apply lookup_put_lt; lia.
    + rewrite lookup_app_r by (rewrite contents_length by done; lia). rewrite contents_length by done.
      replace (s_off p + j)%nat with (s_off p + s_len p + (j - s_len p))%nat by lia. apply lookup_put_in; lia.
  - unfold contents at 1. cbn [s_len]. rewrite lookup_take_ge by lia. symmetry. apply lookup_ge_None.
    rewrite app_length, contents_length by done. lia.
Qed.
Lemma contents_make M xs n s : valid M s -> contents (M ++ [xs ++ replicate n zero_op]) s = contents M s.
Proof. intros (H1 & H2 & H3). unfold contents. by rewrite arr_make. Qed.
Lemma contents_made M xs n : contents (M ++ [xs ++ replicate n zero_op]) (Sl (length M) 0 (length xs) (length xs + n)) = xs.
Proof. unfold contents. cbn [s_len s_off s_arr]. rewrite arr_made, drop_0. by rewrite take_app. Qed.
Lemma valid_made M xs n : valid (M ++ [xs ++ replicate n zero_op]) (Sl (length M) 0 (length xs) (length xs + n)).
Proof.
  split; [cbn; lia|]. cbn [s_arr s_off s_cap]. rewrite app_length, arr_made, app_length, replicate_length. cbn [length]. lia.
Qed.
Lemma valid_make M l s : valid M s -> valid (M ++ [l]) s.
Proof. intros (H1 & H2 & H3). split; [done|]. rewrite arr_make by done. rewrite app_length. cbn. lia. Qed.
Lemma valid_put M s a i xs : valid M s -> (i + length xs <= length (arr_at M a))%nat -> valid (put_arr M a i xs) s.
Proof.
  intros (H1 & H2 & H3) Hl. split; [done|]. unfold put_arr at 1. rewrite insert_length. split; [done|].
  destruct (decide (a = s_arr s)) as [->|Hne]; [|by rewrite arr_put_ne]. rewrite arr_put_eq by done. by rewrite put_length.
Qed.

(** ** The invariant *)
Record inv (st : astate) : Prop := {
  inv_patch : forall v s, al_patches (snd st) !! v = Some s -> valid (fst st) s;
  inv_pool : forall p, al_pool (snd st) = Some p -> valid (fst st) p;
  inv_clear : forall p v s, al_pool (snd st) = Some p -> al_patches (snd st) !! v = Some s -> spare_clear p s }.

Lemma view_ext M M' L cur sn : (forall v s, al_patches L !! v = Some s -> contents M' s = contents M s) ->
  (forall p, al_pool L = Some p -> contents M' p = contents M p) -> view M' L cur sn = view M L cur sn.
Proof.
  intros H1 H2. unfold view. f_equal.
  - apply map_eq. intros v. rewrite !lookup_fmap. destruct (al_patches L !! v) as [s|] eqn:E; [|done]. cbn. by rewrite (H1 v).
  - destruct (al_pool L); [|done]. cbn. by rewrite H2.
Qed.
Lemma fresh_clear M L s p : (forall v s, al_patches L !! v = Some s -> valid M s) -> s_arr p = length M ->
  forall v, al_patches L !! v = Some s -> spare_clear p s.
Proof. intros H Hp v E. left. destruct (H v s E) as (_ & Hl & _). lia. Qed.

Lemma astore_sim extra s M L cur sn h : inv (M, L) ->
  (forall s', s = Some s' -> valid M s' ∧ (s_len s' = s_cap s' ∨ al_pool L <> None ∨ ~ uses L (s_arr s'))) ->
  inv (astore extra s (M, L)) ∧
  fst (store (PI_patch (contents M <$> s)) (h, view M L cur sn)) = (h, view (fst (astore extra s (M, L))) (snd (astore extra s (M, L))) cur sn).
Proof.
  intros [I1 I2 I3] Hs. cbn [fst snd] in *. unfold astore, store, store_arg. cbn [view l_pool].
  destruct (al_pool L) as [p|] eqn:Ep.
  - cbn [fmap option_fmap option_map]. unfold append_slice, go_append.
    set (xs := default [] (contents M <$> s)).
    specialize (I2 p eq_refl). destruct (Nat.leb_spec (s_len p + length xs) (s_cap p)) as [Hl|Hl]; cbn [make fst snd].
    + assert (Hput : (s_off p + s_len p + length xs <= length (arr_at M (s_arr p)))%nat) by (destruct I2 as (? & ? & ?); lia).
      split.
      * constructor; cbn [fst snd al_patches al_pool].
        -- intros v s' E. apply valid_put; [by apply (I1 v)|done].
        -- intros p' [= <-]. pose proof (valid_put M p (s_arr p) _ xs I2 Hput) as (V1 & V2 & V3).
           split; [cbn; lia|]. split; [done|]. done.
        -- intros p' v s' [= <-] E. destruct (I3 p v s' eq_refl E) as [H|H]; [by left|]. right. intros j Hj. cbn [s_off s_len s_cap].
           specialize (H j Hj). lia.
      * f_equal. unfold with_pool, view. cbn [al_version al_patches al_pool l_version l_current l_snapshots l_patches fmap option_fmap option_map].
        f_equal.
        -- apply map_eq. intros v. rewrite !lookup_fmap. destruct (al_patches L !! v) as [s'|] eqn:E; [|done]. cbn. f_equal. symmetry.
           apply contents_put; [done|done|]. by apply (I3 p v s').
        -- f_equal. symmetry. by apply contents_grown.
    + split.
      * constructor; cbn [fst snd al_patches al_pool].
        -- intros v s' E. by apply valid_make, (I1 v).
        -- intros p' [= <-]. apply valid_made.
        -- intros p' v s' [= <-] E. by apply (fresh_clear M L s' (Sl (length M) 0 _ _) I1 eq_refl v).
      * f_equal. unfold with_pool, view. cbn [al_version al_patches al_pool l_version l_current l_snapshots l_patches fmap option_fmap option_map].
        f_equal.
        -- apply map_eq. intros v. rewrite !lookup_fmap. destruct (al_patches L !! v) as [s'|] eqn:E; [|done]. cbn. f_equal. symmetry.
           apply contents_make. by apply (I1 v).
        -- f_equal. symmetry. apply contents_made.
  - cbn [fmap option_fmap option_map fst snd]. split; [|done].
    constructor; cbn [fst snd al_patches al_pool]; [done| |].
    + intros p' ->. by destruct (Hs p' eq_refl).
    + intros p' v s' -> E. destruct (Hs p' eq_refl) as [_ [H|[H|H]]]; [|done|].
      * right. intros j Hj. lia.
      * left. intros E'. apply H. right. by exists v, s'.
Qed.
Lemma make_inv M L xs n : inv (M, L) -> inv (fst (make M xs n), L).
Proof.
  intros [I1 I2 I3]. constructor; cbn [fst snd make] in *.
  - intros v s E. by apply valid_make, (I1 v).
  - intros p E. by apply valid_make, I2.
  - done.
Qed.
Lemma make_view M L xs n cur sn : inv (M, L) -> view (fst (make M xs n)) L cur sn = view M L cur sn.
Proof.
  intros [I1 I2 I3]. cbn [make fst]. apply view_ext; cbn [fst snd] in *.
  - intros v s E. by apply contents_make, (I1 v).
  - intros p E. by apply contents_make, I2.
Qed.
Lemma append_sim M L cur sn h : inv (M, L) ->
  inv (fst (aappend (M, L))) ∧
  append (h, view M L cur sn) = ((h, view (fst (fst (aappend (M, L)))) (snd (fst (aappend (M, L)))) cur sn), snd (aappend (M, L))).
Proof.
  intros [I1 I2 I3]. cbn [fst snd] in *. unfold aappend, append.
  change (is_grown (view M L cur sn)) with (agrown L). destruct (agrown L); cbn [negb]; [|split; [by constructor|done]].
  cbn [view l_pool]. destruct (al_pool L) as [p|] eqn:Ep; cbn [fmap option_fmap option_map];
    [|split; [constructor; cbn [fst snd]; rewrite ?Ep; done|done]].
  unfold last_version. cbn [view l_version]. destruct (last (al_version L)) as [v|] eqn:Ev; [|split; [by constructor; cbn [fst snd]; rewrite ?Ep|]].
  2: { done. }
  cbn [view l_patches]. rewrite lookup_fmap. destruct (al_patches L !! (v + 1)%N) as [s|] eqn:Es; cbn [fmap option_fmap option_map fst snd].
  - split; [by constructor; cbn [fst snd]; rewrite ?Ep|]. done.
  - split.
    + constructor; cbn [fst snd al_patches al_pool]; [|done|done].
      intros w s. destruct (decide (w = v + 1)%N) as [->|Hw].
      * rewrite lookup_insert. intros [= <-]. by apply I2.
      * rewrite lookup_insert_ne by done. apply I1.
    + unfold view. cbn [al_version al_patches al_pool l_current l_snapshots]. by rewrite fmap_insert.
Qed.
Lemma write_sim M L s i o cur sn : inv (M, L) -> valid M s -> (i < s_len s)%nat -> ~ uses L (s_arr s) ->
  inv (put_arr M (s_arr s) (s_off s + i) [o], L) ∧
  view (put_arr M (s_arr s) (s_off s + i) [o]) L cur sn = view M L cur sn.
Proof.
  intros [I1 I2 I3] (V1 & V2 & V3) Hi Hu. cbn [fst snd] in *.
  assert (Hput : (s_off s + i + length [o] <= length (arr_at M (s_arr s)))%nat) by (cbn [length]; lia).
  split.
  - constructor; cbn [fst snd].
    + intros v s' E. apply valid_put; [by apply (I1 v)|done].
    + intros p E. apply valid_put; [by apply I2|done].
    + done.
  - apply view_ext.
    + intros v s' E. apply contents_ext. intros j Hj. rewrite arr_put_ne; [done|]. intros E'. apply Hu. right. by exists v, s'.
    + intros p E. apply contents_ext. intros j Hj. rewrite arr_put_ne; [done|]. intros E'. apply Hu. left. by exists p.
Qed.
Lemma astep_sim st a cur sn h : inv st -> legal st a -> careful st a ->
  inv (astep st a) ∧
  vstep (fst st) a (h, view (fst st) (snd st) cur sn) = (h, view (fst (astep st a)) (snd (astep st a)) cur sn).
Proof.
  destruct st as [M L]. intros HI HL HC. destruct a as [xs n|s i o|extra s|n extra p|]; cbn [astep vstep fst snd].
  - split; [by apply make_inv|]. by rewrite make_view.
  - destruct HL as [H1 H2]. cbn [fst snd careful] in *. destruct (write_sim M L s i o cur sn HI H1 H2 HC) as [H3 H4].
    split; [done|]. by rewrite H4.
  - apply astore_sim; [done|]. intros s' ->. by split.
  - unfold astore_built. destruct (store_arg p) as [[xs|]| |] eqn:Ep.
    + cbn [fst snd]. destruct (make M xs n) as [M' s] eqn:Em.
      assert (HM : M' = fst (make M xs n)) by (by rewrite Em). assert (Hs : s = snd (make M xs n)) by (by rewrite Em).
      pose proof (make_inv M L xs n HI) as HI'. rewrite <- HM in HI'.
      destruct (astore_sim extra (Some s) M' L cur sn h HI') as [G1 G2].
      { intros s' [= <-]. split; [rewrite HM, Hs; apply valid_made|]. right. right. rewrite Hs. cbn [make snd s_arr].
        destruct HI as [I1 I2 I3]. cbn [fst snd] in *. intros [(p' & E & E')|(v & s' & E & E')].
        - destruct (I2 _ E) as (_ & Hlt & _). lia.
        - destruct (I1 _ _ E) as (_ & Hlt & _). lia. }
      split; [done|]. rewrite <- G2. rewrite HM at 2. rewrite (make_view M L xs n cur sn HI).
      unfold store. rewrite Ep. cbn [store_arg fmap option_fmap option_map]. rewrite HM, Hs. cbn [make fst snd]. by rewrite contents_made.
    + destruct (astore_sim extra None M L cur sn h HI) as [G1 G2]; [done|]. split; [done|]. rewrite <- G2. unfold store. by rewrite Ep.
    + split; [done|]. unfold store. by rewrite Ep.
    + split; [done|]. unfold store. by rewrite Ep.
  - destruct (append_sim M L cur sn h HI) as [G1 G2]. split; [done|]. by rewrite G2.
Qed.
Lemma arun_sim l : forall st cur sn h, inv st -> all_along legal st l -> all_along careful st l ->
  inv (arun st l) ∧ vrun st l (h, view (fst st) (snd st) cur sn) = (h, view (fst (arun st l)) (snd (arun st l)) cur sn).
Proof.
  induction l as [|a l IH]; intros st cur sn h HI HL HC; [done|]. cbn [all_along vrun] in *. destruct HL as [L1 L2], HC as [C1 C2].
  destruct (astep_sim st a cur sn h HI L1 C1) as [H1 H2]. rewrite H2. by apply IH.
Qed.
Lemma inv0 M : inv (M, alog0).
Proof. constructor; cbn; [|done|done]. intros v s E. rewrite lookup_empty in E. done. Qed.
Lemma isolated M l cur sn h : all_along legal (M, alog0) l -> all_along careful (M, alog0) l ->
  (h, view (fst (arun (M, alog0) l)) (snd (arun (M, alog0) l)) cur sn) = vrun (M, alog0) l (h, Lgm [0%N] cur sn ∅ None).
Proof.
  intros HL HC. destruct (arun_sim l (M, alog0) cur sn h (inv0 M) HL HC) as [_ <-]. f_equal. f_equal.
  unfold view, alog0. cbn. by rewrite fmap_empty.
Qed.

(** ** Sharing *)
Lemma contents_write M s i o : valid M s -> (i < s_len s)%nat ->
  contents (put_arr M (s_arr s) (s_off s + i) [o]) s = <[i := o]> (contents M s).
Proof.
  intros Hv Hi. pose proof Hv as (V1 & V2 & V3). apply list_eq. intros j.
  destruct (decide (j < s_len s)%nat) as [Hj|Hj].
  - rewrite lookup_contents by done. rewrite arr_put_eq by done.
    destruct (decide (j = i)) as [->|Hne].
    + rewrite list_lookup_insert by (by rewrite contents_length). 
      pose proof (lookup_put_in (arr_at M (s_arr s)) (s_off s + i) [o] 0) as H. rewrite Nat.add_0_r in H. apply H; cbn [length]; lia.
    + rewrite list_lookup_insert_ne by done. rewrite lookup_contents by done.
      destruct (decide (j < i)%nat); [apply lookup_put_lt; lia|apply lookup_put_ge; cbn [length]; lia].
  - rewrite (proj2 (lookup_ge_None _ _)) by (unfold contents; rewrite take_length; lia).
    symmetry. apply lookup_ge_None. rewrite insert_length, contents_length by done. lia.
Qed.
(** The committed patch is the caller's slice. *)
Lemma writes_through M L extra s i o v st1 : al_pool L = None -> valid M s -> (i < s_len s)%nat ->
  last (al_version L) = Some v -> aappend (astore extra (Some s) (M, L)) = (st1, Ok tt) ->
  let st2 := astep st1 (AWrite s i o) in
  al_patches (snd st2) !! (v + 1)%N = Some s ∧ contents (fst st2) s = <[i := o]> (contents M s).
Proof.
  intros Hp Hv Hi Hl E. unfold astore in E. rewrite Hp in E. unfold aappend in E. cbn [al_pool al_version] in E.
  rewrite Hl in E. destruct (negb _); [done|]. cbn [al_patches] in E. destruct (al_patches L !! (v + 1)%N); [done|].
  injection E as <-. cbn [astep snd fst al_patches]. rewrite lookup_insert. split; [done|]. by apply contents_write.
Qed.
(** A second Store writes into the spare capacity of the first slice. *)
Lemma store_overwrites M L e1 e2 s t : al_pool L = None -> valid M s -> valid M t -> (s_len s + s_len t <= s_cap s)%nat ->
  let M2 := fst (astore e2 (Some t) (astore e1 (Some s) (M, L))) in
  contents M2 (Sl (s_arr s) (s_off s + s_len s) (s_len t) (s_cap s - s_len s)) = contents M t.
Proof.
  intros Hp Hs Ht Hl. unfold astore. rewrite Hp. cbn [al_pool].
  change (default [] (contents M <$> Some t)) with (contents M t). unfold go_append. rewrite contents_length by done. destruct (Nat.leb_spec (s_len s + s_len t) (s_cap s)); [|lia]. cbn [fst].
  pose proof Hs as (V1 & V2 & V3). apply list_eq. intros j. destruct (decide (j < s_len t)%nat) as [Hj|Hj].
  - rewrite lookup_contents by done. cbn [s_arr s_off]. rewrite arr_put_eq by done.
    apply lookup_put_in; [lia|]. by rewrite contents_length.
  - unfold contents at 1. cbn [s_len]. rewrite lookup_take_ge by lia. symmetry. apply lookup_ge_None. by rewrite contents_length; [lia|].
Qed.

(** ** Cases *)
Definition o1 : operation := Op OReplace "a" (AStr "1") 1.
Definition o2 : operation := Op OReplace "a" (AStr "2") 2.
Definition o3 : operation := Op OReplace "a" (AStr "3") 3.
(** The caller's slice with one operation and room for two more. *)
Definition sa : slice := Sl 0 0 1 3.
Definition sb : slice := Sl 1 0 1 1.
Definition sc : slice := Sl 2 0 1 1.
Definition sd : slice := Sl 3 0 1 1.
Definition calls_ok : list act :=
  [AMake [o1] 2; AMake [o2] 0; AStore 0 (Some sa); AStore 0 (Some sb); AAppend; AStore 0 (Some sb); AStore 0 (Some sa); AAppend;
   AMake [o3] 0; AWrite sd 0 o1; AStore 0 (Some sd)].
Ltac valid_tac := vm_compute; lia.
Ltac unused := intros [(s0 & E0 & H0)|(v0 & s0 & E0 & H0)];
  [cbn in E0; simplify_eq; done|cbn [al_patches alog0] in E0; repeat (apply lookup_insert_Some in E0 as [[_ <-]|[_ E0]]; [done|]); by rewrite lookup_empty in E0].
Lemma isolated_case : all_along legal ([], alog0) calls_ok ∧ all_along careful ([], alog0) calls_ok.
Proof.
  split; [repeat (split; [first [done|valid_tac|split; valid_tac]|]); done|].
  split; [done|]. split; [done|]. split; [right; right; change (~ uses alog0 0); unused|].
  split; [by left|]. split; [done|]. split; [by left|]. split; [right; by left|]. split; [done|]. split; [done|].
  split; [|split; [by left|done]]. cbn [careful].
  match goal with |- ~ uses ?L _ =>
    assert (E : L = ALog [0; 1; 2]%N (<[2%N := Sl 2 0 2 2]> (<[1%N := Sl 0 0 2 3]> ∅)) None) by (vm_compute; reflexivity); rewrite E end.
  unused.
Qed.
(** Only Store and Append: storing one slice twice changes version 1 after it was committed. *)
Lemma twice_refuted : exists l a, Forall (fun x => match x with AWrite _ _ _ => False | _ => True end) (a :: l) ∧
  all_along legal ([], alog0) (l ++ [a]) ∧
  let st := arun ([], alog0) l in
  contents (fst st) <$> al_patches (snd st) !! 1%N = Some [o1; o2] ∧
  contents (fst (astep st a)) <$> al_patches (snd (astep st a)) !! 1%N = Some [o1; o3].
Proof.
  exists [AMake [o1] 2; AMake [o2] 0; AMake [o3] 0; AStore 0 (Some sa); AStore 0 (Some sb); AAppend; AStore 0 (Some sa)], (AStore 0 (Some sc)).
  split; [repeat constructor|]. split; [repeat (split; [first [done|valid_tac|split; valid_tac]|]); done|].
  split; vm_compute; reflexivity.
Qed.
(** Cases for the two sharing lemmas: a new log and a slice with room. *)
Lemma sharing_case : let M := [[o1; zero_op; zero_op]; [o2]] in
  al_pool alog0 = None ∧ valid M sa ∧ valid M sb ∧ (s_len sa + s_len sb <= s_cap sa)%nat ∧ (0 < s_len sa)%nat ∧
  last (al_version alog0) = Some 0%N ∧ (exists st1, aappend (astore 0 (Some sa) (M, alog0)) = (st1, Ok tt)) ∧
  arr_at (fst (astore 0 (Some sb) (astore 0 (Some sa) (M, alog0)))) 0 = [o1; o2; zero_op].
Proof.
  cbn zeta. split; [done|]. split; [valid_tac|]. split; [valid_tac|]. split; [cbn; lia|]. split; [cbn; lia|]. split; [done|].
  split; [by eexists|]. reflexivity.
Qed.
