(** What [traverse] does to an unshared document, as a function on trees, and the proof. *)
From Verif Require Import Base F64 Tson TsonInd BaseLemmas Heap HeapSpec Patch Own.
From Coq Require Import Lia.

Definition pad (xs : list tson) (idx : Z) : list tson :=
  if Z.of_nat (length xs) <=? idx
  then xs ++ replicate (Z.to_nat idx + 1 - length xs) TNil else xs.

Definition put_back (m : list (string * tson)) (part : string) (r : tson * res unit) : tson * res unit :=
  match r with
  | (c, Ok _) => (TObj (ainsert part c m), Ok tt)
  | (_, Err) => (TObj (ainsert part TNil m), Err)
  | (c, Panic) => (TObj (ainsert part c m), Panic)
  end.

(** First component: the document afterwards (of the returned value when the outcome is
    [Ok], of the value passed in otherwise; for objects these are the same). *)
Fixpoint ptrav (op : operation) (parts : list string) (t : tson) : tson * res unit :=
  match parts with
  | [] => (t, Ok tt)
  | part :: rest =>
    match t with
    | TLeaf _ _ => (t, Ok tt)
    | TNil => (t, Err)
    | TObj m =>
      match rest with
      | [] =>
        match op_kind op with
        | OAdd | OReplace =>
            match scalar_of (op_value op) with
            | Some p => (TObj (ainsert part (TLeaf p (op_ts op)) m), Ok tt)
            | None => (t, Err)
            end
        | ORemove => (TObj (adelete part m), Ok tt)
        | OMove | OCopy | OTest => (t, Panic)
        | OOther _ => (t, Err)
        end
      | next :: _ =>
        match alookup part m with
        | Some (TLeaf _ _) => (t, Panic)
        | Some (TObj m') => put_back m part (ptrav op rest (TObj m'))
        | Some (TArr xs) =>
          match parse_int next with
          | None => (t, Err)
          | Some idx =>
            match op_kind op with
            | OAdd | OReplace =>
              match scalar_of (op_value op) with
              | Some p =>
                  if idx <? 0 then (t, Panic)
                  else (TObj (ainsert part
                          (TArr (<[Z.to_nat idx := TLeaf p (op_ts op)]> (pad xs idx))) m), Ok tt)
              | None =>
                  match op_value op with
                  | ANil => (TObj (ainsert part (TArr (pad xs idx)) m), Err)
                  | _ =>
                      if idx <? 0 then (t, Panic)
                      else
                        match ptrav op rest (default TNil (pad xs idx !! Z.to_nat idx)) with
                        | (c, Panic) =>
                            (TObj (ainsert part (TArr (<[Z.to_nat idx := c]> (pad xs idx))) m), Panic)
                        | r => put_back m part r
                        end
                  end
              end
            | ORemove =>
              if (idx <? 0) || (Z.of_nat (length xs) <=? idx) then (t, Panic)
              else (TObj (ainsert part (TArr (delete (Z.to_nat idx) xs)) m), Ok tt)
            | _ => (t, Err)
            end
          end
        | Some TNil | None =>
          if is_set (op_kind op) then
            match parse_int next with
            | Some _ => put_back m part (ptrav op rest (TArr []))
            | None => put_back m part (ptrav op rest (TObj []))
            end
          else (t, Err)
        end
      end
    | TArr xs =>
      match parse_int part with
      | None => (t, Err)
      | Some idx =>
        if (Z.of_nat (length xs) <=? idx) && negb (is_set (op_kind op)) then (t, Err)
        else
          match rest with
          | [] =>
            match op_kind op with
            | OAdd | OReplace =>
                match scalar_of (op_value op) with
                | Some p =>
                    if idx <? 0 then (t, Panic)
                    else (TArr (<[Z.to_nat idx := TLeaf p (op_ts op)]> (pad xs idx)), Ok tt)
                | None => (t, Err)
                end
            | ORemove =>
                if idx <? 0 then (t, Panic) else (TArr (delete (Z.to_nat idx) xs), Ok tt)
            | _ => (t, Err)
            end
          | _ :: _ =>
            if idx <? 0 then (t, Panic)
            else
              match ptrav op rest (default TNil (pad xs idx !! Z.to_nat idx)) with
              | (c, Ok _) => (TArr (<[Z.to_nat idx := c]> (pad xs idx)), Ok tt)
              | (_, Err) => (TArr (<[Z.to_nat idx := TNil]> xs), Err)
              | (c, Panic) => (TArr (<[Z.to_nat idx := c]> xs), Panic)
              end
          end
      end
    end
  end.

(** What one call of [traverse] does to the heap around an unshared document. *)
Definition moved (h : heap) (lt : ltree) (h' : heap) (lt' : ltree) : Prop :=
  holds h' lt' ∧ (length h <= length h')%nat ∧
  (forall x, x ∈ locs lt' -> x ∈ locs lt ∨ (length h <= x)%nat) ∧
  (forall x, (x < length h)%nat -> x ∉ locs lt -> h' !! x = h !! x).
Definition outcome (lt lt' : ltree) (r : res val) (r' : res unit) : Prop :=
  match r, r' with
  | Ok v, Ok _ => v = root lt'
  | Err, Err | Panic, Panic => root lt' = root lt
  | _, _ => False
  end.
Definition refines (h : heap) (lt : ltree) (x : heap * res val) (y : tson * res unit) : Prop :=
  exists lt', moved h lt (fst x) lt' ∧ erase lt' = fst y ∧ outcome lt lt' (snd x) (snd y) ∧
    match lt with LObj _ _ => root lt' = root lt | _ => True end.

Lemma moved_refl h lt : holds h lt -> moved h lt h lt.
Proof. intros H. split; [done|]. split; [done|]. split; auto. Qed.

Lemma refines_same h lt r r' :
  holds h lt -> outcome lt lt r r' -> refines h lt (h, r) (erase lt, r').
Proof.
  intros H Ho. exists lt. split; [by apply moved_refl|]. split; [done|]. split; [done|]. by destruct lt.
Qed.

(** Replacing a member of the object after changes confined to the old member. *)
Lemma member_moved h l m k c h1 :
  holds h (LObj l m) ->
  holds h1 c -> (length h <= length h1)%nat ->
  (forall x, x ∈ locs c -> x ∈ old_locs k m ∨ (length h <= x)%nat) ->
  obj_at h1 l = roots (ainsert k c m) -> (forall a, h1 !! l <> Some (CArr a)) ->
  (forall x, (x < length h)%nat -> x <> l -> x ∉ old_locs k m -> h1 !! x = h !! x) ->
  moved h (LObj l m) h1 (LObj l (ainsert k c m)).
Proof.
  intros HH Hc Hlen Hnew Hl Hna Hf.
  assert (Hll : (l < length h)%nat).
  { destruct HH as [HO _]. apply (own_lt h (LObj l m)); [done|]. apply elem_of_list_here. }
  assert (E : h1 !! l = Some (CObj (roots (ainsert k c m)))).
  { unfold obj_at in Hl. destruct (h1 !! l) as [[m'|a]|] eqn:E; [by subst|by destruct (Hna a)|].
    apply lookup_ge_None in E. lia. }
  destruct (obj_update h h1 l m k c HH Hc Hnew E Hf) as [H1 H2].
  split; [done|]. split; [done|]. split; [done|]. intros x Hx Hnx. apply Hf; [done| |].
  - intros ->. apply Hnx. apply elem_of_list_here.
  - intros Ho. apply Hnx. cbn. apply elem_of_list_further. destruct (split_key k m) as (m1 & m2 & _ & HP & _).
    fold (mlocs m). rewrite HP. apply elem_of_app. by left.
Qed.

Lemma moved_trans h t h1 t1 h2 t2 : moved h t h1 t1 -> moved h1 t1 h2 t2 -> moved h t h2 t2.
Proof.
  intros (HA1 & HA2 & HA3 & HA4) (HB1 & HB2 & HB3 & HB4). split; [done|]. split; [lia|]. split.
  - intros x Hx. destruct (HB3 x Hx) as [Hx'|?]; [by apply HA3|]. right. lia.
  - intros x Hx Hn. rewrite HB4; [by apply HA4|lia|]. intros Hx1. destruct (HA3 x Hx1); [done|lia].
Qed.
Lemma moved_weaken h t u h' t' : (forall x, x ∈ locs t -> x ∈ locs u) -> moved h t h' t' -> moved h u h' t'.
Proof.
  intros Hs (HA1 & HA2 & HA3 & HA4). split; [done|]. split; [done|]. split.
  - intros x Hx. destruct (HA3 x Hx); auto.
  - intros x Hx Hn. apply HA4; auto.
Qed.

Lemma obj_in h l m : holds h (LObj l m) -> h !! l = Some (CObj (roots m)).
Proof. intros [HO _]. by inversion HO. Qed.
Lemma obj_fresh h l m : holds h (LObj l m) -> (l < length h)%nat ∧ l ∉ mlocs m.
Proof.
  intros [HO HN]. split; [apply (own_lt h (LObj l m)); [done|apply elem_of_list_here]|].
  by apply NoDup_cons in HN as [HN _].
Qed.
Lemma old_mlocs k m x : x ∈ old_locs k m -> x ∈ mlocs m.
Proof.
  intros Hx. destruct (split_key k m) as (m1 & m2 & _ & HP & _). rewrite HP. apply elem_of_app. by left.
Qed.

Lemma member_set h l m k c h1 c' :
  holds h (LObj l m) -> old_locs k m = locs c -> moved h c h1 c' ->
  moved h (LObj l m) (set_key h1 l k (root c')) (LObj l (ainsert k c' m)).
Proof.
  intros HH Ho ([HO1 HN1] & HA2 & HA3 & HA4). destruct (obj_fresh _ _ _ HH) as [Hl Hlm].
  assert (Hlc : l ∉ locs c') .
  { intros Hx. destruct (HA3 l Hx) as [Hx'|?]; [|lia]. rewrite <- Ho in Hx'. by apply Hlm, (old_mlocs k). }
  assert (E1 : h1 !! l = Some (CObj (roots m))).
  { rewrite HA4; [by apply obj_in|done|]. rewrite <- Ho. intros Hx. by apply Hlm, (old_mlocs k). }
  unfold set_key, obj_at. rewrite E1, roots_insert.
  apply member_moved; try done.
  - split; [|done]. apply (own_frame h1); [done|]. intros x Hx. apply upd_ne. by intros ->.
  - by rewrite upd_length.
  - by rewrite Ho.
  - unfold obj_at. by rewrite upd_eq by lia.
  - intros a. by rewrite upd_eq by lia.
  - intros x Hx Hxl Hxo. rewrite upd_ne by done. apply HA4; [done|]. by rewrite <- Ho.
Qed.
Lemma member_kept h l m k c h1 c' :
  holds h (LObj l m) -> alookup k m = Some c -> moved h c h1 c' -> root c' = root c ->
  moved h (LObj l m) h1 (LObj l (ainsert k c' m)).
Proof.
  intros HH Ho ([HO1 HN1] & HA2 & HA3 & HA4) Hr. destruct (obj_fresh _ _ _ HH) as [Hl Hlm].
  assert (Hol : old_locs k m = locs c) by (unfold old_locs; by rewrite Ho).
  assert (E1 : h1 !! l = Some (CObj (roots m))).
  { rewrite HA4; [by apply obj_in|done|]. rewrite <- Hol. intros Hx. by apply Hlm, (old_mlocs k). }
  apply member_moved; try done.
  - by rewrite Hol.
  - unfold obj_at. rewrite E1, <- roots_insert, ainsert_id; [done|]. rewrite alookup_roots, Ho, Hr. done.
  - intros a. by rewrite E1.
  - intros x Hx Hxl Hxo. apply HA4; [done|]. by rewrite <- Hol.
Qed.

(** The same for arrays. *)
Lemma arr_fresh h a xs : holds h (LArr a xs) ->
  (a < length h)%nat ∧ a ∉ xlocs xs ∧ exists spare, h !! a = Some (CArr (map root xs ++ spare)).
Proof.
  intros [HO HN]. split; [apply (own_lt h (LArr a xs)); [done|apply elem_of_list_here]|]. split.
  - by apply NoDup_cons in HN as [HN _].
  - inversion HO; subst. by eexists.
Qed.
Lemma child_xlocs xs i e x : xs !! i = Some e -> x ∈ locs e -> x ∈ xlocs xs.
Proof. intros Hi Hx. apply (xlocs_in e); [by eapply elem_of_list_lookup_2|done]. Qed.
Lemma map_root_insert (xs : list ltree) i c : map root (<[i := c]> xs) = <[i := root c]> (map root xs).
Proof. apply (list_fmap_insert root). Qed.
Lemma map_erase_insert (xs : list ltree) i c : map erase (<[i := c]> xs) = <[i := erase c]> (map erase xs).
Proof. apply (list_fmap_insert erase). Qed.
Lemma insert_front (xs : list ltree) i v spare : (i < length xs)%nat ->
  <[i := v]> (map root xs ++ spare) = <[i := v]> (map root xs) ++ spare.
Proof. intros H. apply insert_app_l. by rewrite map_length. Qed.

Lemma elem_set h a xs i e h1 e' :
  holds h (LArr a xs) -> xs !! i = Some e -> moved h e h1 e' ->
  moved h (LArr a xs) (set_idx h1 a i (root e')) (LArr a (<[i := e']> xs)).
Proof.
  intros HH Hi ([HO1 HN1] & HA2 & HA3 & HA4). destruct (arr_fresh _ _ _ HH) as (Ha & Hax & spare & Hsp).
  assert (Hac : a ∉ locs e') .
  { intros Hx. destruct (HA3 a Hx) as [Hx'|?]; [|lia]. by apply Hax, (child_xlocs xs i e). }
  assert (E1 : h1 !! a = Some (CArr (map root xs ++ spare))).
  { rewrite HA4; [done|done|]. intros Hx. by apply Hax, (child_xlocs xs i e). }
  unfold set_idx, arr_at. rewrite E1, insert_front, <- map_root_insert by (by eapply lookup_lt_Some).
  destruct (arr_update h (<[a := CArr (map root (<[i := e']> xs) ++ spare)]> h1) a xs i e e' spare) as [H1 H2]; try done.
  - split; [|done]. apply (own_frame h1); [done|]. intros x Hx. apply upd_ne. by intros ->.
  - apply upd_eq. lia.
  - intros x Hx Hxa Hxe. rewrite upd_ne by done. by apply HA4.
  - split; [done|]. split; [by rewrite upd_length|]. split; [done|].
    intros x Hx Hn. rewrite upd_ne.
    + apply HA4; [done|]. intros Hx'. apply Hn. cbn. apply elem_of_list_further. by apply (child_xlocs xs i e).
    + intros ->. apply Hn, elem_of_list_here.
Qed.
Lemma elem_kept h a xs i e h1 e' :
  holds h (LArr a xs) -> xs !! i = Some e -> moved h e h1 e' -> root e' = root e ->
  moved h (LArr a xs) h1 (LArr a (<[i := e']> xs)).
Proof.
  intros HH Hi ([HO1 HN1] & HA2 & HA3 & HA4) Hr. destruct (arr_fresh _ _ _ HH) as (Ha & Hax & spare & Hsp).
  assert (E1 : h1 !! a = Some (CArr (map root xs ++ spare))).
  { rewrite HA4; [done|done|]. intros Hx. by apply Hax, (child_xlocs xs i e). }
  destruct (arr_update h h1 a xs i e e' spare) as [H1 H2]; try done.
  - rewrite E1, map_root_insert, Hr, list_insert_id; [done|]. rewrite (list_lookup_fmap root), Hi. done.
  - intros x Hx Hxa Hxe. by apply HA4.
  - split; [done|]. split; [done|]. split; [done|].
    intros x Hx Hn. apply HA4; [done|]. intros Hx'. apply Hn. cbn. apply elem_of_list_further. by apply (child_xlocs xs i e).
Qed.
Lemma map_root_delete (xs : list ltree) i : map root (delete i xs) = delete i (map root xs).
Proof. revert i. induction xs as [|c xs IH]; intros [|i]; cbn; try done. by f_equal. Qed.
Lemma map_erase_delete (xs : list ltree) i : map erase (delete i xs) = delete i (map erase xs).
Proof. revert i. induction xs as [|c xs IH]; intros [|i]; cbn; try done. by f_equal. Qed.
Lemma elem_removed h a xs i :
  holds h (LArr a xs) -> (i < length xs)%nat ->
  moved h (LArr a xs) (remove_idx h a (length xs) i) (LArr a (delete i xs)).
Proof.
  intros HH Hi. destruct (arr_fresh _ _ _ HH) as (Ha & Hax & spare & Hsp).
  unfold remove_idx, arr_at. rewrite Hsp, take_roots, app_assoc.
  set (c := CArr _).
  destruct (arr_delete h (<[a := c]> h) a xs i (drop (length xs - 1) (map root xs ++ spare))) as [H1 H2]; try done.
  - rewrite upd_eq by done. unfold c. do 3 f_equal. rewrite map_root_delete, delete_take_drop. f_equal.
    rewrite take_app_le; [done|]. rewrite map_length. lia.
  - intros x Hx Hne. by apply upd_ne.
  - split; [done|]. split; [by rewrite upd_length|]. split; [auto|]. intros x Hx Hn. apply upd_ne. intros ->.
    apply Hn, elem_of_list_here.
Qed.
Lemma arr_extended h a xs n' h0 a0 :
  holds h (LArr a xs) -> extend h a (length xs) n' = (h0, a0) ->
  moved h (LArr a xs) h0 (LArr a0 (xs ++ replicate (n' - length xs) LNil)).
Proof.
  intros HH E. destruct (extend_own _ _ _ _ _ _ HH E) as (-> & -> & H & _). split; [done|]. split.
  { rewrite app_length. lia. }
  split.
  - intros x Hx. cbn in Hx. fold (xlocs (xs ++ replicate (n' - length xs) LNil)) in Hx. rewrite xlocs_nils in Hx.
    apply elem_of_cons in Hx as [->|Hx]; [by right|left]. cbn. by apply elem_of_list_further.
  - intros x Hx _. by apply look_app.
Qed.
Lemma moved_fresh h c lt h1 : alloc h c = (h1, length h) -> holds h1 lt -> locs lt = [length h] -> moved h LNil h1 lt.
Proof.
  intros [= <-] H E. split; [done|]. split; [rewrite app_length; lia|]. split.
  - intros x. rewrite E, elem_of_list_singleton. intros ->. by right.
  - intros x Hx _. by apply look_app.
Qed.
Lemma fresh_arr h : moved h LNil (h ++ [CArr []]) (LArr (length h) []).
Proof.
  apply (moved_fresh h (CArr [])); [done| |done]. split.
  - apply (own_arr _ _ _ []); [apply look_fresh|constructor].
  - cbn. apply NoDup_cons. split; [apply not_elem_of_nil|constructor].
Qed.
Lemma fresh_obj h : moved h LNil (h ++ [CObj []]) (LObj (length h) []).
Proof.
  apply (moved_fresh h (CObj [])); [done| |done]. split.
  - constructor; [apply look_fresh|constructor].
  - cbn. apply NoDup_cons. split; [apply not_elem_of_nil|constructor].
Qed.
Lemma moved_leaf h t p ts : moved h t h (LLeaf p ts).
Proof.
  split; [split; constructor|]. split; [done|]. split; [|done]. intros x Hx. by apply elem_of_nil in Hx.
Qed.
Lemma moved_nil h t : moved h t h LNil.
Proof.
  split; [split; constructor|]. split; [done|]. split; [|done]. intros x Hx. by apply elem_of_nil in Hx.
Qed.

Lemma refines_trans h lt h0 lt0 x y :
  moved h lt h0 lt0 -> root lt0 = root lt -> (match lt with LObj _ _ => True | _ => False end) ->
  refines h0 lt0 x y -> refines h lt x y.
Proof.
  intros HM Hr Hobj (lt' & HM' & He & Ho & Hobj'). exists lt'. split; [by eapply moved_trans|]. split; [done|].
  destruct lt; try done. destruct lt0; try done. split.
  - unfold outcome in *. rewrite <- Hr. done.
  - congruence.
Qed.

(** [store_back] after working on the member's value. *)
Lemma store_back_refines h l m k c x y :
  holds h (LObj l m) -> alookup k m = Some c -> refines h c x y ->
  refines h (LObj l m) (store_back l k x) (put_back (erases m) k y).
Proof.
  intros HH Hk (c' & HM & He & Ho & _). destruct x as [h1 r], y as [t' r']. cbn in *.
  assert (Hol : old_locs k m = locs c) by (unfold old_locs; by rewrite Hk).
  destruct r as [v| |], r' as [[]| |]; try done; cbn in Ho |- *.
  - subst v. exists (LObj l (ainsert k c' m)). split; [by eapply member_set|].
    split; [|done]. cbn. f_equal. fold (erases (ainsert k c' m)). by rewrite <- erases_insert, He.
  - exists (LObj l (ainsert k LNil m)). split.
    + apply (member_set h l m k c h1 LNil); [done|done|]. destruct HM as (H1 & H2 & H3 & H4).
      split; [split; constructor|]. split; [done|]. split; [|done]. intros x Hx. by apply elem_of_nil in Hx.
    + split; [|done]. cbn. f_equal. fold (erases (ainsert k LNil m)). by rewrite <- erases_insert.
  - exists (LObj l (ainsert k c' m)). split; [by eapply member_kept|].
    split; [|done]. cbn. f_equal. fold (erases (ainsert k c' m)). by rewrite <- erases_insert, He.
Qed.
Lemma put_back_twice m k c y : put_back (ainsert k c m) k y = put_back m k y.
Proof. destruct y as [t [[]| |]]; cbn; by rewrite ainsert_ainsert. Qed.

(** The array after the possible extension. *)
Lemma extended h a xs idx : holds h (LArr a xs) ->
  let '(h1, a1, n1) :=
    if Z.of_nat (length xs) <=? idx then
      let '(h0, a0) := extend h a (length xs) (Z.to_nat idx + 1) in (h0, a0, (Z.to_nat idx + 1)%nat)
    else (h, a, length xs) in
  exists xs1, moved h (LArr a xs) h1 (LArr a1 xs1) ∧ n1 = length xs1 ∧ map erase xs1 = pad (map erase xs) idx ∧
    (0 <= idx -> (Z.to_nat idx < length xs1)%nat) ∧
    (Z.of_nat (length xs) <=? idx = false -> h1 = h ∧ a1 = a ∧ xs1 = xs) ∧
    (Z.of_nat (length xs) <=? idx = true -> xs1 !! Z.to_nat idx = Some LNil ∧ own h1 (LArr a xs)).
Proof.
  intros HH. unfold pad. rewrite map_length. destruct (Z.leb_spec (Z.of_nat (length xs)) idx) as [Hle|Hlt].
  - destruct (extend h a (length xs) (Z.to_nat idx + 1)) as [h0 a0] eqn:E.
    exists (xs ++ replicate (Z.to_nat idx + 1 - length xs) LNil).
    split; [by apply arr_extended|]. rewrite app_length, replicate_length. split; [lia|]. split.
    { rewrite map_app. f_equal. generalize (Z.to_nat idx + 1 - length xs)%nat. intros n.
      induction n as [|n IH]; cbn; [done|by f_equal]. }
    split; [lia|]. split; [done|]. intros _. split.
    + rewrite lookup_app_r by lia. apply lookup_replicate_2. lia.
    + by destruct (extend_own _ _ _ _ _ _ HH E) as (_ & _ & _ & ?).
  - exists xs. split; [by apply moved_refl|]. split; [done|]. split; [done|]. split; [lia|]. done.
Qed.

Lemma moved_owned h t h1 t1 : moved h t h1 t1 -> holds h t -> own h1 t -> moved h t h1 t.
Proof.
  intros (H1 & H2 & H3 & H4) [_ HN] HO. split; [done|]. split; [done|]. split; [auto|done].
Qed.

Lemma erase_alookup k m : alookup k (erases m) = match alookup k m with Some c => Some (erase c) | None => None end.
Proof. apply alookup_erases. Qed.
Lemma erase_at (xs : list ltree) i e : xs !! i = Some e -> default TNil (map erase xs !! i) = erase e.
Proof. intros H. rewrite (list_lookup_fmap erase), H. done. Qed.
Lemma get_idx_own h a xs i e : holds h (LArr a xs) -> xs !! i = Some e -> get_idx h a i = root e.
Proof.
  intros HH Hi. destruct (arr_fresh _ _ _ HH) as (_ & _ & spare & Hsp). unfold get_idx, arr_at. rewrite Hsp.
  rewrite lookup_app_l by (rewrite map_length; by eapply lookup_lt_Some).
  rewrite (list_lookup_fmap root), Hi. done.
Qed.
Lemma get_key_own h l m k : holds h (LObj l m) -> get_key h l k = default VNil (root <$> alookup k m).
Proof. intros HH. unfold get_key, obj_at. by rewrite (obj_in _ _ _ HH), alookup_roots. Qed.
Lemma refines_intro h lt h' r t' r' lt' :
  moved h lt h' lt' -> erase lt' = t' -> outcome lt lt' r r' ->
  (match lt with LObj _ _ => root lt' = root lt | _ => True end) ->
  refines h lt (h', r) (t', r').
Proof. intros. exists lt'. done. Qed.

Lemma ptrav_nil op rest : rest <> [] -> ptrav op rest TNil = (TNil, Err).
Proof. by destruct rest. Qed.

Lemma erase_obj_set m k (c : ltree) t l : erase c = t ->
  erase (LObj l (ainsert k c m)) = TObj (ainsert k t (erases m)).
Proof. intros <-. cbn. f_equal. fold (erases (ainsert k c m)). by rewrite erases_insert. Qed.
Lemma erase_arr_set xs i (c : ltree) t l : erase c = t ->
  erase (LArr l (<[i := c]> xs)) = TArr (<[i := t]> (map erase xs)).
Proof. intros <-. cbn. f_equal. apply map_erase_insert. Qed.

Lemma traverse_cons op part rest h doc : traverse op (part :: rest) h doc =
    match doc with
    | VLeaf _ _ => (h, Ok doc)
    | VNil => (h, Err)
    | VObj l =>
      match rest with
      | [] =>
        match op_kind op with
        | OAdd | OReplace =>
            match scalar_of (op_value op) with
            | Some p => (set_key h l part (VLeaf p (op_ts op)), Ok doc)
            | None => (h, Err)
            end
        | ORemove => (del_key h l part, Ok doc)
        | OMove | OCopy | OTest => (h, Panic)
        | OOther _ => (h, Err)
        end
      | next :: _ =>
        match get_key h l part with
        | VLeaf _ _ => (h, Panic)
        | VObj l' => store_back l part (traverse op rest h (VObj l'))
        | VArr a n =>
          match parse_int next with
          | None => (h, Err)
          | Some idx =>
            match op_kind op with
            | OAdd | OReplace =>
              let '(h1, a1) :=
                if Z.of_nat n <=? idx then
                  let '(h0, a0) := extend h a n (Z.to_nat idx + 1) in
                  (set_key h0 l part (VArr a0 (Z.to_nat idx + 1)), a0)
                else (h, a) in
              match scalar_of (op_value op) with
              | Some p =>
                  if idx <? 0 then (h1, Panic)
                  else (set_idx h1 a1 (Z.to_nat idx) (VLeaf p (op_ts op)), Ok doc)
              | None =>
                  match op_value op with
                  | ANil => (h1, Err)
                  | _ =>
                      if idx <? 0 then (h1, Panic)
                      else store_back l part
                             (traverse op rest h1 (get_idx h1 a1 (Z.to_nat idx)))
                  end
              end
            | ORemove =>
              if (idx <? 0) || (Z.of_nat n <=? idx) then (h, Panic)
              else
                let h1 := remove_idx h a n (Z.to_nat idx) in
                (set_key h1 l part (VArr a (n - 1)), Ok doc)
            | _ => (h, Err)
            end
          end
        | VNil =>
          if is_set (op_kind op) then
            match parse_int next with
            | Some _ =>
                let '(h0, a) := alloc h (CArr []) in
                store_back l part (traverse op rest (set_key h0 l part (VArr a 0)) (VArr a 0))
            | None =>
                let '(h0, o) := alloc h (CObj []) in
                store_back l part (traverse op rest (set_key h0 l part (VObj o)) (VObj o))
            end
          else (h, Err)
        end
      end
    | VArr a n =>
      match parse_int part with
      | None => (h, Err)
      | Some idx =>
        if (Z.of_nat n <=? idx) && negb (is_set (op_kind op)) then (h, Err)
        else
          let '(h1, a1, n1) :=
            if Z.of_nat n <=? idx then
              let '(h0, a0) := extend h a n (Z.to_nat idx + 1) in (h0, a0, (Z.to_nat idx + 1)%nat)
            else (h, a, n) in
          match rest with
          | [] =>
            match op_kind op with
            | OAdd | OReplace =>
                match scalar_of (op_value op) with
                | Some p =>
                    if idx <? 0 then (h1, Panic)
                    else (set_idx h1 a1 (Z.to_nat idx) (VLeaf p (op_ts op)), Ok (VArr a1 n1))
                | None => (h1, Err)
                end
            | ORemove =>
                if idx <? 0 then (h1, Panic)
                else (remove_idx h1 a1 n1 (Z.to_nat idx), Ok (VArr a1 (n1 - 1)))
            | _ => (h1, Err)
            end
          | _ :: _ =>
            if idx <? 0 then (h1, Panic)
            else
              match traverse op rest h1 (get_idx h1 a1 (Z.to_nat idx)) with
              | (h2, Ok v) => (set_idx h2 a1 (Z.to_nat idx) v, Ok (VArr a1 n1))
              | (h2, Err) => (set_idx h2 a1 (Z.to_nat idx) VNil, Err)
              | (h2, Panic) => (h2, Panic)
              end
          end
      end
    end.
Proof. reflexivity. Qed.
Lemma ptrav_cons op part rest t : ptrav op (part :: rest) t =
    match t with
    | TLeaf _ _ => (t, Ok tt)
    | TNil => (t, Err)
    | TObj m =>
      match rest with
      | [] =>
        match op_kind op with
        | OAdd | OReplace =>
            match scalar_of (op_value op) with
            | Some p => (TObj (ainsert part (TLeaf p (op_ts op)) m), Ok tt)
            | None => (t, Err)
            end
        | ORemove => (TObj (adelete part m), Ok tt)
        | OMove | OCopy | OTest => (t, Panic)
        | OOther _ => (t, Err)
        end
      | next :: _ =>
        match alookup part m with
        | Some (TLeaf _ _) => (t, Panic)
        | Some (TObj m') => put_back m part (ptrav op rest (TObj m'))
        | Some (TArr xs) =>
          match parse_int next with
          | None => (t, Err)
          | Some idx =>
            match op_kind op with
            | OAdd | OReplace =>
              match scalar_of (op_value op) with
              | Some p =>
                  if idx <? 0 then (t, Panic)
                  else (TObj (ainsert part
                          (TArr (<[Z.to_nat idx := TLeaf p (op_ts op)]> (pad xs idx))) m), Ok tt)
              | None =>
                  match op_value op with
                  | ANil => (TObj (ainsert part (TArr (pad xs idx)) m), Err)
                  | _ =>
                      if idx <? 0 then (t, Panic)
                      else
                        match ptrav op rest (default TNil (pad xs idx !! Z.to_nat idx)) with
                        | (c, Panic) =>
                            (TObj (ainsert part (TArr (<[Z.to_nat idx := c]> (pad xs idx))) m), Panic)
                        | r => put_back m part r
                        end
                  end
              end
            | ORemove =>
              if (idx <? 0) || (Z.of_nat (length xs) <=? idx) then (t, Panic)
              else (TObj (ainsert part (TArr (delete (Z.to_nat idx) xs)) m), Ok tt)
            | _ => (t, Err)
            end
          end
        | Some TNil | None =>
          if is_set (op_kind op) then
            match parse_int next with
            | Some _ => put_back m part (ptrav op rest (TArr []))
            | None => put_back m part (ptrav op rest (TObj []))
            end
          else (t, Err)
        end
      end
    | TArr xs =>
      match parse_int part with
      | None => (t, Err)
      | Some idx =>
        if (Z.of_nat (length xs) <=? idx) && negb (is_set (op_kind op)) then (t, Err)
        else
          match rest with
          | [] =>
            match op_kind op with
            | OAdd | OReplace =>
                match scalar_of (op_value op) with
                | Some p =>
                    if idx <? 0 then (t, Panic)
                    else (TArr (<[Z.to_nat idx := TLeaf p (op_ts op)]> (pad xs idx)), Ok tt)
                | None => (t, Err)
                end
            | ORemove =>
                if idx <? 0 then (t, Panic) else (TArr (delete (Z.to_nat idx) xs), Ok tt)
            | _ => (t, Err)
            end
          | _ :: _ =>
            if idx <? 0 then (t, Panic)
            else
              match ptrav op rest (default TNil (pad xs idx !! Z.to_nat idx)) with
              | (c, Ok _) => (TArr (<[Z.to_nat idx := c]> (pad xs idx)), Ok tt)
              | (_, Err) => (TArr (<[Z.to_nat idx := TNil]> xs), Err)
              | (c, Panic) => (TArr (<[Z.to_nat idx := c]> xs), Panic)
              end
          end
      end
    end.
Proof. reflexivity. Qed.

Lemma traverse_refines op parts : forall h lt, holds h lt ->
  refines h lt (traverse op parts h (root lt)) (ptrav op parts (erase lt)).
Proof.
  induction parts as [|part rest IH]; intros h lt HH.
  { apply refines_same; [done|]. done. }
  destruct lt as [|p ts|l m|a xs]; cbn [root].
  - by apply (refines_same h LNil).
  - by apply (refines_same h (LLeaf p ts)).
  - change (erase (LObj l m)) with (TObj (erases m)).
    assert (Hsame : forall r r', outcome (LObj l m) (LObj l m) r r' -> refines h (LObj l m) (h, r) (TObj (erases m), r')).
    { intros r r' Ho. by apply (refines_same h (LObj l m)). }
    destruct rest as [|next rest].
    { (* last piece *) cbn [traverse ptrav]. destruct (op_kind op) eqn:Hkind.
      1,3: destruct (scalar_of (op_value op)) as [p|]; [|by apply Hsame];
        apply (refines_intro _ _ _ _ _ _ (LObj l (ainsert part (LLeaf p (op_ts op)) m)));
        [|by apply erase_obj_set|done|done];
        change (VLeaf p (op_ts op)) with (root (LLeaf p (op_ts op)));
        apply (member_set h l m part (default LNil (alookup part m)) h (LLeaf p (op_ts op)) HH);
        [unfold old_locs; by destruct (alookup part m)|apply moved_leaf].
      - unfold del_key, obj_at. rewrite (obj_in _ _ _ HH), roots_delete.
        destruct (obj_delete h l m part HH) as [H1 H2].
        apply (refines_intro _ _ _ _ _ _ (LObj l (adelete part m))); [| |done|done].
        + split; [done|]. split; [by rewrite upd_length|]. split; [auto|]. intros x Hx Hn. apply upd_ne.
          intros ->. apply Hn, elem_of_list_here.
        + cbn. f_equal. by rewrite <- erases_delete.
      - by apply Hsame.
      - by apply Hsame.
      - by apply Hsame.
      - by apply Hsame. }
    rewrite traverse_cons, ptrav_cons. cbv beta iota.
    rewrite (get_key_own _ _ _ _ HH), erase_alookup.
    assert (Hmissing : forall c, alookup part m = c -> (c = None ∨ c = Some LNil) ->
      refines h (LObj l m)
        (if is_set (op_kind op)
         then match parse_int next with
              | Some _ => let '(h0, a) := alloc h (CArr []) in
                  store_back l part (traverse op (next :: rest) (set_key h0 l part (VArr a 0)) (VArr a 0))
              | None => let '(h0, o) := alloc h (CObj []) in
                  store_back l part (traverse op (next :: rest) (set_key h0 l part (VObj o)) (VObj o))
              end
         else (h, Err))
        (if is_set (op_kind op)
         then match parse_int next with
              | Some _ => put_back (erases m) part (ptrav op (next :: rest) (TArr []))
              | None => put_back (erases m) part (ptrav op (next :: rest) (TObj []))
              end
         else (TObj (erases m), Err))).
    { intros c Hc Hcc. destruct (is_set (op_kind op)); [|by apply Hsame].
      assert (Hol : old_locs part m = locs LNil).
      { unfold old_locs. rewrite Hc. by destruct Hcc as [->| ->]. }
      destruct (parse_int next); cbn [alloc].
      - set (c0 := LArr (length h) []).
        pose proof (member_set h l m part LNil _ c0 HH Hol (fresh_arr h)) as HM.
        apply (refines_trans _ _ _ _ _ _ HM); [done|done|].
        rewrite <- (put_back_twice (erases m) part (erase c0)), erases_insert.
        destruct HM as (HM & _). apply (store_back_refines _ _ _ _ c0); [done|apply alookup_ainsert_eq|].
        apply (IH _ c0). eapply holds_member; [exact HM|]. apply alookup_ainsert_eq.
      - set (c0 := LObj (length h) []).
        pose proof (member_set h l m part LNil _ c0 HH Hol (fresh_obj h)) as HM.
        apply (refines_trans _ _ _ _ _ _ HM); [done|done|].
        rewrite <- (put_back_twice (erases m) part (erase c0)), erases_insert.
        destruct HM as (HM & _). apply (store_back_refines _ _ _ _ c0); [done|apply alookup_ainsert_eq|].
        apply (IH _ c0). eapply holds_member; [exact HM|]. apply alookup_ainsert_eq. }
    destruct (alookup part m) as [[|p ts|l' m'|a xs]|] eqn:Hk; cbn [fmap option_fmap option_map from_option id root erase];
      [by apply (Hmissing (Some LNil)); auto|by apply Hsame| | |by apply (Hmissing None); auto].
    + (* member is an object *)
      change (TObj (map (fun kv => (kv.1, erase kv.2)) m')) with (erase (LObj l' m')).
      apply (store_back_refines _ _ _ _ (LObj l' m')); [done|done|]. apply (IH _ (LObj l' m')).
      by eapply holds_member.
    + (* member is an array *)
      destruct (parse_int next) as [idx|]; [|by apply Hsame].
      assert (HA : holds h (LArr a xs)) by (by eapply holds_member).
      assert (Hol : old_locs part m = locs (LArr a xs)) by (unfold old_locs; by rewrite Hk).
      assert (Hset : forall sc, sc = scalar_of (op_value op) ->
        refines h (LObj l m)
         (let '(h1, a1) :=
            if Z.of_nat (length xs) <=? idx then
              let '(h0, a0) := extend h a (length xs) (Z.to_nat idx + 1) in
              (set_key h0 l part (VArr a0 (Z.to_nat idx + 1)), a0)
            else (h, a) in
          match sc with
          | Some p =>
              if idx <? 0 then (h1, Panic)
              else (set_idx h1 a1 (Z.to_nat idx) (VLeaf p (op_ts op)), Ok (VObj l))
          | None =>
              match op_value op with
              | ANil => (h1, Err)
              | _ =>
                  if idx <? 0 then (h1, Panic)
                  else store_back l part
                         (traverse op (next :: rest) h1 (get_idx h1 a1 (Z.to_nat idx)))
              end
          end)
         (match sc with
          | Some p =>
              if idx <? 0 then (TObj (erases m), Panic)
              else (TObj (ainsert part
                      (TArr (<[Z.to_nat idx := TLeaf p (op_ts op)]> (pad (map erase xs) idx))) (erases m)), Ok tt)
          | None =>
              match op_value op with
              | ANil => (TObj (ainsert part (TArr (pad (map erase xs) idx)) (erases m)), Err)
              | _ =>
                  if idx <? 0 then (TObj (erases m), Panic)
                  else
                    match ptrav op (next :: rest) (default TNil (pad (map erase xs) idx !! Z.to_nat idx)) with
                    | (c, Panic) =>
                        (TObj (ainsert part (TArr (<[Z.to_nat idx := c]> (pad (map erase xs) idx))) (erases m)), Panic)
                    | r => put_back (erases m) part r
                    end
              end
          end)).
      { intros sc Hsc.
        assert (HX : exists h1 a1 xs1,
          (if Z.of_nat (length xs) <=? idx then
              let '(h0, a0) := extend h a (length xs) (Z.to_nat idx + 1) in
              (set_key h0 l part (VArr a0 (Z.to_nat idx + 1)), a0)
            else (h, a)) = (h1, a1) ∧
          moved h (LObj l m) h1 (LObj l (ainsert part (LArr a1 xs1) m)) ∧
          map erase xs1 = pad (map erase xs) idx ∧ (0 <= idx -> (Z.to_nat idx < length xs1)%nat) ∧
          (idx < 0 -> h1 = h)).
        { pose proof (extended h a xs idx HA) as HE.
          destruct (Z.leb_spec (Z.of_nat (length xs)) idx) as [Hle|Hlt].
          - destruct (extend h a (length xs) (Z.to_nat idx + 1)) as [h0 a0] eqn:E.
            destruct HE as (xs1 & HM & Hn & He & Hlt & _ & _).
            exists (set_key h0 l part (VArr a0 (Z.to_nat idx + 1))), a0, xs1.
            split; [done|]. split; [|split; [done|split; [done|lia]]].
            rewrite Hn. change (VArr a0 (length xs1)) with (root (LArr a0 xs1)).
            by apply (member_set h l m part (LArr a xs)).
          - destruct HE as (xs1 & HM & Hn & He & Hlt' & H5 & _). destruct (H5 eq_refl) as (_ & _ & ->).
            exists h, a, xs. split; [done|]. split; [|done].
            rewrite ainsert_id by done. by apply moved_refl. }
        destruct HX as (h1 & a1 & xs1 & -> & HM & He & Hlt & Hneg).
        assert (HA1 : holds h1 (LArr a1 xs1)).
        { destruct HM as (HM & _). eapply holds_member; [exact HM|]. apply alookup_ainsert_eq. }
        rewrite <- He.
        destruct sc as [p|].
        - destruct (Z.ltb_spec idx 0) as [Hn|Hn]; [rewrite (Hneg Hn); by apply Hsame|].
          destruct (lookup_lt_is_Some_2 xs1 (Z.to_nat idx) (Hlt Hn)) as [e Hi].
          apply (refines_intro _ _ _ _ _ _ (LObj l (ainsert part (LArr a1 (<[Z.to_nat idx := LLeaf p (op_ts op)]> xs1)) m)));
            [|by apply erase_obj_set, erase_arr_set|done|done].
          eapply moved_trans; [exact HM|].
          rewrite <- (ainsert_ainsert part (LArr a1 (<[Z.to_nat idx := LLeaf p (op_ts op)]> xs1)) (LArr a1 xs1)).
          apply (member_kept h1 l _ part (LArr a1 xs1)); [by destruct HM|apply alookup_ainsert_eq| |].
          + change (VLeaf p (op_ts op)) with (root (LLeaf p (op_ts op))).
            apply (elem_set h1 a1 xs1 _ e); [done|done|apply moved_leaf].
          + cbn. by rewrite insert_length.
        - assert (Hnil : refines h (LObj l m) (h1, Err) (TObj (ainsert part (TArr (map erase xs1)) (erases m)), Err)).
          { apply (refines_intro _ _ _ _ _ _ (LObj l (ainsert part (LArr a1 xs1) m))); [done| |done|done].
            by apply erase_obj_set. }
          assert (Hgo : refines h (LObj l m)
            (if idx <? 0 then (h1, Panic)
             else store_back l part (traverse op (next :: rest) h1 (get_idx h1 a1 (Z.to_nat idx))))
            (if idx <? 0 then (TObj (erases m), Panic)
             else match ptrav op (next :: rest) (default TNil (map erase xs1 !! Z.to_nat idx)) with
                  | (c, Panic) =>
                      (TObj (ainsert part (TArr (<[Z.to_nat idx := c]> (map erase xs1))) (erases m)), Panic)
                  | r => put_back (erases m) part r
                  end)).
          { destruct (Z.ltb_spec idx 0) as [Hn|Hn]; [rewrite (Hneg Hn); by apply Hsame|].
            destruct (lookup_lt_is_Some_2 xs1 (Z.to_nat idx) (Hlt Hn)) as [e Hi].
            rewrite (get_idx_own _ _ _ _ _ HA1 Hi), (erase_at _ _ _ Hi).
            destruct (IH h1 e) as (e' & HM' & He' & Ho & _); [by eapply holds_child|].
            destruct (traverse op (next :: rest) h1 (root e)) as [h2 r].
            destruct (ptrav op (next :: rest) (erase e)) as [c r']. cbn [fst snd] in *.
            assert (Hw : moved h1 (LArr a1 xs1) h2 e').
            { eapply moved_weaken; [|exact HM']. intros x Hx. cbn. apply elem_of_list_further.
              by apply (child_xlocs xs1 (Z.to_nat idx) e). }
            assert (Hol1 : old_locs part (ainsert part (LArr a1 xs1) m) = locs (LArr a1 xs1)).
            { unfold old_locs. by rewrite alookup_ainsert_eq. }
            destruct r as [v| |], r' as [[]| |]; try done; cbn [outcome] in Ho; cbn [store_back put_back].
            - subst v. apply (refines_intro _ _ _ _ _ _ (LObj l (ainsert part e' m))); [| |done|done].
              + eapply moved_trans; [exact HM|]. rewrite <- (ainsert_ainsert part e' (LArr a1 xs1)).
                apply (member_set h1 l _ part (LArr a1 xs1)); [by destruct HM|done|done].
              + by apply erase_obj_set.
            - apply (refines_intro _ _ _ _ _ _ (LObj l (ainsert part LNil m))); [| |done|done].
              + eapply moved_trans; [exact HM|]. rewrite <- (ainsert_ainsert part LNil (LArr a1 xs1)).
                apply (member_set h1 l _ part (LArr a1 xs1) h2 LNil); [by destruct HM|done|].
                eapply moved_trans; [exact Hw|]. apply moved_nil.
              + by apply erase_obj_set.
            - apply (refines_intro _ _ _ _ _ _ (LObj l (ainsert part (LArr a1 (<[Z.to_nat idx := e']> xs1)) m)));
                [|by apply erase_obj_set, erase_arr_set|done|done].
              eapply moved_trans; [exact HM|]. rewrite <- (ainsert_ainsert part (LArr a1 (<[Z.to_nat idx := e']> xs1)) (LArr a1 xs1)).
              apply (member_kept h1 l _ part (LArr a1 xs1)); [by destruct HM|apply alookup_ainsert_eq| |].
              + by apply (elem_kept h1 a1 xs1 _ e).
              + cbn. by rewrite insert_length. }
          destruct (op_value op); try exact Hgo. exact Hnil. }
      destruct (op_kind op) eqn:Hkind; try (by apply Hsame).
      * apply (Hset _ eq_refl).
      * rewrite map_length. destruct ((idx <? 0) || (Z.of_nat (length xs) <=? idx)) eqn:Hb; [by apply Hsame|].
        apply orb_false_iff in Hb as [Hb1 Hb2]. rewrite Z.ltb_ge in Hb1. rewrite Z.leb_gt in Hb2.
        apply (refines_intro _ _ _ _ _ _ (LObj l (ainsert part (LArr a (delete (Z.to_nat idx) xs)) m))); [| |done|done].
        -- replace (VArr a (length xs - 1)) with (root (LArr a (delete (Z.to_nat idx) xs))).
           2:{ cbn. rewrite length_delete; [done|]. apply lookup_lt_is_Some_2. lia. }
           apply (member_set h l m part (LArr a xs)); [done|done|]. apply elem_removed; [done|lia].
        -- apply erase_obj_set. cbn. by rewrite map_erase_delete.
      * apply (Hset _ eq_refl).
  - (* an array *)
    assert (Hsame : forall r r', outcome (LArr a xs) (LArr a xs) r r' -> refines h (LArr a xs) (h, r) (TArr (map erase xs), r')).
    { intros r r' Ho. by apply (refines_same h (LArr a xs)). }
    change (erase (LArr a xs)) with (TArr (map erase xs)).
    rewrite traverse_cons, ptrav_cons. cbv beta iota.
    destruct (parse_int part) as [idx|]; [|by apply Hsame]. rewrite map_length.
    destruct ((Z.of_nat (length xs) <=? idx) && negb (is_set (op_kind op))) eqn:Hb; [by apply Hsame|].
    pose proof (extended h a xs idx HH) as HE.
    destruct (if Z.of_nat (length xs) <=? idx then _ else _) as [[h1 a1] n1] eqn:Eif.
    destruct HE as (xs1 & HM & -> & He & Hlt & Hshort & Hlong).
    assert (HA1 : holds h1 (LArr a1 xs1)) by (by destruct HM).
    assert (Hneg : idx < 0 -> h1 = h).
    { intros Hn. destruct (Hshort) as (-> & _); [|done]. apply Z.leb_gt. lia. }
    assert (Herr : refines h (LArr a xs) (h1, Err) (TArr (map erase xs), Err)).
    { destruct (Z.of_nat (length xs) <=? idx) eqn:El.
      - destruct (Hlong eq_refl) as [_ HO]. apply (refines_intro _ _ _ _ _ _ (LArr a xs)); [|done|done|done].
        by eapply moved_owned.
      - destruct (Hshort eq_refl) as (-> & _). by apply Hsame. }
    rewrite <- He. destruct rest as [|next rest].
    + assert (Hset : refines h (LArr a xs)
        (match scalar_of (op_value op) with
         | Some p => if idx <? 0 then (h1, Panic)
             else (set_idx h1 a1 (Z.to_nat idx) (VLeaf p (op_ts op)), Ok (VArr a1 (length xs1)))
         | None => (h1, Err) end)
        (match scalar_of (op_value op) with
         | Some p => if idx <? 0 then (TArr (map erase xs), Panic)
             else (TArr (<[Z.to_nat idx := TLeaf p (op_ts op)]> (map erase xs1)), Ok tt)
         | None => (TArr (map erase xs), Err) end)).
      { destruct (scalar_of (op_value op)) as [p|]; [|done].
        destruct (Z.ltb_spec idx 0) as [Hn|Hn]; [rewrite (Hneg Hn); by apply Hsame|].
        destruct (lookup_lt_is_Some_2 xs1 (Z.to_nat idx) (Hlt Hn)) as [e Hi].
        apply (refines_intro _ _ _ _ _ _ (LArr a1 (<[Z.to_nat idx := LLeaf p (op_ts op)]> xs1)));
          [|by apply erase_arr_set| |done].
        - eapply moved_trans; [exact HM|]. change (VLeaf p (op_ts op)) with (root (LLeaf p (op_ts op))).
          apply (elem_set h1 a1 xs1 _ e); [done|done|apply moved_leaf].
        - cbn. by rewrite insert_length. }
      destruct (op_kind op) eqn:Hkind; try exact Hset; try exact Herr.
      apply andb_false_iff in Hb. destruct Hb as [Hb|Hb]; [|done]. destruct (Hshort Hb) as (-> & -> & ->).
      destruct (Z.ltb_spec idx 0) as [Hn|Hn]; [by apply Hsame|]. apply Z.leb_gt in Hb.
      apply (refines_intro _ _ _ _ _ _ (LArr a (delete (Z.to_nat idx) xs))); [| | |done].
      * apply elem_removed; [done|lia].
      * cbn. by rewrite map_erase_delete.
      * cbn. rewrite length_delete; [done|]. apply lookup_lt_is_Some_2. lia.
    + destruct (Z.ltb_spec idx 0) as [Hn|Hn]; [rewrite (Hneg Hn); by apply Hsame|].
      destruct (lookup_lt_is_Some_2 xs1 (Z.to_nat idx) (Hlt Hn)) as [e Hi].
      rewrite (get_idx_own _ _ _ _ _ HA1 Hi), (erase_at _ _ _ Hi).
      destruct (Z.of_nat (length xs) <=? idx) eqn:El.
      * destruct (Hlong eq_refl) as [Hnil HO]. rewrite Hnil in Hi. injection Hi as <-. cbn [erase].
        rewrite ptrav_nil by done.
        change (traverse op (next :: rest) h1 (root LNil)) with (h1, @Err val). cbn [fst snd].
        rewrite list_insert_ge.
        2:{ rewrite map_length. apply Z.leb_le in El. lia. }
        assert (Hm1 : moved h1 (LArr a1 xs1) (set_idx h1 a1 (Z.to_nat idx) VNil) (LArr a1 (<[Z.to_nat idx := LNil]> xs1))).
        { apply (elem_set h1 a1 xs1 _ LNil h1 LNil); [done|done|apply moved_nil]. }
        apply (refines_intro _ _ _ _ _ _ (LArr a xs)); [|done|done|done].
        eapply moved_owned; [by eapply moved_trans|done|].
        apply (own_frame h1); [done|]. intros x Hx. unfold set_idx. apply upd_ne. intros ->.
        assert (Hex : exists h0, extend h a (length xs) (Z.to_nat idx + 1) = (h0, x)).
        { destruct (extend h a (length xs) (Z.to_nat idx + 1)) as [h0 a0]. injection Eif as <- <- _. by eexists. }
        destruct Hex as [h0 Hex]. destruct (extend_own _ _ _ _ _ _ HH Hex) as (_ & -> & _).
        pose proof (own_lt h (LArr a xs) (length h) (proj1 HH) Hx). lia.
      * destruct (Hshort eq_refl) as (-> & -> & ->).
        destruct (IH h e) as (e' & HM' & He' & Ho & _); [by eapply holds_child|].
        destruct (traverse op (next :: rest) h (root e)) as [h2 r].
        destruct (ptrav op (next :: rest) (erase e)) as [c r']. cbn [fst snd] in *.
        destruct r as [v| |], r' as [[]| |]; try done; cbn [outcome] in Ho.
        -- subst v. apply (refines_intro _ _ _ _ _ _ (LArr a (<[Z.to_nat idx := e']> xs))); [| | |done].
           ++ by apply (elem_set h a xs _ e).
           ++ by apply erase_arr_set.
           ++ cbn. by rewrite insert_length.
        -- apply (refines_intro _ _ _ _ _ _ (LArr a (<[Z.to_nat idx := LNil]> xs))); [| | |done].
           ++ apply (elem_set h a xs _ e h2 LNil); [done|done|].
              eapply moved_trans; [exact HM'|apply moved_nil].
           ++ by apply erase_arr_set.
           ++ cbn. by rewrite insert_length.
        -- apply (refines_intro _ _ _ _ _ _ (LArr a (<[Z.to_nat idx := e']> xs))); [| | |done].
           ++ by apply (elem_kept h a xs _ e).
           ++ by apply erase_arr_set.
           ++ cbn. by rewrite insert_length.
Qed.
