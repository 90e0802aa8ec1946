(** Small specifications for several logs over shared operation arrays. *)
From Verif Require Import Base F64 Tson Heap Patch Logument LogSpec Alias AliasSpec Share.

(** Some log uses array [x]. *)
Definition used (w : shares) (x : nat) : Prop := exists k L, snd w !! k = Some L ∧ uses L x.
(** What Go enforces, and what [sort.Slice] promises. *)
Definition klegal (w : shares) (c : kcall) : Prop :=
  match c with
  | KWrite s i _ => valid (fst w) s ∧ (i < s_len s)%nat
  | KStore _ _ (Some s) => valid (fst w) s
  | KTemporal _ orc _ => oracle_ok orc
  | _ => True
  end.
(** The caller writes no array of a log, and passes a slice of one again only while other
    operations are pending. *)
Definition kcareful (w : shares) (c : kcall) : Prop :=
  match c with
  | KWrite s _ _ => ~ used w (s_arr s)
  | KStore k _ (Some s) => ~ used w (s_arr s) ∨ exists L, snd w !! k = Some L ∧ al_pool L <> None
  | _ => True
  end.
Fixpoint kalong (w : shares) (l : list kcall) : Prop :=
  match l with
  | [] => True
  | c :: l' => klegal w c ∧ kcareful w c ∧ kalong (kstep w c) l'
  end.
(** Any arrays and logs that such calls lead to. *)
Definition reached (w : shares) : Prop := exists l, kalong ([], []) l ∧ w = krun ([], []) l.

(** The log a call is made on. *)
Definition about (c : kcall) : option nat :=
  match c with
  | KNew | KMake _ _ | KWrite _ _ _ => None
  | KStore k _ _ | KBuilt k _ _ _ | KAppend k | KSnapshot k | KTemporal k _ _ | KTrack k _ _ | KCompact k _
  | KSlice k _ _ | KTSlice k _ _ _ => Some k
  end.
Definition sorts (c : kcall) : Prop := match c with KTemporal _ _ _ => True | _ => False end.
(** A call that replaces the patches of log [k]. *)
Definition replaces (k : nat) (c : kcall) : Prop :=
  match c with KTrack k' _ _ | KCompact k' _ => k' = k | _ => False end.

(** The operations of a version, and the pending ones. *)
Definition ops_at (w : shares) (k : nat) (v : N) : option (list operation) :=
  L ← snd w !! k; contents (fst w) <$> al_patches L !! v.
Definition pending (w : shares) (k : nat) : option (list operation) :=
  L ← snd w !! k; contents (fst w) <$> al_pool L.
Definition versions (w : shares) (k : nat) : option (list N) := al_version <$> snd w !! k.
(** The operations are in strict time order. *)
Definition in_order (ps : list operation) : Prop := StronglySorted (fun p q => op_ts p < op_ts q) ps.

(** Log [k] is the log [V] of [Logument.v], apart from the documents. *)
Definition shows (w : shares) (k : nat) (V : logument) : Prop :=
  versions w k = Some (l_version V) ∧ (forall v, ops_at w k v = l_patches V !! v) ∧ pending w k = l_pool V.
(** The same call on a log of [Logument.v], a slice replaced by its elements. *)
Definition kvalue (M : mem) (c : kcall) (st st' : state) : Prop :=
  match c with
  | KNew | KMake _ _ | KWrite _ _ _ => st' = st
  | KStore _ _ s => st' = fst (store (PI_patch (contents M <$> s)) st)
  | KBuilt _ _ _ p => st' = fst (store p st)
  | KAppend _ => st' = fst (append st)
  | KSnapshot _ => exists v, st' = fst (snapshot v st)
  | KTemporal _ orc v => exists tsk v0, head (l_version (snd st)) = Some v0 ∧
      pick_snapshot (fst st) (snd st) tsk (sorted_keys (l_snapshots (snd st))) v0 = Ok v ∧
      st' = fst (temporal_snapshot orc tsk st)
  | KTrack _ vi vj => st' = fst (track vi vj st)
  | KCompact _ target => st' = fst (compact target st)
  | KSlice _ vi vj => st' = fst (Logument.slice vi vj st)
  | KTSlice _ _ tsi tsj => exists sn, tslice_snapshots (fst st) (fst (is_continuous (snd st))) tsi tsj
        (sorted_keys (l_snapshots (snd st))) = Ok sn ∧ sn <> ∅ ∧
      exists orc, st' = fst (temporal_slice orc tsi tsj st)
  end.
(** The calls on log [k] among [l], each as on a log of [Logument.v]; the documents may change in
    between, and other logs make temporal queries only while the operations of each version of
    log [k] are in strict time order. *)
Inductive kpath (k : nat) : shares -> list kcall -> logument -> logument -> Prop :=
| path_end w V : kpath k w [] V V
| path_own w c l h V h1 V1 V2 : about c = Some k -> kvalue (fst w) c (h, V) (h1, V1) ->
    kpath k (kstep w c) l V1 V2 -> kpath k w (c :: l) V V2
| path_other w c l V V2 : about c <> Some k -> (sorts c -> forall v ps, l_patches V !! v = Some ps -> in_order ps) ->
    kpath k (kstep w c) l V V2 -> kpath k w (c :: l) V V2.
