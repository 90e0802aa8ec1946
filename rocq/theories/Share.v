(** Several logs over one set of operation arrays: [Slice] hands the operation slices of a log
    to another log, and [TemporalSnapshot] sorts an operation slice in place
    (internal/logument/logument.go 244-360).  Versions and operation slices only; which snapshot
    a call starts from is given, because the documents are those of [Logument.v]. *)
From Verif Require Import Base F64 Tson Heap Patch Logument Alias.

(** The arrays, and the logs in the order they were made. *)
Definition shares : Type := mem * list alog.
(** A call on log [k]; a log that does not exist leaves everything as it is. *)
Definition on_log (k : nat) (f : astate -> astate) (w : shares) : shares :=
  match snd w !! k with
  | Some L => let '(M', L') := f (fst w, L) in (M', <[k := L']> (snd w))
  | None => w
  end.

(** [sort.Slice] on [lgm.Patches[v]] (internal/logument/logument.go 274-276): the operations are
    reordered in their array.  A version without patch is a nil slice. *)
Definition asort (orc : oracle) (v : N) (st : astate) : astate :=
  let '(M, L) := st in
  match al_patches L !! v with
  | Some s => (put_arr M (s_arr s) (s_off s) (or_sort orc (contents M s)), L)
  | None => st
  end.
(** [TemporalSnapshot] (internal/logument/logument.go 259-276) after the snapshot of version [v]
    was picked. *)
Definition atemporal (orc : oracle) (v : N) (st : astate) : astate :=
  match last (al_version (snd st)) with
  | None => st
  | Some vlast =>
      if (vlast <=? v)%N then
        match al_pool (snd st) with
        | Some _ => asort orc (v + 1) (fst (aappend st))
        | None => st
        end
      else asort orc (v + 1) st
  end.

(** The loop of [Track] (internal/logument/logument.go 454-473) and [Compact] (606-631): each
    version gets a fresh array as long as the old slice. *)
Fixpoint acompact_versions (sel : operation -> bool) (latest : list (string * any)) (vs : list N) (st : astate) : astate :=
  match vs with
  | [] => st
  | v :: vs' =>
      let '(M, L) := st in
      let ps := default [] (contents M <$> al_patches L !! v) in
      match change_filter sel true latest ps with
      | Ok (latest', ps') =>
          let '(M', s) := make M ps' (length ps - length ps') in
          acompact_versions sel latest' vs' (M', ALog (al_version L) (<[v := s]> (al_patches L)) (al_pool L))
      | _ => st
      end
  end.
(** [isContinuous] (internal/logument/logument.go 69-91). *)
Definition acontinuous (L : alog) : alog * bool :=
  match al_version L with
  | [] | [_] => (L, true)
  | _ =>
      let vs := merge_sort N.le (al_version L) in
      (ALog vs (al_patches L) (al_pool L),
       match vs with [] => true | v :: ws => steps_by_one v ws end)
  end.
(** The checks shared by [Slice] (internal/logument/logument.go 307-324) and [Track] (421-441). *)
Definition arange (vi vj : N) (L : alog) : bool :=
  match last (al_version L) with
  | None => false
  | Some v => negb ((v <? vi)%N || (v <? vj)%N) && negb (vj <? vi)%N
  end.
(** [Track] (internal/logument/logument.go 418-476). *)
Definition atrack (vi vj : N) (st : astate) : astate :=
  let '(M, L) := st in
  let '(L1, ok) := acontinuous L in
  if ok && arange vi vj L1 then acompact_versions (fun _ => true) [] (sorted_keys (keys_in vi vj (al_patches L1))) (M, L1)
  else (M, L1).
(** [Compact] (internal/logument/logument.go 596-632). *)
Definition acompact (target : string) (st : astate) : astate :=
  let '(M, L) := st in
  let '(L1, ok) := acontinuous L in
  if ok then acompact_versions (on_target target) [] (sorted_keys (al_patches L1)) (M, L1) else (M, L1).
(** The operation slices of [Slice] (internal/logument/logument.go 307-324, 336-347, 354-359):
    the new log has the slices of the old one. *)
Definition aslice (vi vj : N) (L : alog) : alog * option alog :=
  let '(L1, ok) := acontinuous L in
  if ok && arange vi vj L1 then
    let ps := keys_in vi vj (al_patches L1) in (L1, Some (ALog (sorted_keys ps) ps None))
  else (L1, None).
(** The operation slices of [TemporalSlice] (internal/logument/logument.go 386-400): appended one
    by one to fresh slices, so with some spare capacity. *)
Fixpoint acopy_versions (spare : nat) (tsi tsj : Z) (src : alog) (vs : list N) (st : astate) : astate :=
  match vs with
  | [] => st
  | v :: vs' =>
      let '(M, L) := st in
      match tslice_ops tsi tsj (default [] (contents M <$> al_patches src !! v)) with
      | [] => acopy_versions spare tsi tsj src vs' st
      | kept =>
          let '(M', s) := make M kept spare in
          acopy_versions spare tsi tsj src vs'
            (M', ALog (al_version L ++ replicate (length kept) v) (<[v := s]> (al_patches L)) (al_pool L))
      end
  end.

(** The caller makes a slice, writes an element of one, makes a log, or calls one.  [History]
    changes the slices by its call of [Compact] only.  [TemporalSlice] is [KTSlice], followed by
    [KTemporal] when no snapshot lies in its range.  [Set] and [TestSet] are [KBuilt]; [Snapshot]
    is [KSnapshot], and [TemporalTrack] changes nothing. *)
Inductive kcall : Type :=
| KNew
| KMake (xs : list operation) (spare : nat)
| KWrite (s : slice) (i : nat) (o : operation)
| KStore (k extra : nat) (s : option slice)
| KBuilt (k spare extra : nat) (p : patch_input)
| KAppend (k : nat)
| KSnapshot (k : nat)
| KTemporal (k : nat) (orc : oracle) (v : N)
| KTrack (k : nat) (vi vj : N)
| KCompact (k : nat) (target : string)
| KSlice (k : nat) (vi vj : N)
| KTSlice (k spare : nat) (tsi tsj : Z).
Definition kstep (w : shares) (c : kcall) : shares :=
  match c with
  | KNew => (fst w, snd w ++ [ALog [0%N] ∅ None])
  | KMake xs spare => (fst (make (fst w) xs spare), snd w)
  | KWrite s i o => (put_arr (fst w) (s_arr s) (s_off s + i) [o], snd w)
  | KStore k extra s => on_log k (astore extra s) w
  | KBuilt k spare extra p => on_log k (astore_built spare extra p) w
  | KAppend k => on_log k (fun st => fst (aappend st)) w
  | KSnapshot k => on_log k (fun st => (fst st, fst (acontinuous (snd st)))) w
  | KTemporal k orc v => on_log k (atemporal orc v) w
  | KTrack k vi vj => on_log k (atrack vi vj) w
  | KCompact k target => on_log k (acompact target) w
  | KSlice k vi vj =>
      match snd w !! k with
      | Some L =>
          let '(L1, r) := aslice vi vj L in
          (fst w, <[k := L1]> (snd w) ++ match r with Some L2 => [L2] | None => [] end)
      | None => w
      end
  | KTSlice k spare tsi tsj =>
      match snd w !! k with
      | Some L =>
          let '(L1, ok) := acontinuous L in
          if ok && negb (tsj <? tsi) then
            let '(M', L2) := acopy_versions spare tsi tsj L1 (sorted_keys (al_patches L1)) (fst w, ALog [] ∅ None) in
            (M', <[k := L1]> (snd w) ++ [L2])
          else (fst w, <[k := L1]> (snd w))
      | None => w
      end
  end.
Definition krun (w : shares) (l : list kcall) : shares := fold_left kstep l w.
