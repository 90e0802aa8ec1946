(** The versioned log: internal/logument/logument.go. *)
From Verif Require Import Base F64 Tson Serial Heap Patch.

(** [Logument] (internal/logument/logument.go 24-30).  A nil pool is [None].  Operation
    slices are values here; their sharing is modelled separately in [Alias.v]. *)
Record logument : Type := Lgm {
  l_version : list N;
  l_current : val;
  l_snapshots : gmap N val;
  l_patches : gmap N (list operation);
  l_pool : option (list operation)
}.

Definition state : Type := heap * logument.

Definition with_version (L : logument) v := Lgm v (l_current L) (l_snapshots L) (l_patches L) (l_pool L).
Definition with_current (L : logument) c := Lgm (l_version L) c (l_snapshots L) (l_patches L) (l_pool L).
Definition with_snapshots (L : logument) s := Lgm (l_version L) (l_current L) s (l_patches L) (l_pool L).
Definition with_patches (L : logument) p := Lgm (l_version L) (l_current L) (l_snapshots L) p (l_pool L).
Definition with_pool (L : logument) p := Lgm (l_version L) (l_current L) (l_snapshots L) (l_patches L) p.

(** What Go leaves open: the order among equal timestamps in [sort.Slice], and the
    iteration order of maps. *)
Record oracle : Type := Oracle {
  or_sort : list operation -> list operation;
  or_ops : list (string * operation) -> list (string * operation);
  or_versions : list N -> list N
}.

(** [NewLogument]'s and [Store]'s dynamically typed arguments.  [PI_json] carries the result
    of decoding the JSON text of a patch ([None]: error, [Some None]: the JSON null). *)
Inductive snap_input : Type :=
| SI_text (s : string)
| SI_doc (v : val)
| SI_other.
Inductive patch_input : Type :=
| PI_json (r : option (option (list operation)))
| PI_patch (p : option (list operation))
| PI_patches (ps : list (option (list operation)))
| PI_op (o : operation)
| PI_other.

(** Go's [append(a, b...)] on possibly nil slices. *)
Definition append_slice {A} (a b : option (list A)) : option (list A) :=
  match a, b with
  | None, None => None
  | None, Some [] => None
  | None, Some l => Some l
  | Some l, b => Some (l ++ default [] b)
  end.

(** The type switch of [Store] (internal/logument/logument.go 133-160). *)
Definition store_arg (p : patch_input) : res (option (list operation)) :=
  match p with
  | PI_json None => Panic
  | PI_json (Some r) => Ok r
  | PI_patch r => Ok r
  | PI_patches ps => Ok (fold_left append_slice ps None)
  | PI_op o => Ok (Some [o])
  | PI_other => Panic
  end.

(** [Store] (internal/logument/logument.go 130-167). *)
Definition store (p : patch_input) (st : state) : state * res unit :=
  let '(h, L) := st in
  match store_arg p with
  | Ok ps =>
      let pool' := match l_pool L with
                   | None => ps
                   | Some l => append_slice (Some l) ps
                   end in
      ((h, with_pool L pool'), Ok tt)
  | Err => (st, Err)
  | Panic => (st, Panic)
  end.

(** [NewLogument] (internal/logument/logument.go 32-67).  A nil interface matches no case
    of the type switch. *)
Definition new_logument (T : textlib) (i : snap_input) (p : option patch_input) (h : heap)
  : heap * res logument :=
  let mk h v :=
    let L := Lgm [0%N] v {[ 0%N := v ]} ∅ None in
    match p with
    | None => (h, Ok L)
    | Some p => match store p (h, L) with
                | ((h', L'), Ok _) => (h', Ok L')
                | ((h', _), _) => (h', Panic)
                end
    end in
  match i with
  | SI_text s =>
      match unmarshal T s with
      | Ok t => let '(h', v) := alloc_tree h t in mk h' v
      | _ => (h, Panic)
      end
  | SI_doc VNil => (h, Panic)
  | SI_doc v => mk h v
  | SI_other => (h, Panic)
  end.

(** Each version is the previous one plus one. *)
Fixpoint steps_by_one (v : N) (vs : list N) : bool :=
  match vs with
  | [] => true
  | w :: ws => (w =? v + 1)%N && steps_by_one w ws
  end.

(** [isContinuous] (internal/logument/logument.go 69-91): sorts the version list in place. *)
Definition is_continuous (L : logument) : logument * bool :=
  match l_version L with
  | [] | [_] => (L, true)
  | _ =>
      let vs := merge_sort N.le (l_version L) in
      (with_version L vs,
       match vs with [] => true | v :: ws => steps_by_one v ws end)
  end.

(** [isGrown] (internal/logument/logument.go 93-102). *)
Definition is_grown (L : logument) : bool :=
  match reverse (l_version L) with
  | last :: prev :: _ => (last =? prev + 1)%N
  | _ => true
  end.

(** [lgm.Version[len(lgm.Version)-1]]; [None] is the index panic. *)
Definition last_version (L : logument) : option N := last (l_version L).

(** [getSortedVersions] (internal/logument/logument.go 108-128). *)
Definition sorted_keys {A} (m : gmap N A) : list N := merge_sort N.le (map fst (map_to_list m)).

(** [findLatest] (internal/logument/logument.go 169-189); the binary search over the sorted
    keys is written as a filter. *)
Definition find_latest (L : logument) (target : N) : logument * res (N * val) :=
  let '(L1, ok) := is_continuous L in
  if negb ok then (L1, Panic)
  else match last_version L1 with
  | None => (L1, Panic)
  | Some v =>
      if (v <? target)%N then (L1, Panic)
      else match last (filter (fun w => (w <= target)%N) (sorted_keys (l_snapshots L1))) with
           | None => (L1, Err)
           | Some w => (L1, Ok (w, default VNil (l_snapshots L1 !! w)))
           end
  end.

(** [Append] (internal/logument/logument.go 192-212). *)
Definition append (st : state) : state * res unit :=
  let '(h, L) := st in
  if negb (is_grown L) then (st, Err)
  else match l_pool L with
  | None => (st, Ok tt)
  | Some ps =>
      match last_version L with
      | None => (st, Panic)
      | Some v =>
          match l_patches L !! (v + 1)%N with
          | Some _ => (st, Err)
          | None =>
              ((h, Lgm (l_version L ++ [(v + 1)%N]) (l_current L) (l_snapshots L)
                       (<[(v + 1)%N := ps]> (l_patches L)) None), Ok tt)
          end
      end
  end.

(** The loop of [Snapshot] over versions (internal/logument/logument.go 226-232): every
    patch is applied to the same [doc]; the last result is kept. *)
Fixpoint replay_versions (h : heap) (doc t : val) (ps : list (list operation)) : heap * res val :=
  match ps with
  | [] => (h, Ok t)
  | p :: ps' =>
      match apply_patch h doc p with
      | (h', Ok t') => replay_versions h' doc t' ps'
      | (h', e) => (h', e)
      end
  end.

(** Versions [lo], [lo+1], ... ([n] of them). *)
Fixpoint seqN (lo : N) (n : nat) : list N :=
  match n with O => [] | S n' => lo :: seqN (lo + 1) n' end.

Definition patch_at (L : logument) (v : N) : list operation := default [] (l_patches L !! v).

(** [Snapshot] (internal/logument/logument.go 215-242). *)
Definition snapshot (vk : N) (st : state) : state * res val :=
  let '(h, L) := st in
  match find_latest L vk with
  | (L1, Ok (v, s)) =>
      let '(h1, r) :=
        if (v =? vk)%N then (h, Ok s)
        else replay_versions h s VNil (map (patch_at L1) (seqN (v + 1) (N.to_nat (vk - v)))) in
      match r with
      | Ok t =>
          match l_snapshots L1 !! vk with
          | Some _ => ((h1, L1), Ok t)
          | None => ((h1, with_snapshots L1 (<[vk := t]> (l_snapshots L1))), Ok t)
          end
      | _ => ((h1, L1), Panic)
      end
  | (L1, _) => ((h, L1), Panic)
  end.

(** [tson.GetLatestTimestamp] of a stored document. *)
Definition latest_ts_of (h : heap) (v : val) : res Z :=
  match read h v with Some t => latest_timestamp t | None => Panic end.

(** The snapshot choice of [TemporalSnapshot] (internal/logument/logument.go 248-257). *)
Fixpoint pick_snapshot (h : heap) (L : logument) (tsk : Z) (vs : list N) (acc : N) : res N :=
  match vs with
  | [] => Ok acc
  | v :: vs' =>
      do lts <- latest_ts_of h (default VNil (l_snapshots L !! v));
      if lts <=? tsk then pick_snapshot h L tsk vs' v else Ok acc
  end.

(** The per-path choice of [TemporalSnapshot] (internal/logument/logument.go 278-285). *)
Definition keep_latest (tsk : Z) (m : list (string * operation)) (p : operation)
  : list (string * operation) :=
  if op_ts p <=? tsk then
    match alookup (op_path p) m with
    | Some e => if op_ts e <? op_ts p then ainsert (op_path p) p m else m
    | None => ainsert (op_path p) p m
    end
  else m.

(** [TemporalSnapshot] (internal/logument/logument.go 244-302). *)
Definition temporal_snapshot (orc : oracle) (tsk : Z) (st : state) : state * res val :=
  let '(h, L) := st in
  match l_version L, last_version L with
  | v0 :: _, Some vlast =>
      match pick_snapshot h L tsk (sorted_keys (l_snapshots L)) v0 with
      | Ok v =>
          let s := default VNil (l_snapshots L !! v) in
          let continue (L1 : logument) :=
            let ps := or_sort orc (patch_at L1 (v + 1)) in
            let L2 := match l_patches L1 !! (v + 1)%N with
                      | Some _ => with_patches L1 (<[(v + 1)%N := ps]> (l_patches L1))
                      | None => L1
                      end in
            let m := fold_left (keep_latest tsk) (patch_at L2 (v + 1)) [] in
            match apply_patch h s (map snd (or_ops orc m)) with
            | (h1, Ok t) => ((h1, L2), Ok t)
            | (h1, _) => ((h1, L2), Panic)
            end in
          if (vlast <=? v)%N then
            match l_pool L with
            | Some _ => let '((_, L1), _) := append (h, L) in continue L1
            | None => (st, Ok s)
            end
          else continue L
      | _ => (st, Panic)
      end
  | _, _ => (st, Panic)
  end.

(** Restriction of a map to the keys in [lo, hi]. *)
Definition keys_in {A} (lo hi : N) (m : gmap N A) : gmap N A :=
  filter (fun kv => (lo <= kv.1)%N /\ (kv.1 <= hi)%N) m.

(** [Slice] (internal/logument/logument.go 304-360).  The new log shares documents with the
    old one. *)
Definition slice (vi vj : N) (st : state) : state * res logument :=
  let '(h, L) := st in
  let '(L1, ok) := is_continuous L in
  if negb ok then ((h, L1), Panic)
  else if (vj <? vi)%N then ((h, L1), Panic)
  else match last_version L1 with
  | None => ((h, L1), Panic)
  | Some v =>
      if (v <? vi)%N || (v <? vj)%N then ((h, L1), Panic)
      else
        let snaps := keys_in vi vj (l_snapshots L1) in
        let patches := keys_in vi vj (l_patches L1) in
        let versions := sorted_keys patches in
        if decide (snaps = ∅) then
          match snapshot vi (h, L1) with
          | (st2, Ok s) => (st2, Ok (Lgm versions VNil {[ vi := s ]} patches None))
          | (st2, _) => (st2, Panic)
          end
        else ((h, L1), Ok (Lgm versions VNil snaps patches None))
  end.

Definition in_time (tsi tsj ts : Z) : bool := (tsi <=? ts) && (ts <=? tsj).

(** The snapshot loop of [TemporalSlice] (internal/logument/logument.go 376-384). *)
Fixpoint tslice_snapshots (h : heap) (L : logument) (tsi tsj : Z) (vs : list N) : res (gmap N val) :=
  match vs with
  | [] => Ok ∅
  | v :: vs' =>
      let s := default VNil (l_snapshots L !! v) in
      do lts <- latest_ts_of h s;
      do m <- tslice_snapshots h L tsi tsj vs';
      Ok (if in_time tsi tsj lts then <[v := s]> m else m)
  end.

(** The patch loop of [TemporalSlice] (internal/logument/logument.go 386-400): one version
    entry per kept operation. *)
Definition tslice_ops (tsi tsj : Z) (ps : list operation) : list operation :=
  List.filter (fun p => in_time tsi tsj (op_ts p)) ps.
Fixpoint tslice_patches (L : logument) (tsi tsj : Z) (vs : list N)
  : list N * gmap N (list operation) :=
  match vs with
  | [] => ([], ∅)
  | v :: vs' =>
      let kept := tslice_ops tsi tsj (patch_at L v) in
      let '(vers, m) := tslice_patches L tsi tsj vs' in
      (replicate (length kept) v ++ vers,
       match kept with [] => m | _ => <[v := kept]> m end)
  end.

(** [TemporalSlice] (internal/logument/logument.go 362-416). *)
Definition temporal_slice (orc : oracle) (tsi tsj : Z) (st : state) : state * res logument :=
  let '(h, L) := st in
  let '(L1, ok) := is_continuous L in
  if negb ok then ((h, L1), Panic)
  else if tsj <? tsi then ((h, L1), Panic)
  else match tslice_snapshots h L1 tsi tsj (sorted_keys (l_snapshots L1)) with
  | Ok snaps =>
      let '(vers, patches) := tslice_patches L1 tsi tsj (sorted_keys (l_patches L1)) in
      if decide (snaps = ∅) then
        match vers with
        | [] => ((h, L1), Panic)
        | v0 :: _ =>
            match temporal_snapshot orc tsi (h, L1) with
            | (st2, Ok s) => (st2, Ok (Lgm vers VNil {[ v0 := s ]} patches None))
            | (st2, _) => (st2, Panic)
            end
        end
      else ((h, L1), Ok (Lgm vers VNil snaps patches None))
  | _ => ((h, L1), Panic)
  end.

(** One step of the change filter shared, line by line, by [Track] (457-471),
    [TemporalTrack] (499-510) and [Compact] (613-624) of internal/logument/logument.go:
    keep the operation unless its path was seen with an equal value. *)
Definition keep_change (latest : list (string * any)) (p : operation)
  : res (list (string * any) * bool) :=
  match alookup (op_path p) latest with
  | Some prev =>
      match any_eq prev (op_value p) with
      | None => Panic
      | Some true => Ok (latest, false)
      | Some false => Ok (ainsert (op_path p) (op_value p) latest, true)
      end
  | None => Ok (ainsert (op_path p) (op_value p) latest, true)
  end.

(** The inner loop over one version: operations selected by [sel] go through the change
    filter, the others are kept when [keep_rest] holds and dropped otherwise. *)
Fixpoint change_filter (sel : operation -> bool) (keep_rest : bool)
    (latest : list (string * any)) (ps : list operation)
  : res (list (string * any) * list operation) :=
  match ps with
  | [] => Ok (latest, [])
  | p :: ps' =>
      if sel p then
        do lk <- keep_change latest p;
        do r <- change_filter sel keep_rest (fst lk) ps';
        Ok (fst r, if (snd lk : bool) then p :: snd r else snd r)
      else
        do r <- change_filter sel keep_rest latest ps';
        Ok (fst r, if keep_rest then p :: snd r else snd r)
  end.

(** The loop over versions that writes the filtered patches back ([Track] 454-473,
    [Compact] 606-631).  A panic leaves the versions already written. *)
Fixpoint compact_versions (sel : operation -> bool) (latest : list (string * any))
    (L : logument) (vs : list N) : logument * res unit :=
  match vs with
  | [] => (L, Ok tt)
  | v :: vs' =>
      match change_filter sel true latest (patch_at L v) with
      | Ok (latest', ps') =>
          compact_versions sel latest' (with_patches L (<[v := ps']> (l_patches L))) vs'
      | _ => (L, Panic)
      end
  end.

(** [Track] (internal/logument/logument.go 418-476): the unfiltered patches of the range are
    returned, the filtered ones are written to the log. *)
Definition track (vi vj : N) (st : state) : state * res (gmap N (list operation)) :=
  let '(h, L) := st in
  let '(L1, ok) := is_continuous L in
  if negb ok then ((h, L1), Panic)
  else match last_version L1 with
  | None => ((h, L1), Panic)
  | Some v =>
      if (v <? vi)%N || (v <? vj)%N then ((h, L1), Panic)
      else if (vj <? vi)%N then ((h, L1), Panic)
      else
        let packed := keys_in vi vj (l_patches L1) in
        let '(L2, r) := compact_versions (fun _ => true) [] L1 (sorted_keys packed) in
        ((h, L2), match r with Ok _ => Ok packed | _ => Panic end)
  end.

(** The loop of [TemporalTrack] over versions (internal/logument/logument.go 492-516). *)
Fixpoint ttrack_versions (tsi tsj : Z) (latest : list (string * any)) (L : logument)
    (vs : list N) : res (gmap N (list operation)) :=
  match vs with
  | [] => Ok ∅
  | v :: vs' =>
      do r <- change_filter (fun p => in_time tsi tsj (op_ts p)) false latest (patch_at L v);
      do m <- ttrack_versions tsi tsj (fst r) L vs';
      Ok (match snd r with [] => m | ps => <[v := ps]> m end)
  end.

(** [TemporalTrack] (internal/logument/logument.go 478-519). *)
Definition temporal_track (tsi tsj : Z) (st : state) : state * res (gmap N (list operation)) :=
  let '(h, L) := st in
  if tsj <? tsi then (st, Panic)
  else (st, ttrack_versions tsi tsj [] L (sorted_keys (l_patches L))).

(** [Set] (internal/logument/logument.go 521-542); the version argument is ignored. *)
Definition set (op : operation) (st : state) : state * res unit :=
  let '(h, L) := st in
  if negb (is_set (op_kind op)) then (st, Ok tt)
  else match apply_operation h (l_current L) op with
  | (h1, Ok v) =>
      ((h1, with_pool (with_current L v)
              (Some (default [] (l_pool L) ++ [op]))), Ok tt)
  | (h1, Err) => ((h1, with_current L VNil), Panic)
  | (h1, Panic) => ((h1, L), Panic)
  end.

(** [leafCompareValue] (internal/logument/logument.go 578-594). *)
Definition leaf_compare_value (t : tson) (v : any) : bool :=
  match t, v with
  | TLeaf (PStr x) _, AStr y => bool_decide (x = y)
  | TLeaf (PNum x) _, ANum y => f64_eq x y
  | TLeaf (PBool x) _, ABool y => Bool.eqb x y
  | _, _ => false
  end.

(** [TestSet] (internal/logument/logument.go 544-576). *)
Definition test_set (op : operation) (st : state) : state * res unit :=
  let '(h, L) := st in
  match op_kind op with
  | OAdd => set op st
  | OReplace =>
      match last_version L with
      | None => (st, Panic)
      | Some v =>
          match read h (default VNil (l_snapshots L !! v)) with
          | None => (st, Panic)
          | Some t =>
              match get_value t (op_path op) with
              | Panic => (st, Panic)
              | Err => set (Op OAdd (op_path op) (op_value op) (op_ts op)) st
              | Ok cur => if leaf_compare_value cur (op_value op) then (st, Ok tt) else set op st
              end
          end
      end
  | _ => (st, Ok tt)
  end.

(** The operations [Compact] and [History] look at: the decoded path starts with the
    target (internal/logument/logument.go 610-611, 647-648). *)
Definition on_target (target : string) (p : operation) : bool :=
  has_prefix (rfc_decode (op_path p)) target.

(** [Compact] (internal/logument/logument.go 596-632). *)
Definition compact (target : string) (st : state) : state * res unit :=
  let '(h, L) := st in
  let '(L1, ok) := is_continuous L in
  if negb ok then ((h, L1), Panic)
  else let '(L2, r) := compact_versions (on_target target) [] L1 (sorted_keys (l_patches L1)) in
       ((h, L2), r).

(** [historyPatches[path] = append(historyPatches[path], patch)]. *)
Definition push_history (m : list (string * list operation)) (p : operation)
  : list (string * list operation) :=
  ainsert (op_path p) (default [] (alookup (op_path p) m) ++ [p]) m.

(** The collecting loop of [History] (internal/logument/logument.go 644-652). *)
Definition collect_history (target : string) (pss : list (list operation))
  : list (string * list operation) :=
  fold_left push_history (List.filter (on_target target) (concat pss)) [].

(** The last loop of [History] (internal/logument/logument.go 655-669). *)
Fixpoint add_initial (t0 : tson) (m : list (string * list operation))
  : res (list (string * list operation)) :=
  match m with
  | [] => Ok []
  | (k, ps) :: m' =>
      match get_value t0 k with
      | Ok v =>
          do r <- add_initial t0 m';
          Ok ((k, match v with
                  | TNil => ps
                  | _ => Op OAdd k (ATson v) 0 :: ps
                  end) :: r)
      | _ => Panic
      end
  end.

(** [History] (internal/logument/logument.go 634-672). *)
Definition history (orc : oracle) (target : string) (st : state)
  : state * res (list (string * list operation)) :=
  let '(h, L) := st in
  let '(L1, ok) := is_continuous L in
  if negb ok then ((h, L1), Panic)
  else match compact target (h, L1) with
  | ((_, L2), Ok _) =>
      let m := collect_history target
                 (map (patch_at L2) (or_versions orc (sorted_keys (l_patches L2)))) in
      match read h (default VNil (l_snapshots L2 !! 0%N)) with
      | Some t0 => ((h, L2), add_initial t0 m)
      | None => ((h, L2), Panic)
      end
  | ((_, L2), _) => ((h, L2), Panic)
  end.

(** ** Histories of calls on one log *)
Inductive call : Type :=
| CStore (p : patch_input)
| CAppend
| CSnapshot (v : N)
| CTemporalSnapshot (orc : oracle) (ts : Z)
| CSlice (vi vj : N)
| CTemporalSlice (orc : oracle) (tsi tsj : Z)
| CTrack (vi vj : N)
| CTemporalTrack (tsi tsj : Z)
| CSet (op : operation)
| CTestSet (op : operation)
| CCompact (target : string)
| CHistory (orc : oracle) (target : string).

(** State after a call; a recovered panic keeps the partial effects. *)
Definition run_call (st : state) (c : call) : state :=
  match c with
  | CStore p => fst (store p st)
  | CAppend => fst (append st)
  | CSnapshot v => fst (snapshot v st)
  | CTemporalSnapshot orc ts => fst (temporal_snapshot orc ts st)
  | CSlice vi vj => fst (slice vi vj st)
  | CTemporalSlice orc tsi tsj => fst (temporal_slice orc tsi tsj st)
  | CTrack vi vj => fst (track vi vj st)
  | CTemporalTrack tsi tsj => fst (temporal_track tsi tsj st)
  | CSet op => fst (set op st)
  | CTestSet op => fst (test_set op st)
  | CCompact t => fst (compact t st)
  | CHistory orc t => fst (history orc t st)
  end.
Definition run (st : state) (cs : list call) : state := fold_left run_call cs st.
