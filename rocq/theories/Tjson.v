(** The temporal JSON document of the experiments: exp/tjson.go. *)
From Verif Require Import Base F64 Tson.

(** [TsonPatch] (exp/exp_scenario.go 52-57), with the value decoded by encoding/json. *)
Record tpatch : Type := TPatch { tp_op : string; tp_path : string; tp_value : json; tp_ts : Z }.

(** [TJSONItem] and [TJSONVersion] (exp/tjson.go 20-30): the period, the versions (period and
    data), and the children.  Every item is stored once, so a tree stands for the pointers. *)
Inductive titem : Type :=
| TItem (period : string) (versions : list (string * json)) (children : list (string * titem)).
(** [TJSONDocument] (exp/tjson.go 15-17). *)
Definition tdoc : Type := list (string * titem).

Definition ti_versions (i : titem) : list (string * json) := let 'TItem _ vs _ := i in vs.
Definition ti_children (i : titem) : list (string * titem) := let 'TItem _ _ cs := i in cs.

(** [fmt.Sprintf("%d-%d", startTime, endTime)] (exp/tjson.go 48). *)
Definition range_text (a b : Z) : string := z_text a +++ "-" +++ z_text b.

(** The value [strconv.ParseInt] returns when its error is dropped: 0 for a text that is no
    number, the nearest int64 for one out of range. *)
Definition parse_int_lax (s : string) : Z :=
  let '(neg, ds) :=
    match s with
    | String a s' =>
        if decide (a = "-"%char) then (true, s')
        else if decide (a = "+"%char) then (false, s')
        else (false, s)
    | EmptyString => (false, s)
    end in
  match ds with
  | EmptyString => 0
  | _ =>
      if all_digits ds then
        let v := Z.of_N (dec_val 0 ds) in
        let z := if (neg : bool) then - v else v in
        Z.max int64_min (Z.min int64_max z)
      else 0
  end.

(** [parseTimeRange] (exp/tjson.go 265-274). *)
Definition parse_range (s : string) : Z * Z :=
  match split_on "-" s with
  | [a; b] => (parse_int_lax a, parse_int_lax b)
  | _ => (0, 0)
  end.
(** [isTimeInRange] (exp/tjson.go 259-262). *)
Definition in_range (t : Z) (s : string) : bool :=
  let '(a, b) := parse_range s in (a <=? t) && (t <=? b).

(** [AddItem] (exp/tjson.go 40-90).  The first name only selects the top-level item: a version
    is added in the loop over the other names (62-87), so never for a path of one name. *)
Definition new_item (period : string) : titem := TItem period [] [].
Definition push_version (v : string * json) (i : titem) : titem :=
  let 'TItem p vs cs := i in TItem p (vs ++ [v]) cs.
Fixpoint add_below (v : string * json) (parts : list string) (i : titem) : titem :=
  match parts with
  | [] => i
  | k :: rest =>
      let 'TItem p vs cs := i in
      let c := default (new_item (fst v)) (alookup k cs) in
      let c' := match rest with [] => push_version v c | _ => add_below v rest c end in
      TItem p vs (ainsert k c' cs)
  end.
Definition add_item (d : tdoc) (path : string) (start end_ : Z) (value : json) : tdoc :=
  let period := range_text start end_ in
  match split_on dot path with
  | [] => d
  | k :: rest =>
      let i := default (new_item period) (alookup k d) in
      ainsert k (add_below (period, value) rest i) d
  end.

(** The version loop of [getSnapshotForItem] (exp/tjson.go 121-131): the first version whose
    period contains the time, otherwise the last one. *)
Fixpoint choose_version (t : Z) (vs : list (string * json)) (acc : option json) : option json :=
  match vs with
  | [] => acc
  | (p, d) :: vs' => if in_range t p then Some d else choose_version t vs' (Some d)
  end.
(** Copying entries into a map (exp/tjson.go 137-139, 168-170). *)
Definition merge_into (m new : list (string * json)) : list (string * json) :=
  fold_left (fun acc kv => ainsert (fst kv) (snd kv) acc) new m.
Definition is_null (j : json) : bool := match j with JNull => true | _ => false end.

(** [getSnapshotForItem] (exp/tjson.go 107-181); nil is [JNull]. *)
Fixpoint snapshot_item (t : Z) (i : titem) : json :=
  let 'TItem _ vs cs := i in
  match cs, vs with
  | [], [] => JNull
  | _, _ =>
      let kids :=
        (fix go (cs : list (string * titem)) : list (string * json) :=
           match cs with
           | [] => []
           | (k, c) :: cs' =>
               let s := snapshot_item t c in
               if is_null s then go cs' else (k, s) :: go cs'
           end) cs in
      match choose_version t vs None with
      | Some (JObj m) => JObj (merge_into (merge_into [] m) kids)
      | Some d => d
      | None => match kids with [] => JNull | _ => JObj kids end
      end
  end.
(** [TemporalSnapshot] (exp/tjson.go 93-104). *)
Definition tj_snapshot (d : tdoc) (t : Z) : list (string * json) :=
  List.filter (fun kv => negb (is_null (snd kv)))
    (map (fun kv => (fst kv, snapshot_item t (snd kv))) d).

(** The walk along the names (exp/tjson.go 194-209). *)
Fixpoint find_below (parts : list string) (i : titem) : option titem :=
  match parts with
  | [] => Some i
  | k :: rest => match alookup k (ti_children i) with
                 | Some c => find_below rest c
                 | None => None
                 end
  end.
Definition find_item (d : tdoc) (parts : list string) : option titem :=
  match parts with
  | [] => None
  | k :: rest => match alookup k d with Some i => find_below rest i | None => None end
  end.

(** [TemporalTrack] (exp/tjson.go 185-233).  [srt] is [sort.Slice] by the start of the period. *)
Definition tj_track (srt : list (string * json) -> list (string * json))
    (d : tdoc) (path : string) (s e : Z) : res (list (string * json)) :=
  match find_item d (split_on dot path) with
  | None => Err
  | Some i =>
      Ok (srt (List.filter (fun v => let '(a, b) := parse_range (fst v) in (a <=? e) && (s <=? b))
                 (ti_versions i)))
  end.

(** [FindEvents] (exp/tjson.go 236-256). *)
Definition tj_events (srt : list (string * json) -> list (string * json))
    (d : tdoc) (path : string) (s e : Z) (pred : json -> bool) : res (list Z) :=
  do rs <- tj_track srt d path s e;
  Ok (map (fun v => fst (parse_range (fst v))) (List.filter (fun v => pred (snd v)) rs)).

(** [reflect.DeepEqual] on decoded JSON. *)
Fixpoint json_deep_eq (a b : json) : bool :=
  match a, b with
  | JNull, JNull => true
  | JBool x, JBool y => Bool.eqb x y
  | JNum x, JNum y => f64_eq x y
  | JStr x, JStr y => bool_decide (x = y)
  | JArr l, JArr l' =>
      (fix go (l l' : list json) : bool :=
         match l, l' with
         | [], [] => true
         | x :: l, y :: l' => json_deep_eq x y && go l l'
         | _, _ => false
         end) l l'
  | JObj m, JObj m' =>
      Nat.eqb (length m) (length m') &&
      (fix go (m : list (string * json)) : bool :=
         match m with
         | [] => true
         | (k, v) :: m => match alookup k m' with
                          | Some v' => json_deep_eq v v'
                          | None => false
                          end && go m
         end) m
  | _, _ => false
  end.

(** The path conversion of [FromTSONPatches] (exp/tjson.go 290-297). *)
Definition strip_slash (s : string) : string :=
  match s with
  | String a s' => if decide (a = slash) then s' else s
  | EmptyString => s
  end.
Fixpoint slashes_to_dots (s : string) : string :=
  match s with
  | EmptyString => EmptyString
  | String a s' => String (if decide (a = slash) then dot else a) (slashes_to_dots s')
  end.
Definition tj_path (s : string) : string := slashes_to_dots (strip_slash s).

(** One turn of the patch loop (exp/tjson.go 289-329).  [last] holds [lastValues] and
    [lastTimes], which always have the same keys.  [patch.Timestamp-1] does not wrap around. *)
Definition tj_step (st : tdoc * list (string * (Z * json))) (p : tpatch)
  : tdoc * list (string * (Z * json)) :=
  let '(d, last) := st in
  let path := tj_path (tp_path p) in
  if bool_decide (tp_op p = "add") || bool_decide (tp_op p = "replace") then
    match alookup path last with
    | Some (t0, v0) =>
        if json_deep_eq v0 (tp_value p) then st
        else (add_item d path t0 (tp_ts p - 1) v0, ainsert path (tp_ts p, tp_value p) last)
    | None => (d, ainsert path (tp_ts p, tp_value p) last)
    end
  else if decide (tp_op p = "remove") then
    match alookup path last with
    | Some (t0, v0) => (add_item d path t0 (tp_ts p - 1) v0, adelete path last)
    | None => st
    end
  else st.

(** The closing loop (exp/tjson.go 332-339); [now] is the clock in seconds. *)
Definition tj_close (now : Z) (d : tdoc) (last : list (string * (Z * json))) : tdoc :=
  fold_left (fun d kv => add_item d (fst kv) (fst (snd kv)) now (snd (snd kv))) last d.

(** [FromTSONPatches] (exp/tjson.go 277-342).  [srt] is [sort.Slice] by timestamp, [ord] the
    iteration order of [lastValues]. *)
Definition from_patches (srt : list tpatch -> list tpatch)
    (ord : list (string * (Z * json)) -> list (string * (Z * json)))
    (now : Z) (ps : list tpatch) : tdoc :=
  let '(d, last) := fold_left tj_step (srt ps) ([], []) in tj_close now d (ord last).
