(** Patch generation: internal/tsonpatch/tsonpatch.go 123-139 and 440-884.
    Documents are only read here, so they are trees.  The order of the two member lists
    stands for the iteration orders Go picks for the two maps. *)
From Verif Require Import Base F64 Tson Heap Patch.

(** [makePath] (internal/tsonpatch/tsonpatch.go 440-449), the part already printed. *)
Definition make_path (path part : string) : string :=
  let key := rfc_encode part in
  if decide (path = "") then String slash key
  else if ends_with slash path then path +++ key
  else path +++ String slash key.
Definition idx_path (path : string) (i : nat) : string := make_path path (dec_text (N.of_nat i)).

(** [reflect.TypeOf(a) == reflect.TypeOf(b)]. *)
Definition same_type (a b : tson) : bool :=
  match a, b with
  | TNil, TNil => true
  | TLeaf (PStr _) _, TLeaf (PStr _) _ => true
  | TLeaf (PNum _) _, TLeaf (PNum _) _ => true
  | TLeaf (PBool _) _, TLeaf (PBool _) _ => true
  | TObj _, TObj _ => true
  | TArr _, TArr _ => true
  | _, _ => false
  end.

(** Go's [==] on leaf payloads of the same type. *)
Definition prim_eq (a b : prim) : bool :=
  match a, b with
  | PStr x, PStr y => bool_decide (x = y)
  | PNum x, PNum y => f64_eq x y
  | PBool x, PBool y => Bool.eqb x y
  | _, _ => false
  end.

Definition any_of_prim (p : prim) : any :=
  match p with PStr s => AStr s | PNum f => ANum f | PBool b => ABool b end.

(** [reflect.DeepEqual] on TSON values (the shortcut for identical map references, which
    only matters for NaN, is not modelled). *)
Fixpoint tson_deep_eq (a b : tson) : bool :=
  match a, b with
  | TNil, TNil => true
  | TLeaf p i, TLeaf q j => prim_eq p q && (i =? j)
  | TObj m, TObj m' =>
      Nat.eqb (length m) (length m') &&
      forallb (fun kv => match alookup (fst kv) m' with
                         | Some y => tson_deep_eq (snd kv) y
                         | None => false
                         end) m
  | TArr l, TArr l' =>
      (fix go (l l' : list tson) : bool :=
         match l, l' with
         | [], [] => true
         | x :: l1, y :: l2 => tson_deep_eq x y && go l1 l2
         | _, _ => false
         end) l l'
  | _, _ => false
  end.

(** [matchesValue] and [matchTimestamp] (internal/tsonpatch/tsonpatch.go 682-780), with
    [leaf_eq] comparing two leaves of the same type.  The second loop over the members
    of [modified] only adds that each of them exists in [origin]; the second loop over
    array elements repeats the first. *)
Fixpoint matches (leaf_eq : prim -> Z -> prim -> Z -> bool) (a b : tson) : bool :=
  match a, b with
  | TLeaf p i, TLeaf q j => same_type a b && leaf_eq p i q j
  | TObj m, TObj m' =>
      forallb (fun kv => match alookup (fst kv) m' with
                         | Some y => matches leaf_eq (snd kv) y
                         | None => false
                         end) m &&
      forallb (fun kv => bool_decide (is_Some (alookup (fst kv) m))) m'
  | TArr l, TArr l' =>
      (fix go (l l' : list tson) : bool :=
         match l, l' with
         | [], [] => true
         | x :: l1, y :: l2 => matches leaf_eq x y && go l1 l2
         | _, _ => false
         end) l l'
  | _, _ => false
  end.
Definition matches_value : tson -> tson -> bool := matches (fun p _ q _ => prim_eq p q).
Definition matches_timestamp : tson -> tson -> bool := matches (fun _ i _ j => i =? j).

(** [processArray] (internal/tsonpatch/tsonpatch.go 862-884): the elements of [os], with
    their indices, left over after matching each with the first free equal element of
    [ms]. *)
Fixpoint find_match (v : tson) (ms : list tson) (used : list nat) (i : nat) : option nat :=
  match ms with
  | [] => None
  | m :: ms' =>
      if decide (i ∈ used) then find_match v ms' used (S i)
      else if tson_deep_eq v m then Some i
      else find_match v ms' used (S i)
  end.
Fixpoint unmatched (os : list tson) (i : nat) (ms : list tson) (used : list nat)
  : list (nat * tson) :=
  match os with
  | [] => []
  | o :: os' =>
      match find_match o ms used 0 with
      | Some j => unmatched os' (S i) ms (j :: used)
      | None => (i, o) :: unmatched os' (S i) ms used
      end
  end.
Definition process_array (os ms : list tson) : list (nat * tson) := unmatched os 0 ms [].

(** The remove operations of [compareArray] and [compareArrayWithTimestamp]
    (internal/tsonpatch/tsonpatch.go 785-794, 815-824): last index first. *)
Definition array_removes (os ms : list tson) (p : string) : list operation :=
  rev (map (fun iv => Op ORemove (idx_path p (fst iv)) ANil 0) (process_array os ms)).

(** The add operations of [compareArray] (internal/tsonpatch/tsonpatch.go 797-808). *)
Fixpoint array_adds (p : string) (l : list (nat * tson)) : res (list operation) :=
  match l with
  | [] => Ok []
  | (i, TLeaf x ts) :: l' =>
      do r <- array_adds p l'; Ok (Op OAdd (idx_path p i) (any_of_prim x) ts :: r)
  | _ :: _ => Panic
  end.

(** [compareArray] (internal/tsonpatch/tsonpatch.go 783-810). *)
Definition compare_array (os ms : list tson) (p : string) : res (list operation) :=
  do adds <- array_adds p (process_array ms os);
  Ok (array_removes os ms p ++ adds).

(** The second loop of [compareArrayWithTimestamp] (internal/tsonpatch/tsonpatch.go 827-856). *)
Fixpoint array_updates (p : string) (os ms : list tson) (i : nat) : res (list operation) :=
  match ms with
  | [] => Ok []
  | m :: ms' =>
      do here <-
        match os with
        | o :: _ =>
            if matches_value o m && matches_timestamp o m then Ok []
            else match m with
                 | TLeaf x ts => Ok [Op OReplace (idx_path p i) (any_of_prim x) ts]
                 | _ => Ok []
                 end
        | [] =>
            match m with
            | TLeaf x ts => Ok [Op OAdd (idx_path p i) (any_of_prim x) ts]
            | _ => Panic
            end
        end;
      do rest <- array_updates p (tail os) ms' (S i);
      Ok (here ++ rest)
  end.

(** [compareArrayWithTimestamp] (internal/tsonpatch/tsonpatch.go 813-859). *)
Definition compare_array_ts (os ms : list tson) (p : string) : res (list operation) :=
  do ups <- array_updates p os ms 0; Ok (array_removes os ms p ++ ups).

(** A leaf written by an operation; other values are an error
    (internal/tsonpatch/tsonpatch.go 458-467, 472-481, 548-557, 575-584). *)
Definition emit_leaf (k : opkind) (p : string) (v : tson) : res (list operation) :=
  match v with
  | TLeaf x ts => Ok [Op k p (any_of_prim x) ts]
  | _ => Err
  end.

(** The removal loop of [diff] (internal/tsonpatch/tsonpatch.go 496-517). *)
Fixpoint diff_removed (path : string) (origin modified : list (string * tson))
  : res (list operation) :=
  match origin with
  | [] => Ok []
  | (k, v) :: o' =>
      do here <-
        match alookup k modified with
        | Some _ => Ok []
        | None =>
            match v with
            | TLeaf _ ts => Ok [Op ORemove (make_path path k) ANil ts]
            | TObj _ | TArr _ => Ok [Op ORemove (make_path path k) ANil 0]
            | TNil => Panic
            end
        end;
      do rest <- diff_removed path o' modified;
      Ok (here ++ rest)
  end.

(** [handleValues] ([wt] = false), [handleValuesWithTimestamp] ([wt] = true) and [diff]
    (internal/tsonpatch/tsonpatch.go 452-679).  The operations appended to the patch are
    returned; an error discards the patch. *)
Fixpoint handle_values (wt : bool) (orig modi : tson) (path : string) {struct modi}
  : res (list operation) :=
  match orig with
  | TLeaf po to =>
      match modi with
      | TLeaf pm tm =>
          if same_type orig modi then
            if prim_eq po pm && (negb wt || (to =? tm)) then Ok []
            else Ok [Op OReplace path (any_of_prim pm) tm]
          else Panic
      | _ => Panic
      end
  | TObj mo =>
      match modi with
      | TObj mm =>
          do changed <-
            (fix go (mm : list (string * tson)) : res (list operation) :=
               match mm with
               | [] => Ok []
               | (k, v) :: mm' =>
                   let p := make_path path k in
                   do here <-
                     match alookup k mo with
                     | None => emit_leaf OAdd p v
                     | Some ov =>
                         if same_type ov v then handle_values wt ov v p
                         else emit_leaf OReplace p v
                     end;
                   do rest <- go mm';
                   Ok (here ++ rest)
               end) mm;
          do removed <- diff_removed path mo mm;
          Ok (changed ++ removed)
      | _ => Panic
      end
  | TArr lo =>
      match modi with
      | TArr lm =>
          if Nat.eqb (length lo) (length lm) then
            (fix go (i : nat) (lo lm : list tson) {struct lm} : res (list operation) :=
               match lm, lo with
               | m :: lm', o :: lo' =>
                   do here <- handle_values wt o m (idx_path path i);
                   do rest <- go (S i) lo' lm';
                   Ok (here ++ rest)
               | _, _ => Ok []
               end) 0%nat lo lm
          else if wt then compare_array_ts lo lm path else compare_array lo lm path
      | _ => emit_leaf OReplace path modi
      end
  | TNil =>
      match modi with
      | TNil => Ok []
      | _ => emit_leaf OAdd path modi
      end
  end.

(** [GeneratePatch] and [GeneratePatchWithTimestamp] (internal/tsonpatch/tsonpatch.go
    124-139).  The early return needs both an error and equality from [Equal], which never
    occur together. *)
Definition generate_patch (orig modi : tson) : res (list operation) :=
  handle_values false orig modi "".
Definition generate_patch_with_timestamp (orig modi : tson) : res (list operation) :=
  handle_values true orig modi "".
