(** The initial patches of the experiments: exp/utils_temporal.go 392-441 and 502-613. *)
From Verif Require Import Base F64 Tson Tjson.

(** [transformJsonStructure] (exp/utils_temporal.go 393-440) on decoded JSON: an object with the
    members "timestamp" and "value" becomes its value (nil becomes ""); the warning printed
    for a value that is no scalar is left out. *)
Fixpoint transform (j : json) : json :=
  match j with
  | JObj m =>
      match alookup "timestamp" m, alookup "value" m with
      | Some _, Some JNull => JStr ""
      | Some _, Some v => v
      | _, _ => JObj (map (fun kv => (fst kv, transform (snd kv))) m)
      end
  | JArr l => JArr (map transform l)
  | _ => j
  end.

(** [isPrimitive] (exp/utils_temporal.go 606-613). *)
Definition is_primitive (j : json) : bool :=
  match j with JObj _ | JArr _ => false | _ => true end.

(** [generateInitialPatches] (exp/utils_temporal.go 533-603): the patches it appends.  The patch
    for the scalars of an object is appended once per member. *)
Definition add_patch (path : string) (v : json) : tpatch := TPatch "add" path v 0.
Fixpoint gen_initial (path : string) (data : json) : list tpatch :=
  match data with
  | JObj m =>
      let prims := List.filter (fun kv => is_primitive (snd kv)) m in
      (fix go (m : list (string * json)) : list tpatch :=
         match m with
         | [] => []
         | (key, value) :: m' =>
             (match prims with [] => [] | _ => [add_patch path (JObj prims)] end)
             ++ gen_initial (if decide (path = "") then key else path +++ "." +++ key) value
             ++ go m'
         end) m
  | JArr l =>
      (fix go (i : nat) (l : list json) : list tpatch :=
         match l with
         | [] => []
         | item :: l' =>
             let newpath := path +++ "." +++ z_text (Z.of_nat i) in
             (if is_primitive item then [add_patch newpath item] else gen_initial newpath item)
             ++ go (S i) l'
         end) O l
  | v => if decide (path = "") then [] else [add_patch path v]
  end.
(** [CreateInitialPatchesFromJSON] (exp/utils_temporal.go 502-530) on the decoded file. *)
Definition initial_patches (file : json) : list tpatch := gen_initial "" (transform file).
