(** TSON patches: internal/tsonpatch/tsonpatch.go, the part that edits documents. *)
From Verif Require Import Base F64 Tson Heap.

(** [OpType] (internal/tsonpatch/tsonpatch.go 35-45): the six known strings, or any other. *)
Inductive opkind : Type :=
| OAdd | ORemove | OReplace | OMove | OCopy | OTest | OOther (s : string).
#[global] Instance opkind_eq_dec : EqDecision opkind.
Proof. solve_decision. Defined.

(** [Operation.Value]: nil, the JSON scalars, a Go int, decoded JSON containers, or a
    TSON value (as written by [History]).  Other Go types are not modelled. *)
Inductive any : Type :=
| ANil
| AStr (s : string)
| ANum (f : f64)
| AInt (z : Z)
| ABool (b : bool)
| AMap (m : list (string * json))
| ASlice (l : list json)
| ATson (t : tson).

(** [Operation] (internal/tsonpatch/tsonpatch.go 81-86). *)
Record operation : Type := Op {
  op_kind : opkind;
  op_path : string;
  op_value : any;
  op_ts : Z
}.

(** Go's [a == b] on interface values: different dynamic types differ, equal
    uncomparable types panic ([None]). *)
Definition any_eq (a b : any) : option bool :=
  match a, b with
  | ANil, ANil => Some true
  | AStr x, AStr y => Some (bool_decide (x = y))
  | ANum x, ANum y => Some (f64_eq x y)
  | AInt x, AInt y => Some (x =? y)
  | ABool x, ABool y => Some (Bool.eqb x y)
  | AMap _, AMap _ => None
  | ASlice _, ASlice _ => None
  | ATson (TLeaf (PStr x) i), ATson (TLeaf (PStr y) j) => Some (bool_decide (x = y) && (i =? j))
  | ATson (TLeaf (PNum x) i), ATson (TLeaf (PNum y) j) => Some (f64_eq x y && (i =? j))
  | ATson (TLeaf (PBool x) i), ATson (TLeaf (PBool y) j) => Some (Bool.eqb x y && (i =? j))
  | ATson (TObj _), ATson (TObj _) => None
  | ATson (TArr _), ATson (TArr _) => None
  | _, _ => Some false
  end.

(** The scalar cases of the type switches on [op.Value]
    (internal/tsonpatch/tsonpatch.go 182-191, 234-242, 312-320). *)
Definition scalar_of (v : any) : option prim :=
  match v with
  | AStr s => Some (PStr s)
  | ANum f => Some (PNum f)
  | AInt z => Some (PNum (f64_of_Z z))
  | ABool b => Some (PBool b)
  | _ => None
  end.

Definition is_set (k : opkind) : bool :=
  match k with OAdd | OReplace => true | _ => false end.

(** [j[part], err = applyTraverse(...)] followed by the error check: on an error the
    member is overwritten by nil (internal/tsonpatch/tsonpatch.go 214-216, 248-250,
    269-271, 276-278). *)
Definition store_back (l : loc) (part : string) (r : heap * res val) : heap * res val :=
  match r with
  | (h, Ok v) => (set_key h l part v, Ok (VObj l))
  | (h, Err) => (set_key h l part VNil, Err)
  | (h, Panic) => (h, Panic)
  end.

(** [applyTraverse] (internal/tsonpatch/tsonpatch.go 166-340).  Huge indices, for which Go's
    [make] would fail, are not treated specially. *)
Fixpoint traverse (op : operation) (parts : list string) (h : heap) (doc : val)
  : heap * res val :=
  match parts with
  | [] => (h, Ok doc)
  | part :: rest =>
    match doc with
    | VLeaf _ _ => (h, Ok doc)
    | VNil => (h, Err)
    | VObj l =>
      match rest with
      | [] =>
        match op_kind op with
        | OAdd | OReplace =>
            match scalar_of (op_value op) with
            | Some p => (set_key h l part (VLeaf p (op_ts op)), Ok doc)
            | None => (h, Err)
            end
        | ORemove => (del_key h l part, Ok doc)
        | OMove | OCopy | OTest => (h, Panic)
        | OOther _ => (h, Err)
        end
      | next :: _ =>
        match get_key h l part with
        | VLeaf _ _ => (h, Panic)
        | VObj l' => store_back l part (traverse op rest h (VObj l'))
        | VArr a n =>
          match parse_int next with
          | None => (h, Err)
          | Some idx =>
            match op_kind op with
            | OAdd | OReplace =>
              let '(h1, a1) :=
                if Z.of_nat n <=? idx then
                  let '(h0, a0) := extend h a n (Z.to_nat idx + 1) in
                  (set_key h0 l part (VArr a0 (Z.to_nat idx + 1)), a0)
                else (h, a) in
              match scalar_of (op_value op) with
              | Some p =>
                  if idx <? 0 then (h1, Panic)
                  else (set_idx h1 a1 (Z.to_nat idx) (VLeaf p (op_ts op)), Ok doc)
              | None =>
                  match op_value op with
                  | ANil => (h1, Err)
                  | _ =>
                      if idx <? 0 then (h1, Panic)
                      else store_back l part
                             (traverse op rest h1 (get_idx h1 a1 (Z.to_nat idx)))
                  end
              end
            | ORemove =>
              if (idx <? 0) || (Z.of_nat n <=? idx) then (h, Panic)
              else
                let h1 := remove_idx h a n (Z.to_nat idx) in
                (set_key h1 l part (VArr a (n - 1)), Ok doc)
            | _ => (h, Err)
            end
          end
        | VNil =>
          if is_set (op_kind op) then
            match parse_int next with
            | Some _ =>
                let '(h0, a) := alloc h (CArr []) in
                store_back l part (traverse op rest (set_key h0 l part (VArr a 0)) (VArr a 0))
            | None =>
                let '(h0, o) := alloc h (CObj []) in
                store_back l part (traverse op rest (set_key h0 l part (VObj o)) (VObj o))
            end
          else (h, Err)
        end
      end
    | VArr a n =>
      match parse_int part with
      | None => (h, Err)
      | Some idx =>
        if (Z.of_nat n <=? idx) && negb (is_set (op_kind op)) then (h, Err)
        else
          let '(h1, a1, n1) :=
            if Z.of_nat n <=? idx then
              let '(h0, a0) := extend h a n (Z.to_nat idx + 1) in (h0, a0, (Z.to_nat idx + 1)%nat)
            else (h, a, n) in
          match rest with
          | [] =>
            match op_kind op with
            | OAdd | OReplace =>
                match scalar_of (op_value op) with
                | Some p =>
                    if idx <? 0 then (h1, Panic)
                    else (set_idx h1 a1 (Z.to_nat idx) (VLeaf p (op_ts op)), Ok (VArr a1 n1))
                | None => (h1, Err)
                end
            | ORemove =>
                if idx <? 0 then (h1, Panic)
                else (remove_idx h1 a1 n1 (Z.to_nat idx), Ok (VArr a1 (n1 - 1)))
            | _ => (h1, Err)
            end
          | _ :: _ =>
            if idx <? 0 then (h1, Panic)
            else
              match traverse op rest h1 (get_idx h1 a1 (Z.to_nat idx)) with
              | (h2, Ok v) => (set_idx h2 a1 (Z.to_nat idx) v, Ok (VArr a1 n1))
              | (h2, Err) => (set_idx h2 a1 (Z.to_nat idx) VNil, Err)
              | (h2, Panic) => (h2, Panic)
              end
          end
      end
    end
  end.

(** The path pieces [ApplyOperation] works with (internal/tsonpatch/tsonpatch.go 152-156). *)
Definition op_parts (path : string) : list string :=
  split_on slash (dots_to_slashes (rfc_decode path)).

(** [ApplyOperation] (internal/tsonpatch/tsonpatch.go 151-163). *)
Definition apply_operation (h : heap) (doc : val) (op : operation) : heap * res val :=
  traverse op (op_parts (op_path op)) h doc.

(** [ApplyPatch] (internal/tsonpatch/tsonpatch.go 142-149): every operation is applied to the
    original [doc]; the result starts as nil. *)
Fixpoint apply_ops (h : heap) (doc t : val) (patch : list operation) : heap * res val :=
  match patch with
  | [] => (h, Ok t)
  | op :: patch' =>
      match apply_operation h doc op with
      | (h', Ok t') => apply_ops h' doc t' patch'
      | (h', e) => (h', e)
      end
  end.
Definition apply_patch (h : heap) (doc : val) (patch : list operation) : heap * res val :=
  apply_ops h doc VNil patch.
