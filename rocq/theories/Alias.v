(** The operation slices of a log: Go slices over shared backing arrays, for [Store], [Append]
    and [Set] (internal/logument/logument.go 130-167, 192-212, 537-541) and a caller that
    uses the slices it passed.  Versions, snapshots and the current document are as in
    [Logument.v]; only the patches and the pool are slices here. *)
From Verif Require Import Base F64 Tson Heap Patch Logument.

(** A Go slice: backing array, offset, length, capacity.  A nil slice is [None]. *)
Record slice : Type := Sl { s_arr : nat; s_off : nat; s_len : nat; s_cap : nat }.
(** The backing arrays. *)
Notation mem := (list (list operation)).

Definition zero_op : operation := Op (OOther "") "" ANil 0.
Definition arr_at (M : mem) (a : nat) : list operation := default [] (M !! a).
(** The elements of a slice. *)
Definition contents (M : mem) (s : slice) : list operation := take (s_len s) (drop (s_off s) (arr_at M (s_arr s))).

(** Overwrites the cells from index [i] on. *)
Definition put (l : list operation) (i : nat) (xs : list operation) : list operation :=
  take i l ++ xs ++ drop (i + length xs) l.
Definition put_arr (M : mem) (a i : nat) (xs : list operation) : mem :=
  <[a := put (arr_at M a) i xs]> M.

(** A fresh array with the elements [xs] and [extra] unused cells. *)
Definition make (M : mem) (xs : list operation) (extra : nat) : mem * slice :=
  (M ++ [xs ++ replicate extra zero_op], Sl (length M) 0 (length xs) (length xs + extra)).

(** Go's [append(s, xs...)]: in place when the capacity suffices, otherwise into a fresh
    array with [extra] spare cells. *)
Definition go_append (extra : nat) (M : mem) (s : option slice) (xs : list operation) : mem * option slice :=
  match s with
  | None =>
      match xs with
      | [] => (M, None)
      | _ => let '(M', s') := make M xs extra in (M', Some s')
      end
  | Some s =>
      if Nat.leb (s_len s + length xs) (s_cap s) then
        (put_arr M (s_arr s) (s_off s + s_len s) xs,
         Some (Sl (s_arr s) (s_off s) (s_len s + length xs) (s_cap s)))
      else let '(M', s') := make M (contents M s ++ xs) extra in (M', Some s')
  end.

(** The slice fields of [Logument] (internal/logument/logument.go 24-30). *)
Record alog : Type := ALog {
  al_version : list N;
  al_patches : gmap N slice;
  al_pool : option slice
}.
Definition astate : Type := mem * alog.

(** [Store] of a Patch or []Operation (internal/logument/logument.go 147-148, 157-158,
    162-166): the pool becomes the caller's slice, or its elements are appended. *)
Definition astore (extra : nat) (s : option slice) (st : astate) : astate :=
  let '(M, L) := st in
  match al_pool L with
  | None => (M, ALog (al_version L) (al_patches L) s)
  | Some p =>
      let '(M', p') := go_append extra M (Some p) (default [] (contents M <$> s)) in
      (M', ALog (al_version L) (al_patches L) p')
  end.
(** [Store] of JSON text, []Patch or one operation (internal/logument/logument.go 133-146,
    149-156): the slice is built by [Store]. *)
Definition astore_built (spare extra : nat) (p : patch_input) (st : astate) : astate :=
  match store_arg p with
  | Ok None => astore extra None st
  | Ok (Some xs) => let '(M', s) := make (fst st) xs spare in astore extra (Some s) (M', snd st)
  | _ => st
  end.
(** The end of [Set] (internal/logument/logument.go 537-541). *)
Definition aset (extra : nat) (o : operation) (st : astate) : astate := astore_built 0 extra (PI_op o) st.

(** [Append] (internal/logument/logument.go 192-212): the pool's slice becomes the patch. *)
Definition agrown (L : alog) : bool :=
  match reverse (al_version L) with
  | last :: prev :: _ => (last =? prev + 1)%N
  | _ => true
  end.
Definition aappend (st : astate) : astate * res unit :=
  let '(M, L) := st in
  if negb (agrown L) then (st, Err)
  else match al_pool L with
  | None => (st, Ok tt)
  | Some s =>
      match last (al_version L) with
      | None => (st, Panic)
      | Some v =>
          match al_patches L !! (v + 1)%N with
          | Some _ => (st, Err)
          | None => ((M, ALog (al_version L ++ [(v + 1)%N]) (<[(v + 1)%N := s]> (al_patches L)) None), Ok tt)
          end
      end
  end.

(** The caller makes a slice, writes an element of one, or calls the log. *)
Inductive act : Type :=
| AMake (xs : list operation) (spare : nat)
| AWrite (s : slice) (i : nat) (o : operation)
| AStore (extra : nat) (s : option slice)
| ABuilt (spare extra : nat) (p : patch_input)
| AAppend.
Definition astep (st : astate) (a : act) : astate :=
  match a with
  | AMake xs spare => (fst (make (fst st) xs spare), snd st)
  | AWrite s i o => (put_arr (fst st) (s_arr s) (s_off s + i) [o], snd st)
  | AStore extra s => astore extra s st
  | ABuilt spare extra p => astore_built spare extra p st
  | AAppend => fst (aappend st)
  end.
Definition arun (st : astate) (l : list act) : astate := fold_left astep l st.
