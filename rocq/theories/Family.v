(** Logs made from logs.  [Slice] and [TemporalSlice] (internal/logument/logument.go 304-360,
    362-416) answer a new log that holds the documents of the old one, so a program has groups
    of logs over one heap.  A group is the log [NewLogument] (32-67) made from a document and
    the logs sliced from it, from these slices, and so on.  The operation slices that such
    logs also share are in Share.v; here patches are values. *)
From Verif Require Import Base F64 Tson Serial Heap Patch Logument.

(** The document given to [NewLogument], and the logs of the group, the first one first. *)
Record family : Type := Family { f_doc : val; f_logs : list logument }.
Definition families : Type := heap * list family.

(** The log a call on [st] answers, if any. *)
Definition made (c : call) (st : state) : list logument :=
  match (match c with
         | CSlice vi vj => snd (slice vi vj st)
         | CTemporalSlice orc tsi tsj => snd (temporal_slice orc tsi tsj st)
         | _ => Err
         end) with
  | Ok R => [R]
  | _ => []
  end.

(** A call on log [k] of group [n] (all methods of internal/logument/logument.go). *)
Definition fcall (S : families) (n k : nat) (c : call) : families :=
  match snd S !! n with
  | Some F =>
      match f_logs F !! k with
      | Some L =>
          let st := run_call (fst S, L) c in
          (fst st, <[n := Family (f_doc F) (<[k := snd st]> (f_logs F) ++ made c (fst S, L))]> (snd S))
      | None => S
      end
  | None => S
  end.
Fixpoint fcalls (S : families) (cs : list (nat * nat * call)) : families :=
  match cs with
  | [] => S
  | (n, k, c) :: cs' => fcalls (fcall S n k c) cs'
  end.

(** [NewLogument] adds a group (internal/logument/logument.go 32-67). *)
Definition fnew (T : textlib) (i : snap_input) (p : option patch_input) (S : families) : families :=
  match new_logument T i p (fst S) with
  | (h, Ok L) => (h, snd S ++ [Family (l_current L) [L]])
  | (h, _) => (h, snd S)
  end.
