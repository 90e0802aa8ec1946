(** What is said about logs made by TemporalSlice that are used further. *)
From Verif Require Import Base F64 Tson Heap Patch Logument LogSpec SliceUseSpec.

(** The operations of a version within the times. *)
Definition kept (tsi tsj : Z) (L : logument) (v : N) : list operation := filter (in_range tsi tsj) (patch_at L v).
(** No version has more than one of them, and there is no version without between two that have one. *)
Definition gapless (tsi tsj : Z) (L : logument) : Prop :=
  (forall v, (length (kept tsi tsj L v) <= 1)%nat) ∧
  forall u v w, (u < v < w)%N -> kept tsi tsj L u <> [] -> kept tsi tsj L w <> [] -> kept tsi tsj L v <> [].
(** The last version that has one. *)
Definition last_kept (tsi tsj : Z) (L : logument) (v : N) : Prop :=
  kept tsi tsj L v <> [] ∧ forall w, (v < w)%N -> kept tsi tsj L w = [].
(** A new version can be appended: the last version has one operation, and the version before has one or
    no other version has any. *)
Definition can_grow (tsi tsj : Z) (L : logument) : Prop :=
  exists v, last_kept tsi tsj L v ∧ length (kept tsi tsj L v) = 1%nat ∧
    ((exists u, v = u + 1 ∧ kept tsi tsj L u <> []) ∨ forall u, (u < v)%N -> kept tsi tsj L u = [])%N.
(** The call panicked. *)
Definition panicked (a : answer) : Prop :=
  match a with
  | AnsDone Panic | AnsDoc Panic | AnsLog Panic | AnsPatches Panic | AnsHistory Panic => True
  | _ => False
  end.
(** The calls that check that the versions follow each other. *)
Definition checks (c : call) : Prop :=
  match c with
  | CSnapshot _ | CSlice _ _ | CTemporalSlice _ _ _ | CTrack _ _ | CCompact _ | CHistory _ _ => True
  | _ => False
  end.
