(** Small specifications for the sharing of operation slices. *)
From Verif Require Import Base F64 Tson Heap Patch Logument Alias.

(** A slice lies inside its array. *)
Definition valid (M : mem) (s : slice) : Prop :=
  (s_len s <= s_cap s)%nat ∧ (s_arr s < length M)%nat ∧ (s_off s + s_cap s <= length (arr_at M (s_arr s)))%nat.
(** What Go enforces: slices lie inside their arrays, and writes inside the slices. *)
Definition legal (st : astate) (a : act) : Prop :=
  match a with
  | AWrite s i _ => valid (fst st) s ∧ (i < s_len s)%nat
  | AStore _ (Some s) => valid (fst st) s
  | _ => True
  end.
(** The log uses array [x]. *)
Definition uses (L : alog) (x : nat) : Prop :=
  (exists s, al_pool L = Some s ∧ s_arr s = x) ∨ (exists v s, al_patches L !! v = Some s ∧ s_arr s = x).
(** The caller keeps off the arrays of the log: it writes none of them, and passes a slice of
    one again only without spare capacity or when other operations are pending. *)
Definition careful (st : astate) (a : act) : Prop :=
  match a with
  | AWrite s _ _ => ~ uses (snd st) (s_arr s)
  | AStore _ (Some s) => s_len s = s_cap s ∨ al_pool (snd st) <> None ∨ ~ uses (snd st) (s_arr s)
  | _ => True
  end.
Fixpoint all_along (P : astate -> act -> Prop) (st : astate) (l : list act) : Prop :=
  match l with
  | [] => True
  | a :: l' => P st a ∧ all_along P (astep st a) l'
  end.

(** The log without sharing, with the given documents. *)
Definition view (M : mem) (L : alog) (cur : val) (snaps : gmap N val) : logument :=
  Lgm (al_version L) cur snaps (contents M <$> al_patches L) (contents M <$> al_pool L).
(** The same calls on a log without sharing, each slice replaced by its elements at the time
    of the call. *)
Definition vstep (M : mem) (a : act) (st : state) : state :=
  match a with
  | AStore _ s => fst (store (PI_patch (contents M <$> s)) st)
  | ABuilt _ _ p => fst (store p st)
  | AAppend => fst (append st)
  | _ => st
  end.
Fixpoint vrun (ast : astate) (l : list act) (st : state) : state :=
  match l with
  | [] => st
  | a :: l' => vrun (astep ast a) l' (vstep (fst ast) a st)
  end.
(** A new log. *)
Definition alog0 : alog := ALog [0%N] ∅ None.
