(** What the listing of a temporal JSON document should say. *)
From stdpp Require Import pretty.
From Verif Require Import Base BaseSpec F64 Tson Tjson TjsonSpec.

Definition feed : ascii := ascii_of_N 10.
Section spec.
(** The text of data. *)
Context (fmtv : json -> string).
(** Two items that differ at most in data with the same text. *)
Inductive like : titem -> titem -> Prop :=
| lk_item p vs vs' cs cs' :
    Forall2 (fun v v' => fst v = fst v' ∧ fmtv (snd v) = fmtv (snd v')) vs vs' ->
    Forall2 (fun c c' => fst c = fst c' ∧ like (snd c) (snd c')) cs cs' ->
    like (TItem p vs cs) (TItem p vs' cs').
Definition like_doc (d d' : tdoc) : Prop := Forall2 (fun c c' => fst c = fst c' ∧ like (snd c) (snd c')) d d'.
(** Names and data of one line each, and periods without blanks. *)
Inductive listable : titem -> Prop :=
| ls_item p vs cs : free_of [" "%char; feed] p ->
    Forall (fun v => free_of [" "%char; feed] (fst v) ∧ free_of [feed] (fmtv (snd v))) vs ->
    Forall (fun c => free_of [feed] (fst c) ∧ listable (snd c)) cs -> listable (TItem p vs cs).
Definition listable_doc (d : tdoc) : Prop := Forall (fun c => free_of [feed] (fst c) ∧ listable (snd c)) d.
End spec.
(** [entry d n k i]: the item [i] has the name [k] and [n] items above it. *)
Inductive entry : tdoc -> nat -> string -> titem -> Prop :=
| en_here d k i : (k, i) ∈ d -> entry d 0 k i
| en_below d k p vs cs n k' i : (k, TItem p vs cs) ∈ d -> entry cs n k' i -> entry d (S n) k' i.
(** [n] steps of four blanks. *)
Fixpoint margin (n : nat) : string := match n with O => "" | S n' => "    " +++ margin n' end.
(** The lines of an item with [n] items above it: its name and period, then its versions in order. *)
Definition item_rows (fmtv : json -> string) (n : nat) (k p : string) (vs : list (string * json)) : list string :=
  (margin n +++ "Item: " +++ k +++ " (Timestamp: " +++ p +++ ")") ::
  match vs with
  | [] => []
  | _ => (margin n +++ "  Versions:") :: concat (imap (fun i v =>
      [margin n +++ "    [" +++ pretty (N.of_nat i) +++ "] Timestamp: " +++ fst v; margin n +++ "        Data: " +++ fmtv (snd v)]) vs)
  end.
(** [rows t ls]: the lines [ls] stand in the text [t] one after another. *)
Definition rows (t : string) (ls : list string) : Prop :=
  exists a b, t = a +++ String.concat "" (map (fun l => l +++ String feed "") ls) +++ b ∧ (a = "" ∨ exists a', a = a' +++ String feed "").
(** A line that belongs into the listing of [d]. *)
Definition entry_line (fmtv : json -> string) (d : tdoc) (l : string) : Prop :=
  (exists n k p vs cs, entry d n k (TItem p vs cs) ∧ l ∈ item_rows fmtv n k p vs) ∨
  (exists n k p vs cs, entry d n k (TItem p vs cs) ∧ cs ≠ [] ∧ l = margin n +++ "  Children:") ∨
  l = "" ∨ l = "  Versions:" ∨ l = "TJSON Document:" ∨ l = "==============".
