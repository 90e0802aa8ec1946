(** What is said about groups of logs. *)
From Verif Require Import Base F64 Tson Serial Heap HeapSpec Patch Logument Family.

(** The documents of all groups share nothing. *)
Definition unshared (h : heap) (vs : list val) : Prop := exists ts, length ts = length vs ∧ docs_of h (zip vs ts).
Definition doc_values (fs : list family) : list val := map f_doc fs.

(** A document to make a log from: the text of an object, or an object that shares nothing
    with the documents in use. *)
Definition object_input (T : textlib) (S : families) (i : snap_input) : Prop :=
  match i with
  | SI_text s => forall t, unmarshal T s = Ok t -> exists m, t = TObj m
  | SI_doc v => (exists l, v = VObj l) ∧ unshared (fst S) (v :: doc_values (snd S))
  | SI_other => True
  end.

(** The states of a program that makes logs, calls their methods, and otherwise edits the
    documents in any way that keeps them apart. *)
Inductive grown : families -> Prop :=
| grown_none h : grown (h, [])
| grown_new T i p S : grown S -> object_input T S i -> grown (fnew T i p S)
| grown_call n k c S : grown S -> grown (fcall S n k c)
| grown_edit h h' fs : grown (h, fs) -> unshared h' (doc_values fs) -> grown (h', fs).

(** A log keeps a document as a snapshot or as its current one. *)
Definition keeps (L : logument) (s : val) : Prop :=
  (exists v, l_snapshots L !! v = Some s) ∨ l_current L = s.
(** Groups called by a sequence of calls. *)
Definition calls_group (n : nat) (c : nat * nat * call) : Prop := n = fst (fst c).
