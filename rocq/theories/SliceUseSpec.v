(** What is said about logs made by Slice that are used further. *)
From Verif Require Import Base F64 Tson Heap Patch Logument.

(** What a caller sees of a call. *)
Inductive answer : Type :=
| AnsDone (r : res unit)
| AnsDoc (r : res val)
| AnsLog (r : res logument)
| AnsPatches (r : res (gmap N (list operation)))
| AnsHistory (r : res (list (string * list operation))).
Definition ask (c : call) (st : state) : state * answer :=
  match c with
  | CStore p => let '(st', r) := store p st in (st', AnsDone r)
  | CAppend => let '(st', r) := append st in (st', AnsDone r)
  | CSnapshot v => let '(st', r) := snapshot v st in (st', AnsDoc r)
  | CTemporalSnapshot orc ts => let '(st', r) := temporal_snapshot orc ts st in (st', AnsDoc r)
  | CSlice vi vj => let '(st', r) := slice vi vj st in (st', AnsLog r)
  | CTemporalSlice orc tsi tsj => let '(st', r) := temporal_slice orc tsi tsj st in (st', AnsLog r)
  | CTrack vi vj => let '(st', r) := track vi vj st in (st', AnsPatches r)
  | CTemporalTrack tsi tsj => let '(st', r) := temporal_track tsi tsj st in (st', AnsPatches r)
  | CSet op => let '(st', r) := set op st in (st', AnsDone r)
  | CTestSet op => let '(st', r) := test_set op st in (st', AnsDone r)
  | CCompact t => let '(st', r) := compact t st in (st', AnsDone r)
  | CHistory orc t => let '(st', r) := history orc t st in (st', AnsHistory r)
  end.
Fixpoint asks (cs : list call) (st : state) : state * list answer :=
  match cs with
  | [] => (st, [])
  | c :: cs' => let '(st1, a) := ask c st in let '(st2, l) := asks cs' st1 in (st2, a :: l)
  end.

(** Questions about versions from [lo] to [hi]. *)
Definition about (lo hi : N) (c : call) : Prop :=
  match c with
  | CSnapshot k => (lo <= k <= hi)%N
  | CSlice a b | CTrack a b => (lo <= a <= hi)%N ∧ (lo <= b <= hi)%N
  | _ => False
  end.
(** Questions about versions from [lo] on, and calls that add versions. *)
Definition from (lo : N) (c : call) : Prop :=
  match c with
  | CSnapshot k => (lo <= k)%N
  | CSlice a b | CTrack a b => (lo <= a)%N ∧ (lo <= b)%N
  | CStore _ | CAppend => True
  | _ => False
  end.
