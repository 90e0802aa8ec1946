(** Which files the web demo may answer with. *)
From stdpp Require Import pretty.
From Verif Require Import Base BaseSpec Tson TjsonSpec Serve.

(** The directories the generator makes below "dataset" (internal/vssgen/args.go 90-99): one for
    every car, and two below it. *)
Inductive data_dir : list string -> Prop :=
| dd_top : data_dir []
| dd_car n : data_dir ["car_" +++ pretty (n : N)]
| dd_sub n s : s = "tson" ∨ s = "patches" -> data_dir ["car_" +++ pretty (n : N); s].
(** The data set in [root] below [cwd] has only such directories. *)
Definition tidy_data (root : node) (cwd : list string) : Prop :=
  forall l kids, node_at (cwd ++ "dataset" :: l) root = Some (NDir kids) -> data_dir l.
(** No directory of these two names has directories in it. *)
Definition no_nesting (root : node) : Prop :=
  forall p s k kids, s = "tson" ∨ s = "patches" -> node_at (p ++ [s; k]) root ≠ Some (NDir kids).
(** [answer root p s]: [s] is the content of the file at [p], empty if there is none. *)
Definition answer (root : node) (p : list string) (s : string) : Prop :=
  node_at p root = Some (NFile s) ∨ (forall s', node_at p root ≠ Some (NFile s')) ∧ s = "".
(** [stands d fs]: the directory [d] holds the files [fs], named relative to it. *)
Definition stands (d : node) (fs : list (string * string)) : Prop :=
  forall name s, alookup name fs = Some s <-> exists l, names ["/"%char] name l ∧ node_at l d = Some (NFile s).
