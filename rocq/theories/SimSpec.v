(** What a simulation run should leave, stated on the sensors it starts with and on the patches. *)
From Verif Require Import Base BaseSpec F64 GoText Tson Bytes TjsonSpec Sensor Scenario Sim.

(** The iteration orders of Go's maps are permutations. *)
Definition orders_ok (w : world) : Prop :=
  (forall t i g, Permutation (w_order w t i g) g) ∧ (forall d i g, Permutation (w_doc_order w d i g) g).
(** All sensors of a vehicle. *)
Definition sensors (v : vehicle) : smap := concat v.
(** The names of a dotted path. *)
Definition dotted (p : string) (l : list string) : Prop := names ["."%char] p l.
(** Different paths, none of them below another one. *)
Definition separate (v : vehicle) : Prop :=
  NoDup (akeys (sensors v)) ∧
  forall p q l l', p ∈ akeys (sensors v) -> q ∈ akeys (sensors v) -> p <> q -> dotted p l -> dotted q l' -> ~ l `prefix_of` l'.

(** The time steps of a loop. *)
Definition time_step (duration inc t : Z) : Prop := 0 <= t < duration ∧ (inc | t).

(** The number of updates of sensors with the given intervals: each is updated at the multiples of
    its interval that are time steps. *)
Definition total_updates (duration inc : Z) (intervals : list Z) : Z :=
  foldr (fun i n => ((duration - 1) / Z.lcm inc i + 1) + n) 0 intervals.

(** [latest ps p v0 z0 v z]: the last of the patches on [p] gives the value [v] at the time [z]; [v0]
    and [z0] if there is none. *)
Inductive latest (ps : list spatch) (p : string) (v0 : prim) (z0 : Z) : prim -> Z -> Prop :=
| lt_none : (forall q, q ∈ ps -> sp_path q <> p) -> latest ps p v0 z0 v0 z0
| lt_last a q b : ps = a ++ q :: b -> sp_path q = p -> (forall q', q' ∈ b -> sp_path q' <> p) ->
    latest ps p v0 z0 (sp_value q) (sp_ts q).
(** The last JSON patch with the path [p], if any. *)
Inductive last_json (ps : list jpatch) (p : string) : option patch_value -> Prop :=
| lj_none : (forall q, q ∈ ps -> jp_path q <> p) -> last_json ps p None
| lj_last a q b : ps = a ++ q :: b -> jp_path q = p -> (forall q', q' ∈ b -> jp_path q' <> p) ->
    last_json ps p (Some (jp_value q)).

(** The same value, or two numbers that differ by less than 0.005. *)
Inductive close : prim -> prim -> Prop :=
| cl_same v : close v v
| cl_num x y : SFltb (SFabs (SFsub f64_prec f64_emax x y)) (f64_of_ratio false 5 1000) = true -> close (PNum x) (PNum y).

(** What is found below the names [l]. *)
Fixpoint wbelow (l : list string) (w : wjson) : option wjson :=
  match l with
  | [] => Some w
  | k :: l' => match w with
               | WObj m => match alookup k m with Some c => wbelow l' c | None => None end
               | _ => None
               end
  end.
(** The document holds the given leaves and, apart from the objects on the way to them, nothing
    else. *)
Definition holds_leaves (d : doc) (leaf : list string -> wjson -> Prop) : Prop :=
  (forall l n, leaf l n -> wbelow l (WObj d) = Some n) ∧
  (forall l x, wbelow l (WObj d) = Some x -> l <> [] ->
     exists l0 n, leaf l0 n ∧ ((l `prefix_of` l0 ∧ exists m, x = WObj m) ∨ l0 `prefix_of` l)).
(** A leaf of the documents. *)
Definition leaf_of (stamp : string) (v : prim) (z : Z) (n : wjson) : Prop :=
  n = WObj [("value", write_prim v); (stamp, WInt z)].

(** [selects cs ps qs]: [qs] are the patches [ps] whose flag is set. *)
Inductive selects : list bool -> list spatch -> list spatch -> Prop :=
| sl_nil : selects [] [] []
| sl_yes cs p ps qs : selects cs ps qs -> selects (true :: cs) (p :: ps) (p :: qs)
| sl_no cs p ps qs : selects cs ps qs -> selects (false :: cs) (p :: ps) qs.
(** The JSON patches made for the updates [ps] with the flags [cs]: one for the timestamp, and one
    for the value if the flag is set. *)
Inductive json_patches : list bool -> list spatch -> list jpatch -> Prop :=
| js_nil : json_patches [] [] []
| js_yes cs p ps qs : json_patches cs ps qs ->
    json_patches (true :: cs) (p :: ps)
      (JPatch (sp_path p +++ "/timestamp") (PTime (sp_ts p)) :: JPatch (sp_path p +++ "/value") (PVal (sp_value p)) :: qs)
| js_no cs p ps qs : json_patches cs ps qs ->
    json_patches (false :: cs) (p :: ps) (JPatch (sp_path p +++ "/timestamp") (PTime (sp_ts p)) :: qs).
