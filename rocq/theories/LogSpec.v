(** Small specifications for the log: its shape, reachable states, pending operations,
    value changes. *)
From Verif Require Import Base BaseSpec BaseSpecLemmas F64 Tson TsonInd TsonSpec Heap Patch Logument.

(** The versions are 0..n in order, exactly 1..n have a patch, snapshots belong to these
    versions, and version 0 has one. *)
Definition consistent (L : logument) : Prop :=
  exists n : nat,
    l_version L = map N.of_nat (seq 0 (S n)) ∧
    (forall v, is_Some (l_patches L !! v) <-> (1 <= v <= N.of_nat n)%N) ∧
    (forall v, is_Some (l_snapshots L !! v) -> (v <= N.of_nat n)%N) ∧
    is_Some (l_snapshots L !! 0%N).

(** What Go promises about sorting and map iteration. *)
Definition oracle_ok (orc : oracle) : Prop :=
  (forall l, or_sort orc l ≡ₚ l ∧ StronglySorted (fun p q => op_ts p <= op_ts q) (or_sort orc l)) ∧
  (forall m, or_ops orc m ≡ₚ m) ∧
  (forall vs, or_versions orc vs ≡ₚ vs).
Definition call_ok (c : call) : Prop :=
  match c with
  | CTemporalSnapshot orc _ | CTemporalSlice orc _ _ | CHistory orc _ => oracle_ok orc
  | _ => True
  end.

(** The states of a log made by [NewLogument] after any calls, where other code holding
    the documents may edit them at any time. *)
Inductive reachable : state -> Prop :=
| reach_new T i p h h' L : new_logument T i p h = (h', Ok L) -> reachable (h', L)
| reach_call st c : reachable st -> call_ok c -> reachable (run_call st c)
| reach_other h h' L : reachable (h, L) -> reachable (h', L).

(** The operations handed to [Store], in order. *)
Definition ops_of (p : patch_input) : list operation :=
  match p with
  | PI_json (Some (Some l)) => l
  | PI_patch (Some l) => l
  | PI_patches ps => concat (map (default []) ps)
  | PI_op o => [o]
  | _ => []
  end.
Definition pending (L : logument) : list operation := default [] (l_pool L).

(** Calls that neither commit nor set values. *)
Definition quiet (c : call) : Prop :=
  match c with
  | CStore _ | CSnapshot _ | CSlice _ _ | CTrack _ _ | CTemporalTrack _ _
  | CCompact _ | CHistory _ _ => True
  | _ => False
  end.
(** What a sequence of such calls stores. *)
Definition stored (cs : list call) : list operation :=
  concat (map (fun c => match c with CStore p => ops_of p | _ => [] end) cs).

(** Calls that leave recorded patches alone. *)
Definition keeps_patches (c : call) : Prop :=
  match c with
  | CStore _ | CAppend | CSnapshot _ | CSet _ | CTestSet _ | CTemporalTrack _ _ | CSlice _ _ => True
  | _ => False
  end.
(** Calls that at most reorder them. *)
Definition reorders_patches (c : call) : Prop :=
  match c with
  | CTemporalSnapshot _ _ | CTemporalSlice _ _ _ => True
  | _ => keeps_patches c
  end.

(** Go's [==] on operation values: both nil, or scalars or leaves of one type with equal
    content. *)
Inductive go_equal : any -> any -> Prop :=
| ge_nil : go_equal ANil ANil
| ge_str s : go_equal (AStr s) (AStr s)
| ge_num f g : f64_eq f g = true -> go_equal (ANum f) (ANum g)
| ge_int z : go_equal (AInt z) (AInt z)
| ge_bool b : go_equal (ABool b) (ABool b)
| ge_leaf p q ts : prim_eq p q -> go_equal (ATson (TLeaf p ts)) (ATson (TLeaf q ts)).
(** Values of one type that Go cannot compare. *)
Inductive uncomparable : any -> any -> Prop :=
| uc_map m m' : uncomparable (AMap m) (AMap m')
| uc_slice l l' : uncomparable (ASlice l) (ASlice l')
| uc_obj m m' : uncomparable (ATson (TObj m)) (ATson (TObj m'))
| uc_arr l l' : uncomparable (ATson (TArr l)) (ATson (TArr l')).
Lemma any_eq_true a b : any_eq a b = Some true <-> go_equal a b.
Proof.
  split.
  - intros H.
    destruct a as [|s|f|z|x|m|l|[|[s|f|x] ts|m|l]], b as [|s'|f'|z'|x'|m'|l'|[|[s'|f'|x'] ts'|m'|l']]; cbn in H;
      try discriminate; try (apply (f_equal (default false)) in H; cbn in H); try (apply andb_true_iff in H as [H H2]; apply Z.eqb_eq in H2; subst ts').
    + constructor.
    + apply bool_decide_eq_true in H. subst. constructor.
    + by constructor.
    + apply Z.eqb_eq in H. subst. constructor.
    + apply Bool.eqb_prop in H. subst. constructor.
    + apply bool_decide_eq_true in H. by constructor.
    + by constructor.
    + apply Bool.eqb_prop in H. by constructor.
  - destruct 1 as [|s|f g H|z|x|p q ts H]; cbn.
    + done.
    + by rewrite bool_decide_true.
    + by rewrite H.
    + by rewrite Z.eqb_refl.
    + by destruct x.
    + destruct p as [s|f|x], q as [s'|f'|x']; cbn in H; try done; rewrite Z.eqb_refl, andb_true_r.
      * by rewrite bool_decide_true.
      * by rewrite H.
      * subst. by destruct x'.
Qed.
Lemma any_eq_none a b : any_eq a b = None <-> uncomparable a b.
Proof.
  split; [|by destruct 1].
  destruct a as [|s|f|z|x|m|l|[|[s|f|x] ts|m|l]], b as [|s'|f'|z'|x'|m'|l'|[|[s'|f'|x'] ts'|m'|l']]; cbn; intros H;
    try discriminate; constructor.
Qed.

(** The last operation on path [k] in [l]. *)
Definition last_on (k : string) (l : list operation) : option operation :=
  last (filter (fun p => op_path p = k) l).
(** Operation [p] changes the value of its path, after the operations [seen]. *)
Definition changed (seen : list operation) (p : operation) : Prop :=
  match last_on (op_path p) seen with
  | None => True
  | Some q => ~ go_equal (op_value q) (op_value p)
  end.
#[global] Instance changed_dec seen p : Decision (changed seen p).
Proof.
  unfold changed. destruct (last_on _ _) as [q|]; [|apply _].
  destruct (decide (any_eq (op_value q) (op_value p) = Some true)) as [H|H].
  - right. intros H2. apply H2. by apply any_eq_true.
  - left. intros H2. apply H. by apply any_eq_true.
Defined.
Lemma changed_model seen p : changed seen p <->
  match last_on (op_path p) seen with
  | None => True
  | Some q => any_eq (op_value q) (op_value p) <> Some true
  end.
Proof. unfold changed. destruct (last_on _ _) as [q|]; [|done]. by rewrite any_eq_true. Qed.

(** The operations of [l] that change a value, after [seen]. *)
Fixpoint changes (seen l : list operation) : list operation :=
  match l with
  | [] => []
  | p :: l' => (if decide (changed seen p) then [p] else []) ++ changes (seen ++ [p]) l'
  end.
(** The same among the operations that satisfy [P]; all others stay. *)
Fixpoint changes_among (P : operation -> Prop) `{!forall p, Decision (P p)}
    (seen l : list operation) : list operation :=
  match l with
  | [] => []
  | p :: l' =>
      if decide (P p)
      then (if decide (changed seen p) then [p] else []) ++ changes_among P (seen ++ [p]) l'
      else p :: changes_among P seen l'
  end.

(** Two operations on one path whose values Go cannot compare (both maps or both slices). *)
Definition comparable (l : list operation) : Prop :=
  forall p q, p ∈ l -> q ∈ l -> op_path p = op_path q -> ~ uncomparable (op_value p) (op_value q).

(** All operations recorded for the versions [lo] <= w < [hi], oldest first. *)
Definition ops_between (L : logument) (lo hi : N) : list operation :=
  concat (map (fun i => patch_at L (lo + N.of_nat i)%N) (seq 0 (N.to_nat (hi - lo)))).
Definition in_range (tsi tsj : Z) (p : operation) : Prop := tsi <= op_ts p <= tsj.
#[global] Instance in_range_dec tsi tsj p : Decision (in_range tsi tsj p).
Proof. unfold in_range. apply _. Defined.
(** The decoded path starts with [target]. *)
Definition under (target : string) (p : operation) : Prop :=
  exists rest, decoded (op_path p) (target +++ rest).
Lemma has_prefix_spec s p : has_prefix s p = true <-> exists rest, s = p +++ rest.
Proof.
  revert s. induction p as [|a p IH]; intros s; cbn [has_prefix].
  - destruct s; (split; [intros _; by eexists|done]).
  - destruct s as [|b s]; [split; [done|intros (r & H); cbn in H; congruence]|]. cbn [has_prefix]. case_decide as E.
    + subst b. rewrite IH. split; intros (r & H); exists r; cbn in *; congruence.
    + split; [done|]. intros (r & H). cbn in H. congruence.
Qed.
#[global] Instance under_dec target p : Decision (under target p).
Proof.
  destruct (has_prefix (rfc_decode (op_path p)) target) eqn:E.
  - left. apply has_prefix_spec in E as (rest & E). exists rest. by apply decode_spec.
  - right. intros (rest & H%decode_spec). assert (H2 : has_prefix (rfc_decode (op_path p)) target = true)
      by (apply has_prefix_spec; by exists rest). congruence.
Defined.
(** Every operation recorded in the log, oldest first. *)
Definition all_ops (L : logument) : list operation :=
  ops_between L 0 (match last (l_version L) with Some v => v + 1 | None => 0 end)%N.
(** Go's [==] holds, or the values are literally the same. *)
Definition same_value (a b : any) : Prop := a = b ∨ go_equal a b.
Definition same_last_value (p q : option operation) : Prop :=
  match p, q with
  | None, None => True
  | Some a, Some b => same_value (op_value b) (op_value a)
  | _, _ => False
  end.
(** Go's [==] on the values of the last two operations on some path is not defined. *)
Definition clash (l : list operation) : Prop :=
  exists pre p q post, l = pre ++ q :: post ∧ last_on (op_path q) pre = Some p
    ∧ uncomparable (op_value p) (op_value q).
(** The history entry for the value of [k] in the initial document, if there is one. *)
Definition initial_entry (t0 : tson) (k : string) : list operation :=
  match get_value t0 k with
  | Ok TNil => []
  | Ok v => [Op OAdd k (ATson v) 0]
  | _ => []
  end.
(** The versions [lo], [lo]+1, ... below [hi]. *)
Definition range (lo hi : N) : list N := map (fun i => (lo + N.of_nat i)%N) (seq 0 (N.to_nat (hi - lo))).
Definition is_store (c : call) : Prop := match c with CStore _ => True | _ => False end.
