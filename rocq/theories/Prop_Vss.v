(** Theorems about the generator of vehicle data: C62 - C65.  See [/verif/properties.jsonl]. *)
From Verif Require Import Base BaseSpec TjsonSpec F64 Bytes Vss VssSpec VssLemmas VssNext VssData VssDemo.

(** C62: NewVssJson keeps all data except below the keys to be dropped; such keys are kept in
    maps that hold maps only.  A file that holds no map makes it panic. *)
Theorem C62_new : forall file,
  (is_map file -> exists d, new_vss file = Ok (Vss false d) ∧ is_map d ∧
     (forall l x, ~ is_map x -> item d l x <-> kept metadata file l x) ∧
     (forall l, (exists x, is_map x ∧ item d l x) <-> exists x, is_map x ∧ kept metadata file l x)) ∧
  (~ is_map file -> new_vss file = Panic).
Proof. exact new_vss_spec. Qed.
Print Assumptions C62_new.
Example C62_case : is_map spec_file ∧ new_vss spec_file = Ok (Vss false spec_clean).
Proof. exact (conj (ex_intro _ _ eq_refl) spec_new). Qed.
(** C62: reading what is left again changes nothing. *)
Theorem C62_twice : forall file d, new_vss file = Ok (Vss false d) -> new_vss d = Ok (Vss false d).
Proof. exact new_vss_twice. Qed.
Print Assumptions C62_twice.
(** C62: a branch whose name is a key to be dropped is lost, or not, depending on its siblings. *)
Theorem C62_branch_refuted : new_vss listed_branch =
  Ok (Vss false (WObj [("A", WObj [("y", WInt 2)]); ("B", WObj [("type", WObj [("x", WInt 3)]); ("z", WObj [])])])).
Proof. exact branch_removed. Qed.
Print Assumptions C62_branch_refuted.

(** C63: LeafNodes lists exactly the scalars, arrays and stamped maps, each under its path. *)
Theorem C63_leaves : forall d p x, is_map d -> keyed (.≠ "") d ->
  (p, x) ∈ leaf_nodes d <-> exists l, leaf_at d l x ∧ p = dotted l.
Proof. exact leaf_nodes_spec. Qed.
Print Assumptions C63_leaves.
Example C63_case : is_map spec_clean ∧ keyed schema_name spec_clean ∧ leaf_nodes spec_clean =
  [("Vehicle.Speed.datatype", WStr "float"); ("Vehicle.Speed.unit", WStr "percent");
   ("Vehicle.Body.Lock.datatype", WStr "boolean"); ("Vehicle.Body.Lock.unit", WStr "percent");
   ("Vehicle.Body.Mode.datatype", WStr "string"); ("Vehicle.Body.Mode.allowed", WArr [WStr "ON"; WStr "OFF"]);
   ("Vehicle.Body.Codes.datatype", WStr "uint8[]"); ("Vehicle.Body.Codes.unit", WStr "percent")].
Proof. exact (conj (ex_intro _ _ eq_refl) (conj spec_names eq_refl)). Qed.
(** C63: no path is listed twice if the names hold no dots and none is "children"; then different
    leaves have different paths. *)
Theorem C63_once : forall d, keyed clear_name d -> NoDup (map fst (leaf_nodes d)).
Proof. exact leaf_nodes_nodup. Qed.
Print Assumptions C63_once.
Example C63_once_case : keyed clear_name (demo_data (f64_of_Z 75) false "OFF" 1000 1000 1000 1000)
  ∧ map fst (leaf_nodes (demo_data (f64_of_Z 75) false "OFF" 1000 1000 1000 1000))
    = ["Vehicle.Speed"; "Vehicle.Body.Lock"; "Vehicle.Body.Mode"; "Vehicle.Body.Codes"].
Proof. exact demo_clear. Qed.
(** C63: with "children" inside, different data can be listed under one path. *)
Theorem C63_children_refuted : keyed schema_name twice ∧ leaf_nodes twice = [("a.b", WInt 1); ("a.b", WInt 2)].
Proof. exact (conj twice_keyed twice_nodes). Qed.
Print Assumptions C63_children_refuted.

(** C64: Generate on a schema never fails; each leaf of the result belongs to a node of the schema
    that was chosen and has a value within the range of its datatype, whatever the order in which
    nodes are visited; each chosen node of a known datatype gets its leaf. *)
Theorem C64_generate : forall size R ord ts b d, schema d -> (forall p, fair (R p)) -> (forall l, ord l ≡ₚ l) ->
  exists r, generate size R ord ts (Vss b d) = Ok (Vss true r) ∧ is_map r ∧ ~ stamped r ∧ keyed schema_name r ∧
    (forall q x, leaf_at r q x -> node d q ∧ SFltb size (d_float (R (String.concat "." q)) 0) = false ∧ fits (attr d q) ts x) ∧
    (forall q, node d q -> SFltb size (d_float (R (String.concat "." q)) 0) = false -> known (attr d q) -> exists x, leaf_at r q x).
Proof. exact generate_ok. Qed.
Print Assumptions C64_generate.
Example C64_case : schema spec_clean ∧ (forall p, fair (demo_draws p)) ∧
  generate one_half demo_draws id 1000 (Vss false spec_clean)
  = Ok (Vss true (WObj [("Vehicle", WObj [("Speed", leaf_case (WNum (f64_of_Z 75)) 1000);
      ("Body", WObj [("Lock", leaf_case (WBool false) 1000);  ("Codes", WArr [leaf_case (WInt 1) 1000; leaf_case (WInt 1) 1000])])])])).
Proof. exact (conj spec_schema (conj demo_fair demo_half)). Qed.
(** C64: if all datatypes are known and the values allowed are plain, the result has a leaf for each
    chosen node and no other, and GenerateNext applies to it (C65). *)
Theorem C64_typed : forall size R ord ts b d, schema d -> typed d -> (forall p, fair (R p)) -> (forall l, ord l ≡ₚ l) ->
  exists r, generate size R ord ts (Vss b d) = Ok (Vss true r) ∧ dataset r ∧
    (forall q x, leaf_at r q x -> fits (attr d q) ts x) ∧
    (forall q, (exists x, leaf_at r q x) <-> node d q ∧ SFltb size (d_float (R (String.concat "." q)) 0) = false).
Proof. exact generate_dataset. Qed.
Print Assumptions C64_typed.
Example C64_typed_case : typed spec_clean ∧ generate (f64_of_Z 1) demo_draws id 1000 (Vss false spec_clean)
  = Ok (Vss true (demo_data (f64_of_Z 75) false "OFF" 1000 1000 1000 1000)).
Proof. exact (conj spec_typed demo_generate). Qed.
(** C64: for a node below another one the result depends on the order of visits, and one of the
    two is not at its place. *)
Theorem C64_nested_refuted :
  generate (f64_of_Z 1) demo_draws id 1000 (Vss false below_node)
    = Ok (Vss true (WObj [("a", WObj [("value", WBool false); ("timestamp", WInt 1000); ("b", leaf_case (WBool false) 1000)])]))
  ∧ generate (f64_of_Z 1) demo_draws (@rev _) 1000 (Vss false below_node)
    = Ok (Vss true (WObj [("a", WObj [("b", leaf_case (WBool false) 1000); ("a", leaf_case (WBool false) 1000)])])).
Proof. exact below_misplaced. Qed.
Print Assumptions C64_nested_refuted.
(** C64: an attribute at the top makes Generate panic, an unknown datatype gives an empty map. *)
Theorem C64_fail_refuted :
  generate (f64_of_Z 1) demo_draws id 1000 (Vss false (WObj [("datatype", WStr "boolean")])) = Panic
  ∧ generate (f64_of_Z 1) demo_draws id 1000 (Vss false (WObj [("a", WObj [("datatype", WStr "int64")])]))
    = Ok (Vss true (WObj [("a", WObj [])])).
Proof. exact (conj top_panics unknown_empty). Qed.
Print Assumptions C64_fail_refuted.

(** C65: GenerateNext gives a data set with the same paths, in which each leaf is changed, renewed
    or kept as the number drawn for it says. *)
Theorem C65_next : forall c m R ts d, dataset d -> (forall p, fair (R p)) ->
  exists d', next_data c m R ts (Vss true d) = Ok d' ∧ dataset d' ∧
    (forall l, (exists x, leaf_at d l x) <-> exists x', leaf_at d' l x') ∧
    (forall l x x', leaf_at d l x -> leaf_at d' l x' -> moved c m (d_float (R (String.concat "." l)) 0) ts x x').
Proof. exact next_ok. Qed.
Print Assumptions C65_next.
Example C65_case : dataset (demo_data (f64_of_Z 75) false "OFF" 1000 1000 1000 1000)
  ∧ next_data one_half (S754_zero false) demo_draws 2000 (Vss true (demo_data (f64_of_Z 75) false "OFF" 1000 1000 1000 1000))
    = Ok (demo_data (f64_of_Z 75) true "OFF" 2000 2000 1000 2000)
  ∧ next_data (S754_zero false) one_half demo_draws 2000 (Vss true (demo_data (f64_of_Z 75) false "OFF" 1000 1000 1000 1000))
    = Ok (demo_data (f64_of_Z 75) false "OFF" 2000 2000 1000 2000).
Proof. exact (conj demo_dataset (conj demo_next demo_renew)). Qed.
(** C65: after any number of rounds the paths are those of the first data set, the values have
    the types they had, arrays hold the values they held, and the next round does not fail. *)
Theorem C65_rounds : forall c m d e, rounds c m d e -> dataset d ->
  dataset e ∧ (forall l, (exists x, leaf_at d l x) <-> exists x, leaf_at e l x) ∧
  (forall l x y, leaf_at d l x -> leaf_at e l y -> same_type x y) ∧
  (forall R ts, (forall p, fair (R p)) -> exists e', next_data c m R ts (Vss true e) = Ok e').
Proof. exact rounds_all. Qed.
Print Assumptions C65_rounds.
Example C65_rounds_case : rounds one_half (S754_zero false) (demo_data (f64_of_Z 75) false "OFF" 1000 1000 1000 1000)
  (demo_data (f64_of_Z 75) true "OFF" 2000 2000 1000 2000).
Proof. exact demo_rounds. Qed.
(** C65: before Generate it panics. *)
Theorem C65_fresh : forall c m R ts d, next_data c m R ts (Vss false d) = Panic.
Proof. exact next_fresh. Qed.
Print Assumptions C65_fresh.
(** C65: a changed leaf without a value and a branch without leaves are lost. *)
Theorem C65_lost_refuted :
  next_data (f64_of_Z 1) (S754_zero false) demo_draws 2000 (Vss true with_null) = Ok (WObj [("a", WObj [("b", WObj [])])])
  ∧ next_data (S754_zero false) (S754_zero false) demo_draws 2000 (Vss true with_empty)
    = Ok (WObj [("a", WObj [("b", leaf_case (WInt 1) 1000)])]).
Proof. exact (conj null_lost empty_lost). Qed.
Print Assumptions C65_lost_refuted.
