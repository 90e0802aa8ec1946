(** Theorems about the patches of the vehicle data generator: C67. *)
From Verif Require Import Base BaseSpec Tson TsonInd TsonSpec F64 Serial PatchSpec DiffSpec JsonSpec Bytes JsonDemo
  Vss VssSpec VssPatchSpec VssTidy VssRenew VssDemo VssPatchDemo.

(** C67: Generate on a schema whose names and values can be written yields a data set that can be
    written, in which all cells have the current time. *)
Theorem C67_first : forall T num size R ord ts b d, schema d -> typed d -> schema_writes T num d -> (forall p, fair (R p)) ->
  (forall p, draws_write T num (R p)) -> stamp_writes T ts -> (forall l, ord l ≡ₚ l) ->
  exists r, generate size R ord ts (Vss b d) = Ok (Vss true r) ∧ telemetry T num r ∧
    (forall q, (exists x, leaf_at r q x) <-> node d q ∧ SFltb size (d_float (R (String.concat "." q)) 0) = false) ∧
    (forall q v t, cell r q v t -> t = ts).
Proof. exact generate_telemetry. Qed.
Print Assumptions C67_first.
Example C67_first_case : schema spec_clean ∧ typed spec_clean ∧ schema_writes lib num spec_clean ∧ (forall p, draws_write lib num (demo_draws p)) ∧
  stamp_writes lib time1 ∧ generate (f64_of_Z 1) demo_draws id time1 (Vss false spec_clean) = Ok (Vss true demo1).
Proof. exact (conj spec_schema (conj spec_typed (conj spec_writes (conj demo_writes (conj time1_writes demo1_generate))))). Qed.
(** C67: GenerateNext never fails on such a data set and yields another one; each of its cells is an
    old cell or has the new time.  The patch is the set of replacements of cells whose value or
    rounded timestamp differs from the old one, and holds no pointer twice. *)
Theorem C67_patch : forall T num c m R ord ts d, telemetry T num d -> (forall p, fair (R p)) -> (forall p, draws_write T num (R p)) ->
  stamp_writes T ts -> (forall t, same_doc t (ord t)) ->
  exists d' ops, generate_next T num c m R ord ts (Vss true d) = Ok (Vss true d', JArr ops) ∧ telemetry T num d' ∧
    (forall q v t, cell d' q v t -> exists v0 t0, cell d q v0 t0 ∧ (t = ts ∨ v0 = v ∧ t0 = t)) ∧
    (forall o, o ∈ ops <-> exists q v0 t0 v t, cell d q v0 t0 ∧ cell d' q v t ∧
       (~ TsonSpec.prim_eq (as_prim v0) (as_prim v) ∨ ~ same_stamp t0 t) ∧ renewal q v t o) ∧
    NoDup (map op_pointer ops).
Proof. exact next_patch_exact. Qed.
Print Assumptions C67_patch.
Example C67_patch_case : telemetry lib num demo1 ∧ (forall p, fair (demo_draws p)) ∧ (forall p, draws_write lib num (demo_draws p)) ∧ stamp_writes lib time2 ∧
  generate_next lib num one_half (S754_zero false) demo_draws id time2 (Vss true demo1)
  = Ok (Vss true (demo2 time2), JArr [demo_op "/Vehicle/Body/Codes/0" (JNum (f64_of_Z 1)) time2; demo_op "/Vehicle/Body/Codes/1" (JNum (f64_of_Z 1)) time2;
      demo_op "/Vehicle/Body/Lock" (JBool true) time2; demo_op "/Vehicle/Speed" (JNum (f64_of_Z 75)) time2]).
Proof. exact (conj (proj1 demo1_telemetry) (conj demo_fair (conj demo_writes (conj time2_writes demo_patch)))). Qed.
(** C67: if the new time is not rounded to the number of an old timestamp, the operations are
    exactly the cells written in the round. *)
Theorem C67_fresh : forall T num c m R ord ts d d' ops, telemetry T num d -> (forall p, fair (R p)) -> (forall p, draws_write T num (R p)) ->
  stamp_writes T ts -> (forall t, same_doc t (ord t)) -> (forall q v t, cell d q v t -> ~ same_stamp t ts) ->
  generate_next T num c m R ord ts (Vss true d) = Ok (Vss true d', JArr ops) ->
  forall o, o ∈ ops <-> exists q v, cell d' q v ts ∧ renewal q v ts o.
Proof. exact next_patch_fresh. Qed.
Print Assumptions C67_fresh.
Example C67_fresh_case : telemetry lib num demo1 ∧ forall q v t, cell demo1 q v t -> ~ same_stamp t time2.
Proof. exact (conj (proj1 demo1_telemetry) demo_new_time). Qed.
(** C67: after any number of rounds the data can be written, and the next round works. *)
Theorem C67_rounds : forall T num c m d ps e, logged T num c m d ps e -> telemetry T num d -> telemetry T num e ∧
  forall R ord ts, (forall p, fair (R p)) -> (forall p, draws_write T num (R p)) -> stamp_writes T ts -> (forall t, same_doc t (ord t)) ->
  exists e' p, generate_next T num c m R ord ts (Vss true e) = Ok (Vss true e', p) ∧ logged T num c m d (ps ++ [p]) e'.
Proof. exact logged_works. Qed.
Print Assumptions C67_rounds.
Example C67_rounds_case : logged lib num one_half (S754_zero false) demo1
  [JArr [demo_op "/Vehicle/Body/Codes/0" (JNum (f64_of_Z 1)) time2; demo_op "/Vehicle/Body/Codes/1" (JNum (f64_of_Z 1)) time2;
      demo_op "/Vehicle/Body/Lock" (JBool true) time2; demo_op "/Vehicle/Speed" (JNum (f64_of_Z 75)) time2]] (demo2 time2).
Proof. exact demo_logged. Qed.
(** C67: a round less than 256 nanoseconds after the last one: cells written with the new time are
    missing from the patch, and its timestamps are not the new time. *)
Theorem C67_close_refuted : exists T num c m R ts d d' ops q v, telemetry T num d ∧ (forall p, fair (R p)) ∧ (forall p, draws_write T num (R p)) ∧
  stamp_writes T ts ∧ (forall q v t, cell d q v t -> t ≠ ts) ∧ generate_next T num c m R id ts (Vss true d) = Ok (Vss true d', JArr ops) ∧
  cell d' q v ts ∧ forall o, o ∈ ops -> op_pointer o ≠ Some (JStr (written q)).
Proof. exact close_lost. Qed.
Print Assumptions C67_close_refuted.
