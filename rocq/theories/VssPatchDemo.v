(** Concrete cases and witnesses for [Prop_VssPatch.v]. *)
From Verif Require Import Base BaseLemmas BaseSpec Tson TsonInd TsonSpec F64 ReadLemmas Serial GoText Heap Patch PatchSpec Diff DiffSpec Json JsonSpec JsonLemmas Bytes JsonDemo
  Vss VssSpec VssLemmas VssNext VssPatchSpec VssTidy VssRead VssRenew VssDemo.
From Coq Require Import Lia.

Definition writes_num (f : f64) : bool :=
  bool_decide (f ≠ S754_nan) && bool_decide (f ≠ S754_infinity true) && bool_decide (f ≠ S754_infinity false) &&
  bool_decide (scan_number (num f) = Some (num f, "")) && bool_decide (parse_num lib (num f) = Some f).
Lemma writes_num_ok f : writes_num f = true -> num_kept lib num f.
Proof.
  unfold writes_num. intros H. repeat apply andb_true_iff in H as [H ?]. repeat match goal with H : bool_decide _ = true |- _ => apply bool_decide_eq_true in H end.
  split; [done|]. split; [by intros []|]. split; [|done]. by apply (scan_number_sound (num f) _ "").
Qed.
Definition writes_int (z : Z) : bool := bool_decide (parse_num lib (z_text z) = Some (f64_of_Z z)) && writes_num (f64_of_Z z).
Lemma small_ints z : -100 <= z <= 100 -> int_writes lib num z.
Proof.
  intros Hz. assert (HA : forallb writes_int (seqZ (-100) 201) = true) by (vm_compute; reflexivity).
  rewrite forallb_forall in HA. specialize (HA z).
  assert (H : writes_int z = true) by (apply HA, elem_of_list_In, elem_of_seqZ; lia).
  unfold writes_int in H. apply andb_true_iff in H as [H1 H2]. split; [by apply bool_decide_eq_true in H1|by apply writes_num_ok].
Qed.
Lemma demo_writes p : draws_write lib num (demo_draws p).
Proof.
  split; [|exact small_ints]. intros n. apply writes_num_ok.
  assert (H : d_float (demo_draws p) n = quarter ∨ d_float (demo_draws p) n = three_quarters).
  { unfold demo_draws. repeat case_match; cbn; try (destruct (Nat.even n); auto); auto. }
  destruct H as [-> | ->]; vm_compute; reflexivity.
Qed.
Definition writes_stamp (z : Z) : bool :=
  bool_decide (parse_num lib (z_text z) = Some (f64_of_Z z)) &&
  (let z' := f64_to_int64 (f64_of_Z z) in bool_decide (parse_num lib (z_text z') = Some (f64_of_Z z'))).
Lemma writes_stamp_ok z : writes_stamp z = true -> stamp_writes lib z.
Proof.
  unfold writes_stamp. intros [H1 H2]%andb_true_iff. apply bool_decide_eq_true in H1, H2. split; [done|].
  intros z' Hz. apply read_stamp_spec in Hz as <-. done.
Qed.
(** Two times in 2023, in nanoseconds, and one 100 nanoseconds after the first. *)
Definition time1 : Z := 1700000000000000000.
Definition time2 : Z := 1700000001000000000.
Definition time1' : Z := 1700000000000000100.
Lemma time1_writes : stamp_writes lib time1.
Proof. apply writes_stamp_ok. vm_compute. reflexivity. Qed.
Lemma time2_writes : stamp_writes lib time2.
Proof. apply writes_stamp_ok. vm_compute. reflexivity. Qed.
Lemma time1'_writes : stamp_writes lib time1'.
Proof. apply writes_stamp_ok. vm_compute. reflexivity. Qed.
Lemma same_stamp_dec t t' : same_stamp t t' <-> f64_to_int64 (f64_of_Z t) = f64_to_int64 (f64_of_Z t').
Proof.
  split.
  - intros (z & H%read_stamp_spec & H'%read_stamp_spec). congruence.
  - intros H. exists (f64_to_int64 (f64_of_Z t)). split; [by apply read_stamp_spec|by apply read_stamp_spec].
Qed.
Lemma times_differ : ~ same_stamp time1 time2.
Proof. rewrite same_stamp_dec. vm_compute. discriminate. Qed.
Lemma times_same : same_stamp time1 time1'.
Proof. rewrite same_stamp_dec. vm_compute. reflexivity. Qed.
Ltac letters8 := repeat (apply u8_ascii; [vm_compute; done|]); constructor.
Lemma spec_writes : schema_writes lib num spec_clean.
Proof.
  split.
  - repeat first
    [ apply ky_scalar; [by apply not_map|done] | apply ky_obj | apply ky_arr
    | apply NoDup_nil_2 | apply Forall_nil_2 | apply Forall_cons_2 | apply NoDup_cons_2; [set_solver|]
    | split; [cbn [fst]; letters8|] ].
  - intros ns al (l & H & _). apply leaves_all in H.
    assert (forall l x, (l, x) ∈ leaves spec_clean -> forall al, x = WArr al -> Forall (value_writes lib num) al) as G.
    { clear. intros l x H al. vm_compute in H. each H; intros E; try discriminate E. injection E as <-. repeat constructor; letters8. }
    by apply (G l (WArr al) H).
Qed.
Definition demo1 : wjson := demo_data (f64_of_Z 75) false "OFF" time1 time1 time1 time1.
Definition demo2 (t : Z) : wjson := demo_data (f64_of_Z 75) true "OFF" t t time1 t.
Lemma demo1_generate : generate (f64_of_Z 1) demo_draws id time1 (Vss false spec_clean) = Ok (Vss true demo1).
Proof. vm_compute. reflexivity. Qed.
Lemma demo1_telemetry : telemetry lib num demo1 ∧ forall q v t, cell demo1 q v t -> t = time1.
Proof.
  destruct (generate_telemetry lib num (f64_of_Z 1) demo_draws id time1 false spec_clean spec_schema spec_typed spec_writes demo_fair demo_writes time1_writes)
    as (r & E & H & _ & Hc); [done|]. rewrite demo1_generate in E. injection E as <-. done.
Qed.
Definition demo_op (p : string) (v : json) (t : Z) : json :=
  JObj [("op", JStr "replace"); ("path", JStr p); ("value", v); ("timestamp", JNum (f64_of_Z t))].
Lemma demo_patch : generate_next lib num one_half (S754_zero false) demo_draws id time2 (Vss true demo1)
  = Ok (Vss true (demo2 time2), JArr [demo_op "/Vehicle/Body/Codes/0" (JNum (f64_of_Z 1)) time2; demo_op "/Vehicle/Body/Codes/1" (JNum (f64_of_Z 1)) time2;
      demo_op "/Vehicle/Body/Lock" (JBool true) time2; demo_op "/Vehicle/Speed" (JNum (f64_of_Z 75)) time2]).
Proof. vm_compute. reflexivity. Qed.
Lemma demo_new_time q v t : cell demo1 q v t -> ~ same_stamp t time2.
Proof. intros ->%demo1_telemetry. exact times_differ. Qed.
(** The same a hundred nanoseconds later: three of the four cells written are missing. *)
Lemma demo_lost : generate_next lib num one_half (S754_zero false) demo_draws id time1' (Vss true demo1)
  = Ok (Vss true (demo2 time1'), JArr [demo_op "/Vehicle/Body/Lock" (JBool true) (f64_to_int64 (f64_of_Z time1'))]).
Proof. vm_compute. reflexivity. Qed.
Lemma demo_speed : cell (demo2 time1') (map Key ["Vehicle"; "Speed"]) (WNum (f64_of_Z 75)) time1'.
Proof.
  exists ["Vehicle"; "Speed"], (leaf_case (WNum (f64_of_Z 75)) time1'). split; [|left; split; [done|by eexists]].
  apply leaves_sound. vm_compute. left.
Qed.
Lemma demo_logged : logged lib num one_half (S754_zero false) demo1
  [JArr [demo_op "/Vehicle/Body/Codes/0" (JNum (f64_of_Z 1)) time2; demo_op "/Vehicle/Body/Codes/1" (JNum (f64_of_Z 1)) time2;
      demo_op "/Vehicle/Body/Lock" (JBool true) time2; demo_op "/Vehicle/Speed" (JNum (f64_of_Z 75)) time2]] (demo2 time2).
Proof. exact (lg_more lib num _ _ demo_draws id time2 _ _ _ _ _ demo_fair demo_writes time2_writes same_doc_refl demo_patch (lg_none lib num _ _ _)). Qed.
Lemma close_lost : exists T num c m R ts d d' ops q v, telemetry T num d ∧ (forall p, fair (R p)) ∧ (forall p, draws_write T num (R p)) ∧
  stamp_writes T ts ∧ (forall q v t, cell d q v t -> t ≠ ts) ∧ generate_next T num c m R id ts (Vss true d) = Ok (Vss true d', JArr ops) ∧
  cell d' q v ts ∧ forall o, o ∈ ops -> op_pointer o ≠ Some (JStr (written q)).
Proof.
  exists lib, num, one_half, (S754_zero false), demo_draws, time1', demo1, (demo2 time1'). eexists. exists (map Key ["Vehicle"; "Speed"]), (WNum (f64_of_Z 75)).
  split; [apply demo1_telemetry|]. split; [exact demo_fair|]. split; [exact demo_writes|]. split; [exact time1'_writes|].
  split; [intros q v t ->%demo1_telemetry; discriminate|]. split; [exact demo_lost|]. split; [exact demo_speed|].
  intros o ->%elem_of_list_singleton. vm_compute. discriminate.
Qed.
