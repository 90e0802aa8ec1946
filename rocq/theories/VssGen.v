(** Facts about the vehicle data generator: the generated values. *)
From stdpp Require Import pretty.
From Verif Require Import Base BaseLemmas BaseSpec Tjson TjsonSpec TjsonLemmas F64 Bytes BytesLemmas Vss VssSpec VssLemmas VssPlace VssFloat.
From Coq Require Import Lia.

Lemma is_text_spec v s : is_text v s = true <-> v = Some (WStr s).
Proof.
  split.
  - destruct v as [[]|]; try done. cbn. intros H%bool_decide_eq_true. by subst.
  - intros ->. cbn. by apply bool_decide_eq_true.
Qed.
Lemma is_text_false v s : is_text v s = false <-> v ≠ Some (WStr s).
Proof. rewrite <- is_text_spec. by destruct (is_text v s). Qed.
Lemma test_string i : (i < 20)%nat -> nth i test_strings "" = "TEST_STRING_VALUE_" +++ pretty (S i).
Proof.
  intros H. do 20 (destruct i as [|i]; [vm_compute; reflexivity|]). lia.
Qed.
Lemma random_sample D n : fair D -> sample (random_string D n).
Proof.
  intros [_ H]. specialize (H n 20 ltac:(lia)). unfold random_string.
  exists (S (Z.to_nat (d_int D n 20))). split; [lia|]. apply test_string. lia.
Qed.
Lemma gen_array_ok D elem ts (Q : wjson -> Prop) : fair D -> (forall n, Q (elem n)) -> forall fuel i,
  let l := gen_array fuel D elem ts i in
  (length l <= fuel)%nat ∧ (fuel ≠ 0%nat -> i = 0%nat -> l ≠ []) ∧ Forall (fun x => exists v, Q v ∧ x = reading v ts) l.
Proof.
  intros HD HQ fuel. induction fuel as [|fuel IH]; intros i; cbn zeta; cbn [gen_array]; [done|].
  destruct (Z.of_nat i <? d_int D (2 * i) 5 + 1) eqn:E.
  - destruct (IH (S i)) as (H1 & _ & H3). cbn zeta in H1, H3. split; [cbn [length]; lia|]. split; [done|].
    constructor; [|done]. eexists. by split.
  - split; [cbn; lia|]. split; [|constructor]. intros _ ->. apply Z.ltb_ge in E.
    destruct HD as [_ HD]. specialize (HD (2 * 0)%nat 5 ltac:(lia)). lia.
Qed.
Lemma gen_array_fits D elem ts t : fair D -> (forall n, in_range t (elem n)) ->
  (1 <= length (gen_array 5 D elem ts 0) <= 5)%nat ∧
  Forall (fun x => exists v, in_range t v ∧ x = reading v ts) (gen_array 5 D elem ts 0).
Proof.
  intros HD HQ. destruct (gen_array_ok D elem ts _ HD HQ 5 0) as (H1 & H2 & H3). cbn zeta in *.
  split; [|done]. split; [|done]. specialize (H2 ltac:(done) eq_refl).
  destruct (gen_array 5 D elem ts 0); [done|]. cbn. lia.
Qed.
(** The attributes found in a metadata map. *)
Definition has (meta : members) (n : string) (x : wjson) : Prop := alookup n meta = Some x.
Lemma gen_value_ok D ts meta : fair D -> (forall x, has meta "allowed" x -> exists v l, x = WArr (v :: l)) ->
  exists v, gen_value D ts meta = Ok v ∧ (forall x, v = Some x -> fits (has meta) ts x) ∧ (known (has meta) -> v ≠ None).
Proof.
  intros HD HA. destruct HD as [HF HI] eqn:EHD; clear EHD. unfold gen_value.
  assert (some : forall x, fits (has meta) ts x -> exists v, Ok (Some x) = Ok v ∧ (forall x, v = Some x -> fits (has meta) ts x) ∧ (known (has meta) -> v ≠ None)).
  { intros x Hx. exists (Some x). split; [done|]. split; [by intros ? [= <-]|done]. }
  destruct (is_text (alookup "datatype" meta) "boolean") eqn:Eb.
  { apply is_text_spec in Eb. apply some. by apply ft_bool. }
  destruct (is_text (alookup "datatype" meta) "int8") eqn:Ei.
  { cbn [orb]. apply is_text_spec in Ei. assert (Ef : is_text (alookup "datatype" meta) "float" = false) by (apply is_text_false; by rewrite Ei).
    rewrite Ef. apply some. apply (ft_small _ _ "int8"); [set_solver|done|by apply draw_int]. }
  destruct (is_text (alookup "datatype" meta) "uint8") eqn:Eu.
  { cbn [orb]. apply is_text_spec in Eu. assert (Ef : is_text (alookup "datatype" meta) "float" = false) by (apply is_text_false; by rewrite Eu).
    rewrite Ef. apply some. apply (ft_small _ _ "uint8"); [set_solver|done|by apply draw_int]. }
  cbn [orb]. destruct (is_text (alookup "datatype" meta) "float" && is_text (alookup "unit" meta) "percent") eqn:Ep.
  { apply andb_true_iff in Ep as [Ef Ep]. rewrite Ef. apply is_text_spec in Ef, Ep. apply some. apply ft_percent; [done|done|by apply draw_below]. }
  assert (Hdir : ~ direct (has meta)).
  { apply is_text_false in Eb, Ei, Eu. apply andb_false_iff in Ep. unfold direct, has.
    intros [H|[H|[H|[H1 H2]]]]; [by apply Eb|by apply Ei|by apply Eu|].
    destruct Ep as [E|E]; apply is_text_false in E; by apply E. }
  destruct (alookup "allowed" meta) as [al|] eqn:Ea.
  { destruct (HA al Ea) as (v & l & ->). apply some. apply (ft_allowed _ _ (v :: l)); [done|done|].
    apply elem_of_list_In, nth_In. specialize (HI 0%nat (Z.of_nat (length (v :: l))) ltac:(cbn; lia)). lia. }
  assert (Hall : forall x, ~ has meta "allowed" x) by (intros x; unfold has; by rewrite Ea).
  destruct (is_text (alookup "datatype" meta) "double") eqn:Edo.
  { cbn [orb]. apply is_text_spec in Edo. apply some. apply (ft_value _ _ "double"); [done|done|done|].
    apply ir_float; [set_solver|by apply draw_below]. }
  destruct (is_text (alookup "datatype" meta) "float") eqn:Efl.
  { cbn [orb]. apply is_text_spec in Efl. apply some. apply (ft_value _ _ "float"); [done|done|done|].
    apply ir_float; [set_solver|by apply draw_below]. }
  cbn [orb]. destruct (is_text (alookup "datatype" meta) "float[]") eqn:Efa.
  { apply is_text_spec in Efa. apply some.
    destruct (gen_array_fits D (fun n => WNum (f64_mul (d_float D n) hundred)) ts "float" HD) as [H1 H2].
    { intros n. apply ir_float; [set_solver|by apply draw_below]. }
    apply (ft_array _ _ "float"); [done|set_solver|done|done|done]. }
  destruct (is_text (alookup "datatype" meta) "int16") eqn:Ei16.
  { cbn [orb]. apply is_text_spec in Ei16. apply some. apply (ft_value _ _ "int16"); [done|done|done|].
    apply ir_int; [set_solver|]. specialize (HI 0%nat 201 ltac:(lia)). lia. }
  destruct (is_text (alookup "datatype" meta) "int32") eqn:Ei32.
  { cbn [orb]. apply is_text_spec in Ei32. apply some. apply (ft_value _ _ "int32"); [done|done|done|].
    apply ir_int; [set_solver|]. specialize (HI 0%nat 201 ltac:(lia)). lia. }
  cbn [orb]. destruct (is_text (alookup "datatype" meta) "string") eqn:Est.
  { apply is_text_spec in Est. apply some. apply (ft_value _ _ "string"); [done|done|done|].
    apply ir_string. by apply random_sample. }
  destruct (is_text (alookup "datatype" meta) "string[]") eqn:Esa.
  { apply is_text_spec in Esa. apply some.
    destruct (gen_array_fits D (fun n => WStr (random_string D n)) ts "string" HD) as [H1 H2].
    { intros n. apply ir_string. by apply random_sample. }
    apply (ft_array _ _ "string"); [done|set_solver|done|done|done]. }
  destruct (is_text (alookup "datatype" meta) "uint16") eqn:Eu16.
  { cbn [orb]. apply is_text_spec in Eu16. apply some. apply (ft_value _ _ "uint16"); [done|done|done|].
    apply ir_uint; [set_solver|]. specialize (HI 0%nat 101 ltac:(lia)). lia. }
  destruct (is_text (alookup "datatype" meta) "uint32") eqn:Eu32.
  { cbn [orb]. apply is_text_spec in Eu32. apply some. apply (ft_value _ _ "uint32"); [done|done|done|].
    apply ir_uint; [set_solver|]. specialize (HI 0%nat 101 ltac:(lia)). lia. }
  cbn [orb]. destruct (is_text (alookup "datatype" meta) "uint8[]") eqn:Eua.
  { apply is_text_spec in Eua. apply some.
    destruct (gen_array_fits D (fun n => WInt (d_int D n 101)) ts "uint8" HD) as [H1 H2].
    { intros n. apply ir_uint; [set_solver|]. specialize (HI n 101 ltac:(lia)). lia. }
    apply (ft_array _ _ "uint8"); [done|set_solver|done|done|done]. }
  destruct (absent (alookup "datatype" meta)) eqn:Eab.
  { apply some. apply ft_none; [done|]. intros x Hx. unfold has in Hx. rewrite Hx in Eab. by destruct x. }
  exists None. split; [done|]. split; [done|]. intros [[x Hx]|Hk]; [by destruct (Hall x)|].
  exfalso. unfold has in Hk. destruct (alookup "datatype" meta) as [x|] eqn:Edt; [|done].
  destruct (Hk x eq_refl) as [->|(t & Ht & ->)]; [done|].
  apply is_text_false in Eb, Ei, Eu, Edo, Efl, Efa, Ei16, Ei32, Est, Esa, Eu16, Eu32, Eua.
  unfold datatypes in Ht.
  repeat (apply elem_of_cons in Ht as [->|Ht]; [congruence|]). by apply elem_of_nil in Ht.
Qed.
Lemma fits_ext (A B : string -> wjson -> Prop) ts x : (forall n y, A n y <-> B n y) -> fits A ts x -> fits B ts x.
Proof.
  intros E. assert (Hd : direct A <-> direct B) by (unfold direct; by rewrite !E).
  assert (Ha : (forall y, ~ A "allowed" y) -> forall y, ~ B "allowed" y) by (intros H y Hy; apply (H y); by apply E).
  destruct 1 as [b H|t z H1 H2 H3|f H1 H2 H3|l v H1 H2 H3|t v H1 H2 H3 H4|t l H1 H2 H3 H4 H5|H1 H2].
  - apply ft_bool. by apply E.
  - apply (ft_small _ _ t); [done|by apply E|done].
  - apply ft_percent; [by apply E|by apply E|done].
  - apply (ft_allowed _ _ l); [by rewrite <- Hd|by apply E|done].
  - apply (ft_value _ _ t); [by rewrite <- Hd|by apply Ha|by apply E|done].
  - apply (ft_array _ _ t); [by apply Ha|done|by apply E|done|done].
  - apply ft_none; [by apply Ha|]. intros y Hy. by apply H2, E.
Qed.
Lemma known_ext (A B : string -> wjson -> Prop) : (forall n y, A n y <-> B n y) -> known A -> known B.
Proof. intros E [[x H]|H]; [left; exists x; by apply E|right]. intros x Hx. by apply H, E. Qed.
