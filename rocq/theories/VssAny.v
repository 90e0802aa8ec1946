(** Which data sets can come up: every combination of the values that fit. *)
From stdpp Require Import pretty.
From Verif Require Import Base BaseLemmas BaseSpec Tjson TjsonSpec TjsonLemmas F64 Bytes BytesLemmas Vss VssSpec VssLemmas VssPlace VssFloat VssGen VssData VssAnySpec.
From Coq Require Import Lia.

Lemma machine_fair D : machine D -> fair D.
Proof. intros [H1 H2]. split; [|done]. intros n. apply H1. Qed.
Lemma machine_shift D : machine D -> machine (shift D).
Proof. intros [H1 H2]. split; [|done]. intros n. apply H1. Qed.
Lemma gen_value_ext D ts m1 m2 : (forall n, alookup n m1 = alookup n m2) -> gen_value D ts m1 = gen_value D ts m2.
Proof. intros E. unfold gen_value. by rewrite !E. Qed.
Lemma has_ext m1 m2 (A : string -> wjson -> Prop) : (forall n y, has m1 n y <-> A n y) -> (forall n y, has m2 n y <-> A n y) -> forall n, alookup n m1 = alookup n m2.
Proof.
  intros H1 H2 n. unfold has in *. destruct (alookup n m1) as [x|] eqn:E1.
  - symmetry. apply H2, H1, E1.
  - destruct (alookup n m2) as [y|] eqn:E2; [|done]. apply H2, H1 in E2. congruence.
Qed.

(** ** Draws made up for given values *)
Definition clip (z b : Z) : Z := if decide (0 <= z < b) then z else 0.
Definition coded (fl : nat -> f64) (code : nat -> Z) : draws := Draws fl (fun n b => clip (code n) b).
Lemma clip_in z b : 0 <= z < b -> clip z b = z.
Proof. intros H. unfold clip. by rewrite decide_True. Qed.
Lemma coded_machine fl code : (forall n, go_float (fl n)) -> machine (coded fl code).
Proof. intros H. split; [done|]. intros n b Hb. cbn. unfold clip. case_decide; lia. Qed.
Lemma zero_go : go_float (S754_zero false).
Proof. split; [constructor|done]. Qed.
Definition go_check (u : f64) : bool :=
  match u with
  | S754_zero false => true
  | S754_finite false m e => (2 ^ 52 <=? Z.pos m) && (Z.pos m <? 2 ^ 53) && (-105 <=? e) && (e <=? -53) && (Z.pos m mod 2 ^ (-53 - e) =? 0)
  | _ => false
  end.
Lemma go_check_ok u : go_check u = true -> go_float u.
Proof.
  destruct u as [[]|[]| |[] m e]; try done; [intros _; apply zero_go|]. cbn [go_check].
  intros ((((H1%Z.leb_le & H2%Z.ltb_lt)%andb_true_iff & H3%Z.leb_le)%andb_true_iff & H4%Z.leb_le)%andb_true_iff & H5%Z.eqb_eq)%andb_true_iff.
  split; [by constructor|]. intros ? ? [= <- <-]. apply Z.mod_divide; [|done]. apply Z.pow_nonzero; lia.
Qed.
(** a draw for each small whole number *)
Definition ratio (z : Z) : f64 := SFdiv f64_prec f64_emax (f64_of_Z ((2 * z + 1) * 2 ^ 53 / 200)) (f64_of_Z (2 ^ 53)).
Lemma ratios : forallb (fun i => go_check (ratio (Z.of_nat i)) && (f64_to_int64 (f64_mul (ratio (Z.of_nat i)) hundred) =? Z.of_nat i)) (seq 0 100) = true.
Proof. vm_compute. reflexivity. Qed.
Lemma ratio_ok z : 0 <= z < 100 -> go_float (ratio z) ∧ f64_to_int64 (f64_mul (ratio z) hundred) = z.
Proof.
  intros Hz. pose proof (proj1 (forallb_forall _ _) ratios (Z.to_nat z)) as H. cbv beta in H. rewrite Z2Nat.id in H by lia.
  destruct (proj1 (andb_true_iff _ _) (H ltac:(apply in_seq; lia))) as [H1 H2%Z.eqb_eq]. split; [by apply go_check_ok|done].
Qed.
Lemma coins : go_check one_half = true ∧ f64_lt one_half one_half = false ∧ f64_lt (S754_zero false) one_half = true.
Proof. by vm_compute. Qed.

Lemma gen_array_any D elem ts : forall vs fuel i,
  (forall j v, vs !! j = Some v -> Z.of_nat (i + j) < d_int D (2 * (i + j)) 5 + 1 ∧ elem (2 * (i + j) + 1)%nat = v) ->
  ((length vs < fuel)%nat -> d_int D (2 * (i + length vs)) 5 + 1 <= Z.of_nat (i + length vs)) -> (length vs <= fuel)%nat ->
  gen_array fuel D elem ts i = map (fun v => reading v ts) vs.
Proof.
  induction vs as [|v vs IH]; intros fuel i H1 H2 H3.
  - destruct fuel as [|fuel]; [done|]. cbn [gen_array map]. specialize (H2 ltac:(cbn; lia)). cbn [length] in H2. rewrite Nat.add_0_r in H2.
    destruct (Z.ltb_spec (Z.of_nat i) (d_int D (2 * i) 5 + 1)); [lia|done].
  - destruct fuel as [|fuel]; [cbn in H3; lia|]. cbn [gen_array map]. destruct (H1 0%nat v eq_refl) as [Ha Hb]. rewrite Nat.add_0_r in Ha, Hb.
    destruct (Z.ltb_spec (Z.of_nat i) (d_int D (2 * i) 5 + 1)); [|lia]. rewrite Hb. f_equal. apply IH.
    + intros j w Hj. replace (S i + j)%nat with (i + S j)%nat by lia. by apply H1.
    + intros Hl. replace (S i + length vs)%nat with (i + length (v :: vs))%nat by (cbn [length]; lia). apply H2. cbn [length]. lia.
    + cbn [length] in H3. lia.
Qed.
(** the codes for an array: every other draw is the bound of the loop *)
Definition array_code (zs : list Z) (n : nat) : Z :=
  if Nat.even n then (if decide (Nat.div2 n < length zs)%nat then 4 else 0) else nth (Nat.div2 n) zs 0.
Definition array_fl (us : list f64) (n : nat) : f64 := if Nat.even n then S754_zero false else nth (Nat.div2 n) us (S754_zero false).
Lemma code_even zs i : array_code zs (2 * i) = if decide (i < length zs)%nat then 4 else 0.
Proof. unfold array_code. rewrite Nat.even_mul, Nat.div2_double. done. Qed.
Lemma odd_div i : Nat.div2 (2 * i + 1) = i.
Proof. rewrite Nat.add_1_r. apply Nat.div2_succ_double. Qed.
Lemma odd_even i : Nat.even (2 * i + 1) = false.
Proof. by rewrite Nat.even_add, Nat.even_mul. Qed.
Lemma code_odd zs i z : zs !! i = Some z -> array_code zs (2 * i + 1) = z.
Proof. intros H. unfold array_code. rewrite odd_even, odd_div. by apply nth_lookup_Some. Qed.
Lemma fl_odd us i u : us !! i = Some u -> array_fl us (2 * i + 1) = u.
Proof. intros H. unfold array_fl. rewrite odd_even, odd_div. by apply nth_lookup_Some. Qed.
Lemma fl_go us : Forall go_float us -> forall n, go_float (array_fl us n).
Proof.
  intros H n. unfold array_fl. destruct (Nat.even n); [apply zero_go|].
  destruct (nth_in_or_default (Nat.div2 n) us (S754_zero false)) as [Hin| ->]; [|apply zero_go].
  rewrite Forall_forall in H. by apply H, elem_of_list_In.
Qed.
Lemma gen_array_coded {X} (f : X -> wjson) (xs : list X) (zs : list Z) fl elem ts : length zs = length xs -> (1 <= length xs <= 5)%nat ->
  (forall i x, xs !! i = Some x -> elem (2 * i + 1)%nat = f x) ->
  gen_array 5 (coded fl (array_code zs)) elem ts 0 = map (fun x => reading (f x) ts) xs.
Proof.
  intros Hz Hl He. rewrite (gen_array_any _ _ _ (map f xs)).
  - by rewrite map_map.
  - intros j v Hj. cbn [Nat.add]. apply list_lookup_fmap_Some in Hj as (x & Hx & ->). split; [|by apply He].
    cbn [d_int coded]. rewrite code_even. apply lookup_lt_Some in Hx. rewrite decide_True by lia. rewrite clip_in by lia. lia.
  - intros H. rewrite map_length in *. cbn [Nat.add d_int coded]. rewrite code_even, decide_False by lia. rewrite clip_in by lia. lia.
  - rewrite map_length. lia.
Qed.
Lemma list_codes {X} (f : X -> wjson) (P : X -> Prop) (l : list wjson) : Forall (fun y => exists x, P x ∧ y = f x) l ->
  exists xs, l = map f xs ∧ Forall P xs.
Proof.
  induction 1 as [|y l (x & Hx & ->) _ (xs & -> & Hxs)]; [by exists []|]. exists (x :: xs). split; [done|]. by constructor.
Qed.

(** ** What is possible comes up *)
Lemma gen_value_any ts meta x : possible (has meta) ts x -> exists D, machine D ∧ gen_value D ts meta = Ok (Some x).
Proof.
  intros [HF HN].
  assert (Hconst : forall u z, go_float u -> machine (coded (fun _ => u) (fun _ => z))) by (intros; by apply coded_machine).
  destruct HF as [b H|t z H1 H2 H3|f H1 H2 H3|l v H1 H2 H3|t v H1 H2 H3 H4|t l H1 H2 H3 H4 H5|H1 H2]; unfold has in *.
  - destruct coins as (C1%go_check_ok & C2 & C3).
    exists (coded (fun _ => if b then S754_zero false else one_half) (fun _ => 0)). split; [apply Hconst; destruct b; [apply zero_go|done]|].
    unfold gen_value. rewrite H. cbn [d_float coded]. change (is_text (Some (WStr "boolean")) "boolean") with true. cbv iota.
    destruct b; by rewrite ?C2, ?C3.
  - destruct (ratio_ok z H3) as [R1 R2]. exists (coded (fun _ => ratio z) (fun _ => 0)). split; [by apply Hconst|].
    unfold gen_value. rewrite H2. assert (Ht : t = "int8" ∨ t = "uint8") by set_solver.
    destruct Ht as [-> | ->]; cbn [d_float coded]; cbn -[ratio f64_mul hundred f64_to_int64]; by rewrite R2.
  - destruct HN as [[HN _]|HN]; [destruct HN; right; right; right; done|]. destruct (HN f (or_introl eq_refl)) as (u & Hu & ->).
    exists (coded (fun _ => u) (fun _ => 0)). split; [by apply Hconst|]. unfold gen_value. rewrite H1, H2. cbn [d_float coded]. cbn -[f64_mul hundred f64_to_int64 SFmul f64_of_Z]. reflexivity.
  - apply elem_of_list_lookup in H3 as [i Hi]. assert (Hl := lookup_lt_Some _ _ _ Hi).
    exists (coded (fun _ => S754_zero false) (fun _ => Z.of_nat i)). split; [apply Hconst, zero_go|]. unfold gen_value.
    assert (Eb : is_text (alookup "datatype" meta) "boolean" = false) by (apply is_text_false; intros E; apply H1; by left).
    assert (Ei : is_text (alookup "datatype" meta) "int8" = false) by (apply is_text_false; intros E; apply H1; right; by left).
    assert (Eu : is_text (alookup "datatype" meta) "uint8" = false) by (apply is_text_false; intros E; apply H1; right; right; by left).
    assert (Ep : is_text (alookup "datatype" meta) "float" && is_text (alookup "unit" meta) "percent" = false).
    { apply andb_false_iff. destruct (is_text (alookup "datatype" meta) "float") eqn:E1; [right|by left]. apply is_text_false. intros E. apply is_text_spec in E1.
      apply H1. right. right. right. done. }
    rewrite Eb, Ei, Eu, Ep, H2. cbn [orb]. destruct l as [|y l]; [done|]. cbn [d_int coded]. rewrite clip_in by lia. rewrite Nat2Z.id.
    by rewrite (nth_lookup_Some _ _ _ _ Hi).
  - assert (Ea : alookup "allowed" meta = None) by (destruct (alookup "allowed" meta) eqn:E; [by destruct (H2 w)|done]).
    destruct HN as [[_ [y HN]]|HN]; [by destruct (H2 y)|]. unfold gen_value. rewrite H3, Ea.
    destruct H4 as [t f Ht Hf|t z Ht Hz|t z Ht Hz|s (n & Hn & ->)].
    + destruct (HN f (or_introl eq_refl)) as (u & Hu & ->). exists (coded (fun _ => u) (fun _ => 0)). split; [by apply Hconst|].
      assert (Ht' : t = "float" ∨ t = "double") by set_solver. destruct Ht' as [-> | ->]; [|done].
      assert (Ep : is_text (alookup "unit" meta) "percent" = false) by (apply is_text_false; intros E; apply H1; right; right; right; done).
      rewrite Ep. done.
    + exists (coded (fun _ => S754_zero false) (fun _ => z + 100)). split; [apply Hconst, zero_go|].
      assert (Ht' : t = "int16" ∨ t = "int32") by set_solver. cbn [d_int coded]. rewrite (clip_in (z + 100) 201) by lia.
      replace (z + 100 - 100) with z by lia. by destruct Ht' as [-> | ->].
    + exists (coded (fun _ => S754_zero false) (fun _ => z)). split; [apply Hconst, zero_go|].
      assert (Ht' : t = "uint8" ∨ t = "uint16" ∨ t = "uint32") by set_solver. cbn [d_int coded]. rewrite (clip_in z 101) by lia.
      destruct Ht' as [-> |[-> | ->]]; [|done|done]. destruct H1. right. right. by left.
    + exists (coded (fun _ => S754_zero false) (fun _ => Z.of_nat (n - 1))). split; [apply Hconst, zero_go|]. unfold random_string.
      cbn [d_int coded]. rewrite (clip_in _ 20) by lia. rewrite Nat2Z.id, test_string by lia. replace (S (n - 1)) with n by lia. done.
  - assert (Ea : alookup "allowed" meta = None) by (destruct (alookup "allowed" meta) eqn:E; [by destruct (H1 w)|done]).
    destruct HN as [[_ [y HN]]|HN]; [by destruct (H1 y)|]. unfold gen_value. rewrite H3, Ea.
    assert (Ht : t = "float" ∨ t = "string" ∨ t = "uint8") by set_solver. destruct Ht as [-> |[-> | ->]].
    + destruct (list_codes (fun u => reading (WNum (f64_mul u hundred)) ts) go_float l) as (us & -> & Hus).
      { rewrite Forall_forall in H5 |- *. intros y Hy. destruct (H5 y Hy) as (v & Hv & ->).
        inversion Hv as [? f Ht Hf|? z Ht Hz|? z Ht Hz|]; subst; [|set_solver|set_solver].
        destruct (HN f) as (u & Hu & ->); [right; by exists l|]. by exists u. }
      rewrite map_length in H4. exists (coded (array_fl us) (array_code (map (fun _ => 0) us))). split; [by apply coded_machine, fl_go|].
      change (is_text (Some (WStr ("float" +++ "[]")))) with (is_text (Some (WStr "float[]"))). cbn -[gen_array f64_mul hundred coded array_fl].
      do 3 f_equal. rewrite (gen_array_coded (fun u => WNum (f64_mul u hundred)) us); [done|by rewrite map_length|done|].
      intros i u Hi. cbn [d_float coded]. by rewrite (fl_odd us i u).
    + destruct (list_codes (fun i => reading (WStr (nth (Z.to_nat i) test_strings "")) ts) (fun i => 0 <= i < 20) l) as (zs & -> & Hzs).
      { rewrite Forall_forall in H5 |- *. intros y Hy. destruct (H5 y Hy) as (v & Hv & ->).
        inversion Hv as [? f Ht Hf|? z Ht Hz|? z Ht Hz|s (n & Hn & ->)]; subst; [set_solver|set_solver|set_solver|].
        exists (Z.of_nat (n - 1)). split; [lia|]. rewrite Nat2Z.id, test_string by lia. by replace (S (n - 1)) with n by lia. }
      rewrite map_length in H4. exists (coded (fun _ => S754_zero false) (array_code zs)). split; [apply coded_machine; intros; apply zero_go|].
      change (is_text (Some (WStr ("string" +++ "[]")))) with (is_text (Some (WStr "string[]"))). cbn -[gen_array test_strings nth coded random_string].
      do 3 f_equal. rewrite (gen_array_coded (fun i => WStr (nth (Z.to_nat i) test_strings "")) zs); [done|done|done|].
      intros i z Hi. unfold random_string. cbn [d_int coded]. rewrite (code_odd zs i z) by done. rewrite Forall_forall in Hzs.
      rewrite clip_in; [done|]. apply Hzs. by eapply elem_of_list_lookup_2.
    + destruct (list_codes (fun z => reading (WInt z) ts) (fun z => 0 <= z <= 100) l) as (zs & -> & Hzs).
      { rewrite Forall_forall in H5 |- *. intros y Hy. destruct (H5 y Hy) as (v & Hv & ->).
        inversion Hv as [? f Ht Hf|? z Ht Hz|? z Ht Hz|]; subst; [set_solver|set_solver|]. by exists z. }
      rewrite map_length in H4. exists (coded (fun _ => S754_zero false) (array_code zs)). split; [apply coded_machine; intros; apply zero_go|].
      change (is_text (Some (WStr ("uint8" +++ "[]")))) with (is_text (Some (WStr "uint8[]"))). cbn -[gen_array coded].
      do 3 f_equal. rewrite (gen_array_coded WInt zs); [done|done|done|].
      intros i z Hi. cbn [d_int coded]. rewrite (code_odd zs i z) by done. rewrite Forall_forall in Hzs.
      rewrite clip_in; [done|]. assert (0 <= z <= 100); [|lia]. apply Hzs. by eapply elem_of_list_lookup_2.
  - exists (coded (fun _ => S754_zero false) (fun _ => 0)). split; [apply Hconst, zero_go|]. unfold gen_value.
    assert (Ea : alookup "allowed" meta = None) by (destruct (alookup "allowed" meta) eqn:E; [by destruct (H1 w)|done]). rewrite Ea.
    destruct (alookup "datatype" meta) as [y|]; [|done]. by rewrite (H2 y eq_refl).
Qed.

(** ** What comes up is possible *)
Lemma no_number ts v f : (forall g, v ≠ WNum g) -> ~ number_in ts (reading v ts) f.
Proof. intros Hv [[= E]|(l & E & _)]; [by destruct (Hv f)|done]. Qed.
Lemma array_number D elem ts f : forall fuel i, reading (WNum f) ts ∈ gen_array fuel D elem ts i -> exists n, elem n = WNum f.
Proof.
  induction fuel as [|fuel IH]; intros i; cbn [gen_array]; [by intros ?%elem_of_nil|]. case_match; [|by intros ?%elem_of_nil].
  intros [E|H2]%elem_of_cons; [|by eapply IH]. injection E as E. by eexists.
Qed.
Lemma gen_value_numbers D ts meta x : machine D -> gen_value D ts meta = Ok (Some x) ->
  (~ direct (has meta) ∧ exists y, has meta "allowed" y) ∨
  forall f, number_in ts x f -> exists u, go_float u ∧ f = SFmul f64_prec f64_emax u (f64_of_Z 100).
Proof.
  intros [HF _] E. unfold gen_value in E.
  assert (Hnum : forall n f, number_in ts (tson_leaf (WNum (f64_mul (d_float D n) hundred)) ts) f -> exists u, go_float u ∧ f = SFmul f64_prec f64_emax u (f64_of_Z 100)).
  { intros n f [[= E2]|(l & E2 & _)]; [|done]. subst f. by exists (d_float D n). }
  assert (Hno : forall (P : Prop) v f, match v with WNum _ => False | _ => True end -> number_in ts (tson_leaf v ts) f -> P).
  { intros P v f Hv Hf. exfalso. apply (no_number ts v f); [|done]. by intros g ->. }
  assert (Harr : forall elem f, number_in ts (WArr (gen_array 5 D elem ts 0)) f -> exists n, elem n = WNum f).
  { intros elem f [E2|(l & E2 & Hin)]; [done|]. assert (El : l = gen_array 5 D elem ts 0) by congruence. rewrite El in Hin. exact (array_number D elem ts f 5 0 Hin). }
  destruct (is_text (alookup "datatype" meta) "boolean") eqn:Eb; [injection E as <-; right; intros f Hf; refine (Hno _ _ f _ Hf); done|].
  destruct (is_text (alookup "datatype" meta) "int8") eqn:Ei.
  { cbn [orb] in E. apply is_text_spec in Ei. rewrite Ei in E. change (is_text (Some (WStr "int8")) "float") with false in E. cbv iota in E. injection E as <-. right. intros f Hf. refine (Hno _ _ f _ Hf); done. }
  destruct (is_text (alookup "datatype" meta) "uint8") eqn:Eu.
  { cbn [orb] in E. apply is_text_spec in Eu. rewrite Eu in E. change (is_text (Some (WStr "uint8")) "float") with false in E. cbv iota in E. injection E as <-. right. intros f Hf. refine (Hno _ _ f _ Hf); done. }
  cbn [orb] in E. destruct (is_text (alookup "datatype" meta) "float" && is_text (alookup "unit" meta) "percent") eqn:Ep.
  { apply andb_true_iff in Ep as [Ef Ep]. rewrite Ef in E. injection E as <-. right. apply (Hnum 0%nat). }
  destruct (alookup "allowed" meta) as [al|] eqn:Ea.
  { left. split; [|by exists al]. apply is_text_false in Eb, Ei, Eu. unfold direct, has. apply andb_false_iff in Ep.
    intros [H|[H|[H|[H1 H2]]]]; [by apply Eb|by apply Ei|by apply Eu|]. destruct Ep as [Ep|Ep]; apply is_text_false in Ep; by apply Ep. }
  right. destruct (_ || _) in E; [injection E as <-; apply (Hnum 0%nat)|].
  destruct (is_text _ "float[]"). { injection E as <-. intros f (n & [= E2])%(Harr (fun n => WNum (f64_mul (d_float D n) hundred))). subst f. by exists (d_float D n). }
  destruct (_ || _) in E; [injection E as <-; intros f Hf; refine (Hno _ _ f _ Hf); done|].
  destruct (is_text _ "string"); [injection E as <-; intros f Hf; refine (Hno _ _ f _ Hf); done|].
  destruct (is_text _ "string[]"); [injection E as <-; by intros f (n & [=])%(Harr (fun n => WStr (random_string D n)))|].
  destruct (_ || _) in E; [injection E as <-; intros f Hf; refine (Hno _ _ f _ Hf); done|].
  destruct (is_text _ "uint8[]"); [injection E as <-; by intros f (n & [=])%(Harr (fun n => WInt (d_int D n 101)))|].
  destruct (absent _); [injection E as <-; intros f Hf; refine (Hno _ _ f _ Hf); done|done].
Qed.
Lemma possible_ext (A B : string -> wjson -> Prop) ts x : (forall n y, A n y <-> B n y) -> possible A ts x -> possible B ts x.
Proof.
  intros E [H1 H2]. split; [by eapply fits_ext|]. destruct H2 as [[H2 [y Hy]]|H2]; [left|by right].
  assert (Hd : direct A <-> direct B) by (unfold direct; by rewrite !E). split; [by rewrite <- Hd|]. exists y. by apply E.
Qed.
Lemma fits_known meta ts x : fits (has meta) ts x -> known (has meta).
Proof.
  assert (G : forall t, t ∈ datatypes -> has meta "datatype" (WStr t) -> known (has meta)).
  { intros t Ht H. right. intros y Hy. right. exists t. split; [done|]. unfold has in *. congruence. }
  destruct 1 as [b H|t z H1 H2 H3|f H1 H2 H3|l v H1 H2 H3|t v H1 H2 H3 H4|t l H1 H2 H3 H4 H5|H1 H2].
  - apply (G "boolean"); [set_solver|done].
  - apply (G t); [set_solver|done].
  - apply (G "float"); [set_solver|done].
  - left. by eexists.
  - apply (G t); [|done]. destruct H4; set_solver.
  - apply (G (t +++ "[]")); [|done]. assert (Ht : t = "float" ∨ t = "string" ∨ t = "uint8") by set_solver. destruct Ht as [-> |[-> | ->]]; set_solver.
  - right. intros y Hy. left. by apply H2.
Qed.

(** ** Data sets *)
Lemma alookup_keys {V} k (m : list (string * V)) : k ∈ akeys m <-> is_Some (alookup k m).
Proof.
  split; [|intros [v Hv]; destruct (decide (k ∈ akeys m)) as [|Hn]; [done|]; apply alookup_None_iff in Hn; congruence].
  intros Hk. destruct (alookup k m) eqn:E; [by eexists|]. by apply alookup_None_iff in E.
Qed.
Lemma pick_draws (P : string -> draws -> Prop) (ps : list string) : (forall p, p ∈ ps -> exists D, machine D ∧ P p D) ->
  exists R, (forall p, machine (R p)) ∧ forall p, p ∈ ps -> P p (R p).
Proof.
  induction ps as [|p ps IH]; intros H.
  - exists (fun _ => coded (fun _ => S754_zero false) (fun _ => 0)). split; [intros; apply coded_machine; intros; apply zero_go|by intros ? ?%elem_of_nil].
  - destruct IH as (R & HR & HP); [intros; apply H; by right|]. destruct (H p (elem_of_list_here _ _)) as (D & HD & HP').
    exists (fun p' => if decide (p' = p) then D else R p'). split; [intros p'; by case_decide|].
    intros p' Hp'. case_decide as E; [by subst|]. apply HP. by apply elem_of_cons in Hp' as [?|?].
Qed.
Definition prepend (u : f64) (D : draws) : draws := Draws (fun n => match n with O => u | S n' => d_float D n' end) (d_int D).
Lemma prepend_machine u D : go_float u -> machine D -> machine (prepend u D).
Proof. intros Hu [H1 H2]. split; [|done]. intros [|n]; [done|apply H1]. Qed.
Lemma prepend_shift u D ts meta : gen_value (shift (prepend u D)) ts meta = gen_value D ts meta.
Proof. done. Qed.
Lemma node_names d q : schema d -> node d q -> q ≠ [] ∧ Forall schema_name q.
Proof.
  intros S (n & x & Ha). split; [intros ->; by destruct (attr_nil d n x S)|]. by destruct (attr_names d q n x (sc_names d S) Ha).
Qed.
Lemma generate_possible size ord ts b d (V : list string -> option wjson) : schema d -> (forall l, ord l ≡ₚ l) ->
  (exists R r, (forall p, machine (R p)) ∧ generate size R ord ts (Vss b d) = Ok (Vss true r) ∧
     forall q x, leaf_at r q x <-> node d q ∧ V q = Some x) <->
  (forall q, node d q -> match V q with
     | Some x => possible (attr d q) ts x ∧ exists u, go_float u ∧ SFltb size u = false
     | None => ~ known (attr d q) ∨ exists u, go_float u ∧ SFltb size u = true
     end).
Proof.
  intros S Hord. destruct (schema_group d S) as (G & E & G1 & G2 & G3). split.
  - intros (R & r & HR & Eg & HV) q Hq.
    destruct (generate_exact size R ord ts b d S (fun p => machine_fair _ (HR p)) Hord) as (r' & E' & _ & _ & _ & H5 & H6 & _ & L & _ & _ & HL1 & HL2).
    rewrite Eg in E'. injection E' as <-. destruct (V q) as [x|] eqn:Ev.
    + assert (Hl : leaf_at r q x) by (by apply HV). destruct (HL2 _ _ (HL1 _ _ Hl)) as (_ & _ & meta & HA & Egv).
      destruct (H5 _ _ Hl) as (_ & Hc & Hf). split; [|eexists; split; [|exact Hc]; apply (HR (String.concat "." q))].
      apply (possible_ext (has meta)); [done|]. split; [eapply fits_ext; [|exact Hf]; intros n y; symmetry; apply HA|].
      eapply gen_value_numbers; [|exact Egv]. by apply machine_shift.
    + destruct (SFltb size (d_float (R (String.concat "." q)) 0)) eqn:Ec; [right; eexists; split; [|exact Ec]; apply (HR (String.concat "." q))|].
      left. intros Hk. destruct (H6 q Hq Ec Hk) as [y [_ Hy]%HV]. congruence.
  - intros H.
    destruct (pick_draws (fun p D => forall q meta, node d q -> p = String.concat "." q -> (forall n y, has meta n y <-> attr d q n y) ->
       match V q with
       | Some x => SFltb size (d_float D 0) = false ∧ gen_value (shift D) ts meta = Ok (Some x)
       | None => ~ known (attr d q) ∨ SFltb size (d_float D 0) = true
       end) (akeys G)) as (R & HR & HP).
    { intros p Hp. apply alookup_keys in Hp as [meta Hm]. destruct (G2 _ _ Hm) as (ns & Hne & -> & Hn & HA).
      specialize (H ns Hn). assert (Hq : forall q, node d q -> String.concat "." ns = String.concat "." q -> q = ns).
      { intros q Hq Ec. destruct (node_names d q S Hq), (node_names d ns S Hn). symmetry. by apply concat_inj. }
      destruct (V ns) as [x|] eqn:Ev.
      - destruct H as [Hp (u & Hu & Hc)]. destruct (gen_value_any ts meta x) as (D & HD & Egv).
        { eapply possible_ext; [|exact Hp]. intros n y. symmetry. apply HA. }
        exists (prepend u D). split; [by apply prepend_machine|]. intros q meta' Hq' Ec HA'. rewrite (Hq q Hq' Ec) in *. rewrite Ev. split; [done|].
        rewrite prepend_shift. rewrite <- Egv. apply gen_value_ext. by eapply has_ext.
      - destruct H as [Hk|(u & Hu & Hc)].
        + exists (coded (fun _ => S754_zero false) (fun _ => 0)). split; [apply coded_machine; intros; apply zero_go|].
          intros q meta' Hq' Ec HA'. rewrite (Hq q Hq' Ec), Ev. by left.
        + exists (coded (fun _ => u) (fun _ => 0)). split; [by apply coded_machine|].
          intros q meta' Hq' Ec HA'. rewrite (Hq q Hq' Ec), Ev. by right. }
    destruct (generate_exact size R ord ts b d S (fun p => machine_fair _ (HR p)) Hord) as (r & Eg & _ & _ & _ & H5 & H6 & _ & L & _ & _ & HL1 & HL2).
    exists R, r. split; [done|]. split; [done|].
    assert (HPq : forall q, node d q -> String.concat "." q ∈ akeys G) by (intros q [meta Hm]%G3; by apply alookup_keys; exists meta).
    assert (Hx : forall q x, leaf_at r q x -> V q = Some x).
    { intros q x Hl. destruct (H5 _ _ Hl) as (Hn & Hc & Hf). destruct (HL2 _ _ (HL1 _ _ Hl)) as (_ & _ & meta & HA & Egv).
      specialize (HP _ (HPq q Hn) q meta Hn eq_refl HA). destruct (V q) as [y|]; [destruct HP; congruence|].
      destruct HP as [Hk|?]; [|congruence]. destruct Hk. apply (known_ext (has meta)); [done|]. eapply (fits_known meta ts x), fits_ext; [|exact Hf].
      intros n y. symmetry. apply HA. }
    intros q x. split; [intros Hl; split; [by destruct (H5 _ _ Hl)|by apply Hx]|]. intros [Hn Ev].
    destruct (G3 q Hn) as [meta Hm]. destruct (G2 _ _ Hm) as (ns & Hne & Ec & Hn' & HA).
    assert (ns = q) as ->. { destruct (node_names d q S Hn), (node_names d ns S Hn'). by apply concat_inj. }
    assert (HPn := HP _ (HPq q Hn) q meta Hn eq_refl HA). rewrite Ev in HPn. destruct HPn as [Hc _].
    destruct (H6 q Hn Hc) as [y Hy].
    { specialize (H q Hn). rewrite Ev in H. destruct H as [[Hf _] _]. apply (known_ext (has meta)); [done|]. eapply fits_known, fits_ext; [|exact Hf].
      intros n z. symmetry. apply HA. }
    rewrite (Hx _ _ Hy) in Ev. by injection Ev as <-.
Qed.
