(** Files with numbers in their names. *)
From Verif Require Import Base BaseSpec BaseLemmas BaseSpecLemmas F64 Tson Serial Bytes TextSpec BytesLemmas Json JsonSpec JsonWrite DiffApply Heap VssRunLemmas Temporal Store CsvLemmas ListingLemmas SaveNames.
From Coq Require Import Lia.

(** ** What the names should be *)
(** The digits of [n], with zeros in front only to reach the width. *)
Definition zero_filled (width : nat) (n : N) (t : string) : Prop :=
  digits t n ∧ (width <= slength t)%nat ∧ ((width < slength t)%nat -> t = "0" ∨ forall r, t <> String "0" r).
(** The word and the width of each kind of file. *)
Inductive kind_word : save_kind -> string -> nat -> Prop :=
| kw_jp : kind_word KJsonPatch "json_patch_" 4
| kw_tp : kind_word KTsonPatch "tson_patch_" 4
| kw_js : kind_word KJsonSnapshot "json_snapshot_" 9
| kw_ts : kind_word KTsonSnapshot "tson_snapshot_" 9.
Inductive named (k : save_kind) : Z -> string -> Prop :=
| nm_plain n word width t : kind_word k word width -> zero_filled width n t -> named k (Z.of_N n) (word +++ t +++ ".json")
| nm_minus n word width t : kind_word k word width -> (0 < n)%N -> zero_filled (width - 1) n t ->
    named k (- Z.of_N n) (word +++ "-" +++ t +++ ".json").
(** The largest number, and one more, that fit in the width. *)
Definition room (k : save_kind) : Z := match k with KJsonPatch | KTsonPatch => 10 ^ 4 | _ => 10 ^ 9 end.

(** ** Padding *)
Lemma padded_filled k n : 0 <= n -> zero_filled k (Z.to_N n) (padded k n).
Proof.
  intros Hn. destruct (padded_digits k n Hn) as [D L]. split; [done|]. split; [done|]. intros Hl.
  unfold padded in *. set (s := dec_text (Z.to_N n)) in *.
  assert (E : (k - slength s = 0)%nat).
  { assert (H : forall l : list nat, slength (foldr (fun _ r => String "0" r) s l) = (length l + slength s)%nat).
    { induction l as [|x l IH]; cbn [foldr slength length]; [done|]. by rewrite IH. }
    rewrite H, seq_length in Hl. lia. }
  rewrite E. cbn [seq foldr]. destruct (dec_text_int (Z.to_N n)); subst s; auto.
Qed.
Lemma fuel_length f n acc k : (1 <= k)%nat -> (n < 10 ^ N.of_nat k)%N -> (slength (dec_text_fuel f n acc) <= k + slength acc)%nat.
Proof.
  revert n acc k. induction f as [|f IH]; intros n acc k Hk Hn; cbn [dec_text_fuel]; [lia|]. cbv zeta.
  destruct (N.ltb_spec n 10); [cbn [slength]; lia|].
  destruct k as [|[|k]]; [lia|change (10 ^ N.of_nat 1)%N with 10%N in Hn; lia|].
  eapply Nat.le_trans; [apply (IH _ _ (S k)); [lia|]|cbn [slength]; lia].
  apply N.div_lt_upper_bound; [lia|]. by rewrite <- N.pow_succ_r', <- Nat2N.inj_succ.
Qed.
Lemma padded_width k n : (1 <= k)%nat -> 0 <= n < 10 ^ Z.of_nat k -> slength (padded k n) = k.
Proof.
  intros Hk [H1 H2]. unfold padded. set (s := dec_text (Z.to_N n)).
  assert (L : (slength s <= k)%nat).
  { pose proof (fuel_length (S (N.size_nat (Z.to_N n))) (Z.to_N n) "" k Hk) as H. cbn [slength] in H. rewrite Nat.add_0_r in H. apply H.
    apply N2Z.inj_lt. rewrite N2Z.inj_pow, Z2N.id by lia. by rewrite nat_N_Z. }
  assert (H : forall l : list nat, slength (foldr (fun _ r => String "0" r) s l) = (length l + slength s)%nat).
  { induction l as [|x l IH]; cbn [foldr slength length]; [done|]. by rewrite IH. }
  rewrite H, seq_length. lia.
Qed.
Lemma padded_z_inj k a b : padded_z k a = padded_z k b -> a = b.
Proof.
  unfold padded_z. destruct (Z.ltb_spec a 0), (Z.ltb_spec b 0); intros E.
  - injection E as E. destruct (padded_digits (k - 1) (- a)) as [A _]; [lia|]. destruct (padded_digits (k - 1) (- b)) as [B _]; [lia|].
    rewrite E in A. pose proof (digits_one _ _ _ A B). lia.
  - destruct (padded_digits k b) as [B _]; [lia|]. rewrite <- E in B. by apply digits_minus in B.
  - destruct (padded_digits k a) as [A _]; [lia|]. rewrite E in A. by apply digits_minus in A.
  - destruct (padded_digits k a) as [A _]; [lia|]. destruct (padded_digits k b) as [B _]; [lia|].
    rewrite E in A. pose proof (digits_one _ _ _ A B). lia.
Qed.
Lemma digits_dot s n : digits s n -> contains "." s = false.
Proof. intros (_ & H & _)%digits_model. by apply digits_no. Qed.
Lemma padded_z_dot k n : contains "." (padded_z k n) = false.
Proof.
  unfold padded_z. destruct (Z.ltb_spec n 0).
  - cbn [contains]. rewrite bool_decide_eq_false_2 by done. cbn [orb]. eapply digits_dot. apply padded_digits. lia.
  - eapply digits_dot. apply padded_digits. lia.
Qed.

(** ** Names *)
Lemma names_are k n : named k n (numbered_name k n).
Proof.
  assert (H : forall word width, kind_word k word width -> named k n (word +++ padded_z width n +++ ".json")).
  { intros word width W. unfold padded_z. destruct (Z.ltb_spec n 0).
    - replace n with (- Z.of_N (Z.to_N (- n))) at 1 by lia.
      change (String "-" (padded (width - 1) (- n)) +++ ".json") with ("-" +++ padded (width - 1) (- n) +++ ".json").
      eapply nm_minus; [done|lia|]. apply padded_filled. lia.
    - replace n with (Z.of_N (Z.to_N n)) at 1 by lia. eapply nm_plain; [done|]. by apply padded_filled. }
  destruct k; apply H; constructor.
Qed.
Lemma names_differ k n k' n' : numbered_name k n = numbered_name k' n' -> k = k' ∧ n = n'.
Proof.
  assert (H : forall w u, padded_z w n +++ ".json" = padded_z u n' +++ ".json" -> w = u -> n = n').
  { intros w u E <-. apply sep_inj in E as [E _]; [|apply padded_z_dot..]. by apply padded_z_inj in E. }
  intros E. destruct k, k'; try (exfalso; revert E; unfold numbered_name; cbn [String.append]; congruence); (split; [done|]); unfold numbered_name in E; cbn [String.append] in E; (eapply H; [|reflexivity]); by injection E.
Qed.
Definition run_files : list string :=
  ["initial_json.json"; "initial_tson.json"; "final_json.json"; "final_tson.json"; "all_json_patches.json"; "all_tson_patches.json"].
Lemma names_other k n f : f ∈ run_files -> f <> numbered_name k n.
Proof.
  unfold run_files. rewrite !elem_of_cons, elem_of_nil. intros Hf E.
  destruct k; unfold numbered_name in E; cbn [String.append] in E; by repeat (destruct Hf as [->|Hf]).
Qed.

(** ** Saving *)
Lemma save_lookup num k n w fs f : alookup f (save_numbered num k n w fs) =
  if decide (f = numbered_name k n) then match marshal_indent num "  " w with Some s => Some s | None => alookup f fs end else alookup f fs.
Proof.
  unfold save_numbered, save_json. destruct (marshal_indent num "  " w); [rewrite alookup_ainsert|]; case_decide; done.
Qed.
Lemma save_other num l fs f : (forall k n w, (k, n, w) ∈ l -> f = numbered_name k n -> marshal_indent num "  " w = None) ->
  alookup f (save_all num l fs) = alookup f fs.
Proof.
  revert fs. induction l as [|[[k n] w] l IH]; intros fs H; [done|]. change (save_all num ((k, n, w) :: l) fs) with (save_all num l (save_numbered num k n w fs)).
  rewrite IH by (intros; eapply H; [by right|done]). rewrite save_lookup. case_decide; [|done].
  by rewrite (H k n w) by (by left || done).
Qed.
Lemma save_kept num l1 k n w l2 fs s : marshal_indent num "  " w = Some s ->
  (forall w', (k, n, w') ∈ l2 -> marshal_indent num "  " w' = None) ->
  alookup (numbered_name k n) (save_all num (l1 ++ (k, n, w) :: l2) fs) = Some s.
Proof.
  intros Hs H2. unfold save_all. rewrite fold_left_app. cbn [fold_left]. fold (save_all num l1 fs).
  change (alookup (numbered_name k n) (save_all num l2 (save_numbered num k n w (save_all num l1 fs))) = Some s).
  rewrite save_other.
  - rewrite save_lookup, decide_True by done. by rewrite Hs.
  - intros k' n' w' Hin E. apply names_differ in E as [<- <-]. by apply (H2 w').
Qed.
Lemma save_run num l fs f : f ∈ run_files -> alookup f (save_all num l fs) = alookup f fs.
Proof. intros Hf. apply save_other. intros k n w _ E. by apply names_other in E. Qed.
Lemma save_program num b order entries content h saves :
  temporal_program b order entries (fun d => save_all num (saves d) (content d)) h = temporal_program b order entries content h.
Proof.
  unfold temporal_program. destruct (latest_dir entries) as [d| |]; [|done..]. unfold load_patches.
  rewrite !save_run by (unfold run_files; rewrite !elem_of_cons; tauto). done.
Qed.

(** ** Order *)
Lemma lt_prefix p s t : str_lt (p +++ s) (p +++ t) = str_lt s t.
Proof. induction p as [|a p IH]; [done|]. cbn [String.append str_lt]. by rewrite decide_True. Qed.
Lemma lt_suffix s t r : slength s = slength t -> str_lt (s +++ r) (t +++ r) = str_lt s t.
Proof.
  revert t. induction s as [|a s IH]; intros [|b t] H; try done; cbn [String.append str_lt].
  - by rewrite str_lt_irrefl.
  - injection H as H. case_decide; [by apply IH|done].
Qed.
Lemma val_bound s a : all_digits s = true -> (a * 10 ^ N.of_nat (slength s) <= dec_val a s < (a + 1) * 10 ^ N.of_nat (slength s))%N.
Proof.
  revert a. induction s as [|c s IH]; intros a; [cbn; lia|]. cbn [all_digits]. intros [H1 H2]%andb_true_iff.
  cbn [dec_val slength]. rewrite Nat2N.inj_succ, N.pow_succ_r'. specialize (IH (a * 10 + digit_val c)%N H2).
  assert (D : (digit_val c <= 9)%N). { unfold digit_val, Base.is_digit in *. apply andb_true_iff in H1 as [G1%N.leb_le G2%N.leb_le]. lia. }
  set (P := (10 ^ N.of_nat (slength s))%N) in *. nia.
Qed.
Lemma val_order s t a : slength s = slength t -> all_digits s = true -> all_digits t = true ->
  str_lt s t = true <-> (dec_val a s < dec_val a t)%N.
Proof.
  revert t a. induction s as [|c s IH]; intros [|d t] a L; try done; [cbn; intros; lia|]. injection L as L.
  cbn [all_digits]. intros [C1 C2]%andb_true_iff [D1 D2]%andb_true_iff. cbn [str_lt dec_val].
  case_decide as E; [subst d; by apply IH|].
  assert (Hv : forall x, Base.is_digit x = true -> N_of_ascii x = (48 + digit_val x)%N).
  { intros x Hx. unfold digit_val, Base.is_digit in *. apply andb_true_iff in Hx as [G1%N.leb_le G2%N.leb_le]. lia. }
  rewrite N.ltb_lt, !Hv by done.
  assert (N : digit_val c <> digit_val d).
  { intros G. apply E. rewrite <- (ascii_N_embedding c), <- (ascii_N_embedding d), (Hv c), (Hv d), G by done. done. }
  pose proof (val_bound s (a * 10 + digit_val c)%N C2) as B1. pose proof (val_bound t (a * 10 + digit_val d)%N D2) as B2. rewrite <- L in B2.
  set (P := (10 ^ N.of_nat (slength s))%N) in *. split; intros H.
  - assert ((a * 10 + digit_val c + 1) * P <= (a * 10 + digit_val d) * P)%N by (apply N.mul_le_mono_r; lia). lia.
  - destruct (N.lt_ge_cases (digit_val c) (digit_val d)); [lia|].
    assert ((a * 10 + digit_val d + 1) * P <= (a * 10 + digit_val c) * P)%N by (apply N.mul_le_mono_r; lia). lia.
Qed.
Lemma names_order k a b : 0 <= a < room k -> 0 <= b < room k ->
  str_lt (numbered_name k a) (numbered_name k b) = true <-> a < b.
Proof.
  assert (H : forall w p, (1 <= w)%nat -> 0 <= a < 10 ^ Z.of_nat w -> 0 <= b < 10 ^ Z.of_nat w ->
    str_lt (p +++ padded_z w a +++ ".json") (p +++ padded_z w b +++ ".json") = true <-> a < b).
  { intros w p Hw Ha Hb. rewrite lt_prefix. unfold padded_z. destruct (Z.ltb_spec a 0), (Z.ltb_spec b 0); try lia.
    pose proof (padded_width w a Hw Ha) as La. pose proof (padded_width w b Hw Hb) as Lb.
    rewrite lt_suffix by congruence.
    destruct (padded_digits w a) as [(_ & A1 & A2)%digits_model _]; [lia|]. destruct (padded_digits w b) as [(_ & B1 & B2)%digits_model _]; [lia|].
    rewrite (val_order _ _ 0%N) by congruence. rewrite A2, B2. lia. }
  intros Ha Hb. destruct k; apply H; first [lia|exact Ha|exact Hb].
Qed.
Lemma names_negative k a b : - room k < 10 * a < 0 -> - room k < 10 * b < 0 ->
  str_lt (numbered_name k a) (numbered_name k b) = true <-> b < a.
Proof.
  assert (H : forall w p, (2 <= w)%nat -> - 10 ^ Z.of_nat (w - 1) < a < 0 -> - 10 ^ Z.of_nat (w - 1) < b < 0 ->
    str_lt (p +++ padded_z w a +++ ".json") (p +++ padded_z w b +++ ".json") = true <-> b < a).
  { intros w p Hw Ha Hb. rewrite lt_prefix. unfold padded_z. destruct (Z.ltb_spec a 0), (Z.ltb_spec b 0); try lia.
    cbn [String.append str_lt]. rewrite decide_True by done.
    pose proof (padded_width (w - 1) (- a)) as La. pose proof (padded_width (w - 1) (- b)) as Lb.
    rewrite lt_suffix by (rewrite La, Lb by lia; done).
    destruct (padded_digits (w - 1) (- a)) as [(_ & A1 & A2)%digits_model _]; [lia|]. destruct (padded_digits (w - 1) (- b)) as [(_ & B1 & B2)%digits_model _]; [lia|].
    rewrite (val_order _ _ 0%N) by (done || rewrite La, Lb by lia; done). rewrite A2, B2. lia. }
  intros Ha Hb. destruct k; unfold room in *; apply H; cbn [Nat.sub]; try lia;
    first [change (10 ^ Z.of_nat 3) with 1000|change (10 ^ Z.of_nat 8) with 100000000]; lia.
Qed.
Lemma names_sign k a b : a < 0 <= b -> str_lt (numbered_name k a) (numbered_name k b) = true.
Proof.
  assert (H : forall w p, a < 0 <= b -> str_lt (p +++ padded_z w a +++ ".json") (p +++ padded_z w b +++ ".json") = true).
  { intros w p Hab. rewrite lt_prefix. unfold padded_z. destruct (Z.ltb_spec a 0), (Z.ltb_spec b 0); try lia.
    destruct (padded_digits w b) as [D _]; [lia|]. destruct (digits_head _ _ D) as (c & r & -> & Hc). cbn [String.append str_lt].
    unfold Base.is_digit in Hc. apply andb_true_iff in Hc as [G1%N.leb_le G2%N.leb_le].
    case_decide as E; [subst c; change (N_of_ascii "-") with 45%N in *; lia|]. apply N.ltb_lt. change (N_of_ascii "-") with 45%N. lia. }
  intros Hab. destruct k; by apply H.
Qed.
