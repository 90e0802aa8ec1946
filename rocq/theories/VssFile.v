(** Facts about the vehicle data generator: the files of data sets it makes. *)
From stdpp Require Import pretty.
From Verif Require Import Base BaseLemmas BaseSpec Tson TsonInd TsonSpec F64 JsonSpec Json JsonTson Serial TextSpec TextLemmas NotJson PatchSpec Bytes BytesLemmas Vss VssSpec VssLemmas VssPlace
  VssFloat VssGen VssData VssNext VssPatchSpec VssTidy VssFileSpec VssSave.
From Coq Require Import Lia.

Section files.
Context (L : textlib) (fmt0 : f64 -> string).
Notation neat := (tidy (clean L) (value_saves L) (fun ts => 0 <= ts <= int64_max)).
Ltac clean_tac := repeat (apply clean_nil || (apply clean_ascii; [vm_compute; split; congruence|])).
Lemma sample_clean s : sample s -> clean L s.
Proof.
  intros (n & Hn & ->).
  assert (H : n ∈ seq 1 20) by (apply elem_of_seq; lia).
  assert (HF : Forall (fun n => clean L ("TEST_STRING_VALUE_" +++ pretty n)) (seq 1 20)).
  { cbn [seq]. repeat (constructor; [vm_compute; clean_tac|]). constructor. }
  rewrite Forall_forall in HF. by apply HF.
Qed.
Lemma saves_admits D : draws_save L D -> admits (clean L) (value_saves L).
Proof.
  intros [_ HZ]. constructor; [by intros []|done|exact HZ|exact sample_clean|split; clean_tac].
Qed.
Lemma neat_storable d : neat d -> storable L d.
Proof.
  intros [H1 H2 H3 H4 H5 _]. constructor; [done|done| |done]. eapply keyed_impl; [|exact H3]. by intros k [_ ?].
Qed.
Lemma generated_neat d c m r : schema d -> typed d -> schema_saves L d -> generated L d c m r -> neat r.
Proof.
  intros HS HT [HU HAl]. induction 1 as [size R ord ts b r HR HW Hts Hord E|R ts r r' HG IH HR HW Hts E].
  - destruct (generate_tidy (clean L) (value_saves L) (fun ts => 0 <= ts <= int64_max) (saves_admits (R "") (HW "")) size R ord ts b d) as (r0 & E0 & H & _);
      [done|done|done|done|done|intros p; exact (proj1 (HW p))|done|done|].
    rewrite E in E0. by injection E0 as ->.
  - destruct (next_tidy (clean L) (value_saves L) (fun ts => 0 <= ts <= int64_max) (saves_admits (R "") (HW "")) c m R ts r) as (r0 & E0 & H & _);
      [done|done|intros p; exact (proj1 (HW p))|done|].
    rewrite E in E0. by injection E0 as ->.
Qed.
Lemma generated_exact d c m r : schema d -> typed d -> schema_saves L d -> generated L d c m r ->
  exists t, unmarshal L (save_data L fmt0 r) = Ok t ∧ shown r t.
Proof. intros HS HT HW HG. by apply save_exact, neat_storable, (generated_neat d c m). Qed.
(** ** Reading a file as JSON *)
Lemma path_stamp P t q p ts : every_stamp P t -> at_path t q = Some (TLeaf p ts) -> P ts.
Proof.
  revert t. induction q as [|s q IH]; intros t HS E; cbn [at_path] in E.
  - injection E as ->. by inversion HS.
  - destruct s as [k|i], t as [|? ?|m|l]; try done.
    + destruct (alookup k m) as [c|] eqn:Ek; [|done]. apply alookup_Some_in in Ek. inversion HS as [| |? HF|]; subst.
      rewrite Forall_forall in HF. by apply (IH c); [apply (HF (k, c))|].
    + destruct (l !! i) as [c|] eqn:Ei; [|done]. inversion HS as [| | |? HF]; subst.
      rewrite Forall_lookup in HF. by apply (IH c); [eapply HF|].
Qed.
Lemma both_stamps s t tr : Serial.unmarshal L s = Ok t -> json_text s tr -> every_stamp (fun ts => ts = 0 ∨ ts = -1) t.
Proof. intros H%unmarshal_iff HJ. by eapply both_unstamped. Qed.
Lemma to_map_fails d q v ts : storable L d -> cell d q v ts -> 0 < ts -> to_map L fmt0 d = Err.
Proof.
  intros HD Hc Hts. destruct (save_exact L fmt0 d HD) as (t & Et & Ht). unfold to_map.
  destruct (decode_any L (save_data L fmt0 d)) as [j| |] eqn:E; try done. exfalso.
  apply decode_spec in E as (tr & HJ & _). assert (HS := both_stamps _ _ _ Et HJ).
  destruct (path_stamp _ t q (as_prim v) ts HS) as [?|?]; [|lia|lia]. apply (sn_cell d t Ht). by exists v.
Qed.
End files.
