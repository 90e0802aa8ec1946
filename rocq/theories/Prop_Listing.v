(** Property C98: printed listings. *)
From Verif Require Import Base BaseSpec F64 Tson TsonSpec Bytes Serial TextSpec Json JsonSpec JsonDemo Vss VssSpec VssFileSpec VssPatchDemo VssSaveDemo Temporal ExactNum Store StoreSpec StoreDemo
  Listing ListingSpec ListingLemmas ListingDemo.

(** C98: the lines of a listing can be told from it; together they are JSON for the data, one row for
    every bracket and every other value. *)
Theorem C98_listing : forall T num d, survives T num d -> exists ls t j,
  numbered 1 ls (print_index num d) ∧ (forall ls', numbered 1 ls' (print_index num d) -> ls' = ls) ∧ length ls = rows d ∧
  json_text (String.concat (String (ascii_of_N 10) "") ls) t ∧ json_of T t j ∧ decoded d j.
Proof. exact print_ok. Qed.
Print Assumptions C98_listing.
Example C98_case : survives lib exact_num sample ∧ print_index exact_num small = small_listing ∧ rows small = 7%nat ∧ rows sample = 10%nat.
Proof. exact (conj sample_survives small_case). Qed.
(** C98: if a number is NaN or infinite, one empty line is listed. *)
Theorem C98_lost : forall num d, no_number d -> print_index num d = "00001: " +++ String (ascii_of_N 10) "".
Proof. exact print_empty. Qed.
Print Assumptions C98_lost.
Example C98_lost_case : no_number (WArr [WNull; WObj [("a", WNum (S754_infinity true))]]).
Proof. exact sample_lost. Qed.
(** C98: the listing without numbers is read as the document with the cells as leaves. *)
Theorem C98_print : forall L fmt0 d, storable L d -> exists t, Serial.unmarshal L (print_data L fmt0 d) = Ok t ∧ shown d t.
Proof. exact print_read. Qed.
Print Assumptions C98_print.
Example C98_print_case : storable lib demo1 ∧ print_data lib go_fmt0 demo1 = saved_demo +++ feed.
Proof. exact (conj demo_storable print_case). Qed.
