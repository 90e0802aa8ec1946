(** Concrete cases for [Prop_TjsonPrint.v]. *)
From stdpp Require Import pretty.
From Verif Require Import Base BaseSpec F64 Tson Serial Tjson TjsonSpec TjsonPrint TjsonPrintSpec TjsonLemmas TjsonDemo TjsonPrintLemmas.

(** [%v] on strings and booleans. *)
Definition show0 (j : json) : string := match j with JStr s => s | JBool b => if b then "true" else "false" | _ => "<nil>" end.
Definition lf1 : string := String feed "".
Definition car : tdoc :=
  [("Car", TItem "1-9" [] [("Door", TItem "1-9" [] [("Open", TItem "1-4" [("1-4", JBool false); ("5-9", JBool true)] [])]); ("Plate", TItem "2-9" [("2-9", JStr "AB 12")] [])]);
   ("Owner", TItem "1-9" [] [])].
Lemma car_listing : pretty_print show0 car = String.concat lf1
  ["TJSON Document:"; "=============="; "Item: Car (Timestamp: 1-9)"; "  Versions:"; "  Children:";
   "    Item: Door (Timestamp: 1-9)"; "      Children:"; "        Item: Open (Timestamp: 1-4)"; "          Versions:";
   "            [0] Timestamp: 1-4"; "                Data: false"; "            [1] Timestamp: 5-9"; "                Data: true";
   "    Item: Plate (Timestamp: 2-9)"; "      Versions:"; "        [0] Timestamp: 2-9"; "            Data: AB 12"; "";
   "Item: Owner (Timestamp: 1-9)"; "  Versions:"; ""; ""].
Proof. vm_compute. reflexivity. Qed.
Fixpoint free_test (seps : list ascii) (s : string) : bool :=
  match s with EmptyString => true | String a s' => negb (existsb (Ascii.eqb a) seps) && free_test seps s' end.
Lemma free_tested seps s : free_test seps s = true -> free_of seps s.
Proof.
  induction s as [|a s IH]; [constructor|]. cbn [free_test]. intros [H1 H2]%andb_true_iff. constructor; [|by apply IH].
  intros H. apply negb_true_iff in H1. apply Bool.not_true_iff_false in H1. apply H1, existsb_exists. exists a. split; [done|]. by apply Ascii.eqb_eq.
Qed.
Lemma car_listable : listable_doc show0 car.
Proof. repeat ((apply free_tested; vm_compute; reflexivity) || split || constructor). Qed.
Lemma car_entry : entry car 2 "Open" (TItem "1-4" [("1-4", JBool false); ("5-9", JBool true)] []).
Proof. eapply en_below; [apply elem_of_cons; by left|]. eapply en_below; [apply elem_of_cons; by left|]. constructor. apply elem_of_cons. by left. Qed.
Definition drive : list tpatch :=
  [TPatch "add" "/Car/Gear" (JStr "P") 3; TPatch "replace" "/Car/Gear" (JStr "D") 7; TPatch "add" "/Car/Lights" (JBool true) 7].
Lemma drive_ok : forall p, p ∈ drive -> free_of [feed] (tp_path p) ∧ free_of [feed] (show0 (tp_value p)).
Proof.
  intros p Hp. repeat (apply elem_of_cons in Hp as [->|Hp]); [split; apply free_tested; vm_compute; reflexivity..|inversion Hp].
Qed.
Lemma drive_listing : pretty_print show0 (from_patches psort ord0 20 drive) = String.concat lf1
  ["TJSON Document:"; "=============="; "Item: Car (Timestamp: 3-6)"; "  Versions:"; "  Children:";
   "    Item: Gear (Timestamp: 3-6)"; "      Versions:"; "        [0] Timestamp: 3-6"; "            Data: P"; "        [1] Timestamp: 7-20"; "            Data: D";
   "    Item: Lights (Timestamp: 7-20)"; "      Versions:"; "        [0] Timestamp: 7-20"; "            Data: true"; ""; ""].
Proof. vm_compute. reflexivity. Qed.
(** Data of two lines against a second version. *)
Definition forged : list tpatch := [TPatch "add" "/Car/Note" (JStr ("x" +++ lf1 +++ "        [1] Timestamp: 5-9" +++ lf1 +++ "            Data: y")) 1].
Definition forged_doc : tdoc := [("Car", TItem "1-9" [] [("Note", TItem "1-9" [("1-9", JStr ("x" +++ lf1 +++ "        [1] Timestamp: 5-9" +++ lf1 +++ "            Data: y"))] [])])].
Definition honest_doc : tdoc := [("Car", TItem "1-9" [] [("Note", TItem "1-9" [("1-9", JStr "x"); ("5-9", JStr "y")] [])])].
Lemma forged_built : from_patches psort ord0 9 forged = forged_doc.
Proof. vm_compute. reflexivity. Qed.
Lemma forged_same : forall fmtv : json -> string, (forall s, fmtv (JStr s) = s) ->
  pretty_print fmtv forged_doc = pretty_print fmtv honest_doc ∧ ~ like_doc fmtv forged_doc honest_doc.
Proof.
  intros fmtv H. split.
  - unfold forged_doc, honest_doc, pretty_print. cbn [print_items print_children print_child version_lines]. rewrite !H. vm_compute. reflexivity.
  - intros L. inversion L as [|? ? ? ? [_ L1] _]; subst. inversion L1 as [? ? ? ? ? _ L2]; subst.
    inversion L2 as [|? ? ? ? [_ L3] _]; subst. inversion L3 as [? ? ? ? ? L4 _]; subst. inversion L4 as [|? ? ? ? _ L5]; subst. inversion L5.
Qed.
Lemma forgery : forall fmtv : json -> string, (forall s, fmtv (JStr s) = s) -> exists d d',
  pretty_print fmtv d = pretty_print fmtv d' ∧ ~ like_doc fmtv d d'.
Proof. intros fmtv H. exists forged_doc, honest_doc. by apply forged_same. Qed.
