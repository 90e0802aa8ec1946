(** Property C101: the listing of a temporal JSON document. *)
From stdpp Require Import pretty.
From Verif Require Import Base BaseSpec F64 Tson Tjson TjsonSpec TjsonPrint TjsonPrintSpec TjsonDemo TjsonPrintLemmas TjsonPrintDemo.

(** C101: two documents with names and data of one line each are listed alike exactly when they
    have the same items in the same order, with the same periods, children and versions, each
    version with data of the same text. *)
Theorem C101_faithful : forall fmtv d d', listable_doc fmtv d -> listable_doc fmtv d' ->
  pretty_print fmtv d = pretty_print fmtv d' <-> like_doc fmtv d d'.
Proof. exact listing_same. Qed.
Print Assumptions C101_faithful.
Example C101_case : listable_doc show0 car ∧ pretty_print show0 car = String.concat lf1
  ["TJSON Document:"; "=============="; "Item: Car (Timestamp: 1-9)"; "  Versions:"; "  Children:";
   "    Item: Door (Timestamp: 1-9)"; "      Children:"; "        Item: Open (Timestamp: 1-4)"; "          Versions:";
   "            [0] Timestamp: 1-4"; "                Data: false"; "            [1] Timestamp: 5-9"; "                Data: true";
   "    Item: Plate (Timestamp: 2-9)"; "      Versions:"; "        [0] Timestamp: 2-9"; "            Data: AB 12"; "";
   "Item: Owner (Timestamp: 1-9)"; "  Versions:"; ""; ""].
Proof. exact (conj car_listable car_listing). Qed.
(** C101: every item has its line, indented by four blanks for every item above it, followed by
    its versions, numbered from zero and in order. *)
Theorem C101_shows : forall fmtv d n k p vs cs, entry d n k (TItem p vs cs) ->
  rows (pretty_print fmtv d) (item_rows fmtv n k p vs).
Proof. exact listing_rows. Qed.
Print Assumptions C101_shows.
Example C101_case_shows : entry car 2 "Open" (TItem "1-4" [("1-4", JBool false); ("5-9", JBool true)] []) ∧
  item_rows show0 2 "Open" "1-4" [("1-4", JBool false); ("5-9", JBool true)] =
  ["        Item: Open (Timestamp: 1-4)"; "          Versions:"; "            [0] Timestamp: 1-4"; "                Data: false";
   "            [1] Timestamp: 5-9"; "                Data: true"].
Proof. exact (conj car_entry eq_refl). Qed.
(** C101: besides these lines only titles and empty lines are written. *)
Theorem C101_only : forall fmtv d, exists ls,
  pretty_print fmtv d = String.concat "" (map (fun l => l +++ String feed "") ls) ∧ Forall (entry_line fmtv d) ls.
Proof. exact listing_only. Qed.
Print Assumptions C101_only.
(** C101: a document built from patches with paths and data of one line each can be listed. *)
Theorem C101_built : forall fmtv srt ord now ps, (forall l, Permutation (srt l) l) -> (forall m, Permutation (ord m) m) ->
  (forall p, p ∈ ps -> free_of [feed] (tp_path p) ∧ free_of [feed] (fmtv (tp_value p))) ->
  listable_doc fmtv (from_patches srt ord now ps).
Proof. exact built_listable. Qed.
Print Assumptions C101_built.
Example C101_case_built : (forall p, p ∈ drive -> free_of [feed] (tp_path p) ∧ free_of [feed] (show0 (tp_value p))) ∧
  pretty_print show0 (from_patches psort ord0 20 drive) = String.concat lf1
  ["TJSON Document:"; "=============="; "Item: Car (Timestamp: 3-6)"; "  Versions:"; "  Children:";
   "    Item: Gear (Timestamp: 3-6)"; "      Versions:"; "        [0] Timestamp: 3-6"; "            Data: P"; "        [1] Timestamp: 7-20"; "            Data: D";
   "    Item: Lights (Timestamp: 7-20)"; "      Versions:"; "        [0] Timestamp: 7-20"; "            Data: true"; ""; ""].
Proof. exact (conj drive_ok drive_listing). Qed.
(** C101: without that condition a string value can pass for another version. *)
Theorem C101_forged_refuted : forall fmtv : json -> string, (forall s, fmtv (JStr s) = s) -> exists d d',
  pretty_print fmtv d = pretty_print fmtv d' ∧ ~ like_doc fmtv d d'.
Proof. exact forgery. Qed.
Print Assumptions C101_forged_refuted.
Example C101_case_forged : (forall s, show0 (JStr s) = s) ∧ from_patches psort ord0 9 forged = forged_doc ∧
  pretty_print show0 forged_doc = pretty_print show0 honest_doc.
Proof. exact (conj (fun _ => eq_refl) (conj forged_built (proj1 (forged_same show0 (fun _ => eq_refl))))). Qed.
