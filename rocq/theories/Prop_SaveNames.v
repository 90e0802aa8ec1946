(** Property theorems about files with numbers in their names (C109). *)
From Verif Require Import Base F64 Tson Bytes Json Heap Temporal Store SaveNames SaveNamesLemmas SaveNamesDemo.

(** Each of the four methods uses its own word and the number, filled with zeros to four or nine
    characters, a sign included. *)
Theorem C109_names : forall k n, named k n (numbered_name k n).
Proof. exact names_are. Qed.
Print Assumptions C109_names.
(** Different methods or different numbers never use the same file. *)
Theorem C109_distinct : forall k n k' n', numbered_name k n = numbered_name k' n' -> k = k' ∧ n = n'.
Proof. exact names_differ. Qed.
Print Assumptions C109_distinct.
Example C109_case : map fst (save_all no_number saves [("initial_json.json", "{}")]) =
    ["initial_json.json"; "json_patch_0007.json"; "tson_patch_0007.json"; "json_patch_0070.json"; "tson_snapshot_-00000005.json"] ∧
  numbered_name KJsonSnapshot 123456 = "json_snapshot_000123456.json" ∧ numbered_name KTsonPatch 12345 = "tson_patch_12345.json".
Proof. exact save_case. Qed.

(** After any sequence of calls a file holds the data last saved with its method and number that could
    be marshalled. *)
Theorem C109_kept : forall num l1 k n w l2 fs s, marshal_indent num "  " w = Some s ->
  (forall w', (k, n, w') ∈ l2 -> marshal_indent num "  " w' = None) ->
  alookup (numbered_name k n) (save_all num (l1 ++ (k, n, w) :: l2) fs) = Some s.
Proof. exact save_kept. Qed.
Print Assumptions C109_kept.
Example C109_case_kept : marshal_indent no_number "  " (WNum SpecFloat.S754_nan) = None ∧
  exists s, marshal_indent no_number "  " (WArr [WStr "x"]) = Some s ∧ alookup "json_patch_0007.json" (save_all no_number saves []) = Some s.
Proof. exact save_case_kept. Qed.

(** Any other file is as before, and so are the files a run saves. *)
Theorem C109_other : forall num l fs f,
  (forall k n w, (k, n, w) ∈ l -> f = numbered_name k n -> marshal_indent num "  " w = None) ->
  alookup f (save_all num l fs) = alookup f fs.
Proof. exact save_other. Qed.
Print Assumptions C109_other.
Theorem C109_run : forall num l fs f,
  f ∈ ["initial_json.json"; "initial_tson.json"; "final_json.json"; "final_tson.json"; "all_json_patches.json"; "all_tson_patches.json"] ->
  alookup f (save_all num l fs) = alookup f fs.
Proof. exact save_run. Qed.
Print Assumptions C109_run.
(** So the temporal program answers the same, whatever was saved in addition. *)
Theorem C109_program : forall num b order entries content h saves,
  temporal_program b order entries (fun d => save_all num (saves d) (content d)) h = temporal_program b order entries content h.
Proof. exact save_program. Qed.
Print Assumptions C109_program.

(** The names are in the order of the numbers as long as these fit in the width. *)
Theorem C109_order : forall k a b, 0 <= a < room k -> 0 <= b < room k ->
  str_lt (numbered_name k a) (numbered_name k b) = true <-> a < b.
Proof. exact names_order. Qed.
Print Assumptions C109_order.
Example C109_case_order : 0 <= 99 < room KTsonPatch ∧ 0 <= 100 < room KTsonPatch ∧
  str_lt (numbered_name KTsonPatch 99) (numbered_name KTsonPatch 100) = true.
Proof. split; [done|split; [done|vm_compute; reflexivity]]. Qed.
(** Names of negative numbers come first, but in the opposite order. *)
Theorem C109_sign : forall k a b, a < 0 <= b -> str_lt (numbered_name k a) (numbered_name k b) = true.
Proof. exact names_sign. Qed.
Print Assumptions C109_sign.
Theorem C109_negative : forall k a b, - room k < 10 * a < 0 -> - room k < 10 * b < 0 ->
  str_lt (numbered_name k a) (numbered_name k b) = true <-> b < a.
Proof. exact names_negative. Qed.
Print Assumptions C109_negative.
Example C109_case_negative : - room KJsonSnapshot < 10 * -12 < 0 ∧ numbered_name KJsonSnapshot (-12) = "json_snapshot_-00000012.json" ∧
  str_lt (numbered_name KJsonSnapshot (-3)) (numbered_name KJsonSnapshot (-12)) = true.
Proof. split; [done|split; vm_compute; reflexivity]. Qed.
(** With larger numbers the order is lost. *)
Theorem C109_order_refuted : forall k, exists a b, 0 <= a < b ∧ str_lt (numbered_name k b) (numbered_name k a) = true.
Proof. exact save_order_refuted. Qed.
Print Assumptions C109_order_refuted.
