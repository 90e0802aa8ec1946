(** Concrete cases for [Prop_SaveNames.v]. *)
From Verif Require Import Base F64 Tson Bytes Json Heap Temporal Store SaveNames SaveNamesLemmas.
From Coq Require Import Lia.

Definition no_number : f64 -> string := fun _ => "0".
Definition saves : list (save_kind * Z * wjson) :=
  [(KJsonPatch, 7, WArr []); (KTsonPatch, 7, WObj []); (KJsonPatch, 7, WArr [WStr "x"]); (KJsonPatch, 70, WStr "y");
   (KJsonPatch, 7, WNum SpecFloat.S754_nan); (KTsonSnapshot, -5, WStr "z")].
Lemma save_case : map fst (save_all no_number saves [("initial_json.json", "{}")]) =
    ["initial_json.json"; "json_patch_0007.json"; "tson_patch_0007.json"; "json_patch_0070.json"; "tson_snapshot_-00000005.json"] ∧
  numbered_name KJsonSnapshot 123456 = "json_snapshot_000123456.json" ∧ numbered_name KTsonPatch 12345 = "tson_patch_12345.json".
Proof. split; [|split]; vm_compute; reflexivity. Qed.
Lemma save_case_kept : marshal_indent no_number "  " (WNum SpecFloat.S754_nan) = None ∧
  exists s, marshal_indent no_number "  " (WArr [WStr "x"]) = Some s ∧ alookup "json_patch_0007.json" (save_all no_number saves []) = Some s.
Proof. split; [vm_compute; reflexivity|]. eexists. split; vm_compute; reflexivity. Qed.
Lemma save_order_refuted : forall k, exists a b, 0 <= a < b ∧ str_lt (numbered_name k b) (numbered_name k a) = true.
Proof. intros k. exists (room k - 1), (room k). destruct k; (split; [unfold room; lia|vm_compute; reflexivity]). Qed.
