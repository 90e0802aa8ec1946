(** Patches between documents of the same frame, and when patches can be generated. *)
From Verif Require Import Base BaseSpec F64 Tson TsonInd TsonSpec Patch Diff DiffSpec JsonSpec FrameDiff FrameDemo TotalSpec DiffTotal TotalDemo.

(** C66: between documents with the same objects, arrays and types of values the patch exists
    and has exactly one operation for each changed leaf: a replacement at its pointer with the
    new value and the new timestamp. *)
Theorem C66_values : forall a b, same_frame a b -> wf a -> wf b ->
  exists ops, generate_patch a b = Ok ops ∧
    (forall p, p ∈ ops -> exists q x ts y ts', meets a b q (TLeaf x ts) (TLeaf y ts') ∧ ~ TsonSpec.prim_eq x y ∧ replacing q y ts' p) ∧
    (forall q x ts y ts', meets a b q (TLeaf x ts) (TLeaf y ts') -> ~ TsonSpec.prim_eq x y -> exists p, p ∈ ops ∧ replacing q y ts' p) ∧
    (every_name (.≠ "") a -> NoDup (map op_path ops)).
Proof. exact frame_values. Qed.
Print Assumptions C66_values.
(** The timestamp variant also replaces leaves of which only the timestamp differs. *)
Theorem C66_stamps : forall a b, same_frame a b -> wf a -> wf b ->
  exists ops, generate_patch_with_timestamp a b = Ok ops ∧
    (forall p, p ∈ ops -> exists q x ts y ts', meets a b q (TLeaf x ts) (TLeaf y ts') ∧ (~ TsonSpec.prim_eq x y ∨ ts ≠ ts') ∧ replacing q y ts' p) ∧
    (forall q x ts y ts', meets a b q (TLeaf x ts) (TLeaf y ts') -> ~ TsonSpec.prim_eq x y ∨ ts ≠ ts' -> exists p, p ∈ ops ∧ replacing q y ts' p) ∧
    (every_name (.≠ "") a -> NoDup (map op_path ops)).
Proof. exact frame_stamps. Qed.
Print Assumptions C66_stamps.
Example C66_case : same_frame fr_a fr_b ∧ wf fr_a ∧ wf fr_b ∧ every_name (.≠ "") fr_a ∧
  exists ops ops', generate_patch fr_a fr_b = Ok ops ∧ map op_path ops = ["/l/1"; "/b/c"] ∧
  generate_patch_with_timestamp fr_a fr_b = Ok ops' ∧ map op_path ops' = ["/l/0"; "/l/1"; "/b/c"].
Proof. exact (conj fr_frame (conj (proj1 fr_wf) (conj (proj2 fr_wf) (conj fr_names fr_gen)))). Qed.

(** C68: GeneratePatch succeeds exactly if there is no obstacle between the documents; it fails or
    panics only because of an obstacle of that kind. *)
Theorem C68_values : forall a b, wf a -> wf b ->
  ((exists ops, generate_patch a b = Ok ops) <-> forall br, ~ obstacle false br a b) ∧
  (generate_patch a b = Err -> obstacle false false a b) ∧
  (generate_patch a b = Panic -> obstacle false true a b).
Proof. exact generate_outcome. Qed.
Print Assumptions C68_values.
(** C68: the same for GeneratePatchWithTimestamp. *)
Theorem C68_stamps : forall a b, wf a -> wf b ->
  ((exists ops, generate_patch_with_timestamp a b = Ok ops) <-> forall br, ~ obstacle true br a b) ∧
  (generate_patch_with_timestamp a b = Err -> obstacle true false a b) ∧
  (generate_patch_with_timestamp a b = Panic -> obstacle true true a b).
Proof. exact generate_ts_outcome. Qed.
Print Assumptions C68_stamps.
Example C68_case : wf tt_a ∧ wf tt_b ∧ wf tt_c ∧ (exists ops, generate_patch tt_a tt_b = Ok ops) ∧
  generate_patch tt_a tt_c = Panic ∧ obstacle false true tt_a tt_c.
Proof. exact (conj (proj1 tt_wf) (conj (proj1 (proj2 tt_wf)) (conj (proj2 (proj2 tt_wf)) (conj (proj1 tt_ok) (conj (proj1 tt_panics) (proj2 (proj2 tt_panics))))))). Qed.
(** C68: whether it fails or panics can depend on the order in which Go visits the members. *)
Theorem C68_order_refuted : generate_patch (TObj tt_f) (TObj tt_g) = Panic ∧ generate_patch (TObj tt_f) (TObj (rev tt_g)) = Err.
Proof. exact tt_both. Qed.
Print Assumptions C68_order_refuted.
