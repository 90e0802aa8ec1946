(** Files with numbers in their names (exp/doc_data_save.go).  The experiments in /repo save the
    patches of a run in one file; the methods modelled here save one patch or one snapshot each. *)
From Verif Require Import Base F64 Bytes Json Store.

(** The methods [SaveJSONPatch], [SaveTSONPatch], [SaveJSONSnapshot] and [SaveTSONSnapshot]
    (exp/doc_data_save.go 46-55 and 78-87). *)
Inductive save_kind : Type := KJsonPatch | KTsonPatch | KJsonSnapshot | KTsonSnapshot.
(** [fmt.Sprintf("%0kd")]: the sign counts towards the width. *)
Definition padded_z (k : nat) (n : Z) : string :=
  if n <? 0 then String "-" (padded (k - 1) (- n)) else padded k n.
(** The file names of these methods: exp/doc_data_save.go 47, 53, 79 and 85. *)
Definition numbered_name (k : save_kind) (n : Z) : string :=
  match k with
  | KJsonPatch => "json_patch_" +++ padded_z 4 n +++ ".json"
  | KTsonPatch => "tson_patch_" +++ padded_z 4 n +++ ".json"
  | KJsonSnapshot => "json_snapshot_" +++ padded_z 9 n +++ ".json"
  | KTsonSnapshot => "tson_snapshot_" +++ padded_z 9 n +++ ".json"
  end.
(** One call of such a method (exp/doc_data_save.go 46-55 and 78-87): the data is already the value
    [json.MarshalIndent] writes, and [fs] are the files in [ds.OutputDir]. *)
Definition save_numbered (num : f64 -> string) (k : save_kind) (n : Z) (w : wjson) (fs : text_folder) : text_folder :=
  save_json num (numbered_name k n) w fs.
(** A sequence of calls. *)
Definition save_all (num : f64 -> string) (l : list (save_kind * Z * wjson)) (fs : text_folder) : text_folder :=
  fold_left (fun fs '(k, n, w) => save_numbered num k n w fs) l fs.
