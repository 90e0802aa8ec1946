(** The files written by [CreateSnapshot], one per patch: exp/utils_temporal.go 482-498 and 615-671. *)
From Verif Require Import Base F64 Tson Bytes Heap Patch Tjson Initial Query.

(** The files of the directory ./results/snapshots by their names. *)
Notation folder := (list (string * wjson)).
(** The name of the [k]-th file (exp/utils_temporal.go 645 and 665). *)
Definition snap_name (k : nat) : string := "snapshot_" +++ dec_text (N.of_nat k) +++ ".json".
(** [saveResultToFile] (exp/utils_temporal.go 482-498).  A document that cannot be encoded is not
    written; the callers only print a warning.  Writing the file itself does not fail.  The
    indentation of the text is left out. *)
Definition save_file (name : string) (h : heap) (v : val) (dir : folder) : folder :=
  match read h v with
  | Some d => match to_bytes d with Ok w => ainsert name w dir | _ => dir end
  | None => dir
  end.
(** The loop over the patches (exp/utils_temporal.go 650-670), after [k] of them. *)
Fixpoint snap_loop (k : nat) (us : list tpatch) (h : heap) (v : val) (dir : folder) : folder * res unit :=
  match us with
  | [] => (dir, Ok tt)
  | u :: us' =>
      match apply_patch h v [operation_of u] with
      | (h', Ok v') => snap_loop (S k) us' h' v' (save_file (snap_name (S k)) h' v' dir)
      | (_, _) => (dir, Panic)
      end
  end.
(** [CreateSnapshot] (exp/utils_temporal.go 618-671) on the decoded file.  A file that cannot be read
    or decoded, and a directory that cannot be made, are left out: there it panics before anything
    is written. *)
Definition create_snapshots (file : json) (us : list tpatch) (h : heap) (dir : folder) : folder * res unit :=
  match snd (from_json (transform file)) with
  | Ok t =>
      let '(h', v) := alloc_tree h t in
      snap_loop 0 us h' v (save_file (snap_name 0) h' v dir)
  | _ => (dir, Panic)
  end.
