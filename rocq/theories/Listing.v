(** The listing of a document with line numbers: internal/vssgen/vss.go 84-92. *)
From Verif Require Import Base F64 Tson Bytes Serial Json Vss Store.

(** The loop of [PrintWithIndex] (88-91) from the number [i] on; ["%05d"] is [padded 5].  The texts
    printed one after another are one text. *)
Fixpoint number_lines (i : Z) (ls : list string) : string :=
  match ls with
  | [] => ""
  | l :: ls' => padded 5 i +++ ": " +++ l +++ String (ascii_of_N 10) (number_lines (i + 1) ls')
  end.
(** [VssJson.PrintWithIndex] (internal/vssgen/vss.go 84-92): what it prints for the data [d].  The error
    of [json.MarshalIndent] is dropped; the text is empty then. *)
Definition print_index (num : f64 -> string) (d : wjson) : string :=
  number_lines 1 (split_on (ascii_of_N 10) (default "" (marshal_indent num "    " (write_any d)))).
(** [VssJson.Print] (internal/vssgen/vss.go 78-82): [fmt.Println] of the text [Save] writes to a file
    ([save_data] in Vss.v). *)
Definition print_data (L : textlib) (fmt0 : f64 -> string) (d : wjson) : string := save_data L fmt0 d +++ String (ascii_of_N 10) "".
