(** The listing of a temporal JSON document: exp/tjson.go 349-395. *)
From Verif Require Import Base F64 Tson Serial Tjson.

Section print.
(** [fmt.Sprintf("%v", x)] for the data of a version. *)
Context (fmtv : json -> string).

(** [fmt.Println], or [fmt.Printf] with a format that ends with a line feed. *)
Definition put_line (s : string) : string := s +++ newline.
(** The line of an item (exp/tjson.go 356, 378). *)
Definition item_line (ind k p : string) : string := put_line (ind +++ "Item: " +++ k +++ " (Timestamp: " +++ p +++ ")").
(** The loops over versions (exp/tjson.go 360-363, 383-386). *)
Fixpoint version_lines (ind : string) (i : nat) (vs : list (string * json)) : string :=
  match vs with
  | [] => ""
  | (p, d) :: vs' =>
      put_line (ind +++ "    [" +++ dec_text (N.of_nat i) +++ "] Timestamp: " +++ p) +++
      put_line (ind +++ "        Data: " +++ fmtv d) +++ version_lines ind (S i) vs'
  end.
(** One turn of [printChildren] (exp/tjson.go 377-394). *)
Fixpoint print_child (ind k : string) (c : titem) : string :=
  let 'TItem p vs cs := c in
  item_line ind k p +++
  match vs with [] => "" | _ => put_line (ind +++ "  Versions:") +++ version_lines ind 0 vs end +++
  match cs with
  | [] => ""
  | _ => put_line (ind +++ "  Children:") +++
         (fix go (cs : list (string * titem)) : string :=
            match cs with [] => "" | (k', c') :: cs' => print_child (ind +++ "    ") k' c' +++ go cs' end) cs
  end.
(** [printChildren] (exp/tjson.go 376-395). *)
Fixpoint print_children (ind : string) (cs : list (string * titem)) : string :=
  match cs with [] => "" | (k, c) :: cs' => print_child ind k c +++ print_children ind cs' end.
(** The loop of [PrettyPrint] over the items (exp/tjson.go 355-372). *)
Fixpoint print_items (d : tdoc) : string :=
  match d with
  | [] => ""
  | (k, TItem p vs cs) :: d' =>
      item_line "" k p +++ put_line "  Versions:" +++ version_lines "" 0 vs +++
      match cs with [] => "" | _ => put_line "  Children:" +++ print_children "    " cs end +++
      newline +++ print_items d'
  end.
(** [PrettyPrint] (exp/tjson.go 350-373): what it writes. *)
Definition pretty_print (d : tdoc) : string :=
  put_line "TJSON Document:" +++ put_line "==============" +++ print_items d.
End print.
