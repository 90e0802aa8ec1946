(** What a listing with line numbers says. *)
From Verif Require Import Base BaseSpec Bytes.

(** A text without line feeds. *)
Definition one_line (s : string) : Prop := forall a b, s ≠ a +++ String (ascii_of_N 10) b.
(** [numbered i ls out]: [out] lists the lines [ls], each after its number, with at least five digits,
    and a colon; the first number is [i]. *)
Inductive numbered : N -> list string -> string -> Prop :=
| nb_nil i : numbered i [] ""
| nb_line i n l ls out : digits n i -> (5 <= slength n)%nat -> one_line l -> numbered (i + 1) ls out ->
    numbered i (l :: ls) (n +++ ": " +++ l +++ String (ascii_of_N 10) out).
(** How many lines the data takes: one for each opening and closing bracket of a container with
    members, one for every other value. *)
Fixpoint rows (w : wjson) : nat :=
  match w with
  | WArr ((_ :: _) as l) => 2 + sum_list (map rows l)
  | WObj ((_ :: _) as m) => 2 + sum_list (map (fun kv => rows (snd kv)) m)
  | _ => 1
  end.
