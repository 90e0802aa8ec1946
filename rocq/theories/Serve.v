(** The files the web demo answers with: web_demo.go 73-83, and how names of files are resolved. *)
From Verif Require Import Base Tson Serial.

(** A file system: every directory lists its files and directories.  There are no links. *)
Inductive node : Type :=
| NFile (content : string)
| NDir (kids : list (string * node)).
Fixpoint node_at (p : list string) (n : node) : option node :=
  match p with
  | [] => Some n
  | k :: p' => match n with
               | NDir kids => match alookup k kids with Some n' => node_at p' n' | None => None end
               | NFile _ => None
               end
  end.
(** The walk of the operating system along the parts of a name, from the directory [pos]; every
    part needs a directory to start from. *)
Fixpoint walk (root : node) (pos parts : list string) : option (list string) :=
  match parts with
  | [] => Some pos
  | k :: rest =>
      match node_at pos root with
      | Some (NDir kids) =>
          if decide (k = "") then walk root pos rest
          else if decide (k = ".") then walk root pos rest
          else if decide (k = "..") then walk root (removelast pos) rest
          else match alookup k kids with
               | Some _ => walk root (pos ++ [k]) rest
               | None => None
               end
      | _ => None
      end
  end.
(** [os.ReadFile] of a relative name in the working directory [cwd], without its error. *)
Definition os_read (root : node) (cwd : list string) (name : string) : string :=
  match walk root cwd (split_on slash name) with
  | Some p => match node_at p root with Some (NFile s) => s | _ => "" end
  | None => ""
  end.
(** [updateHandler] (web_demo.go 73-83): the answer to a request; the arguments are the query parameters. *)
Definition update_answer (root : node) (cwd : list string) (car patch : string) : string :=
  if decide (patch = "") then os_read root cwd ("dataset/car_" +++ car +++ "/tson/" +++ car +++ "_1.tson")
  else os_read root cwd ("dataset/car_" +++ car +++ "/patches/" +++ car +++ "_" +++ patch +++ ".json").
