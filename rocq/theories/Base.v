(** Common vocabulary of the model: results, byte strings, Go's string helpers. *)
From Coq Require Export String.
From stdpp Require Export base list strings gmap sorting.
From Coq Require Export ZArith NArith Ascii.
#[global] Open Scope string_scope.
#[global] Open Scope Z_scope.
#[global] Open Scope list_scope.

(** Outcome of a Go call: a value, a returned [error], or a panic.
    Error texts are not modelled. *)
Inductive res (A : Type) : Type :=
| Ok (a : A)
| Err
| Panic.
Arguments Ok {A} a.
Arguments Err {A}.
Arguments Panic {A}.

Definition rbind {A B} (r : res A) (f : A -> res B) : res B :=
  match r with Ok a => f a | Err => Err | Panic => Panic end.
Definition rmap {A B} (f : A -> B) (r : res A) : res B :=
  rbind r (fun a => Ok (f a)).

Notation "'do' x <- r ; k" := (rbind r (fun x => k))
  (at level 200, x pattern, r at level 100, k at level 200, right associativity).

(** Go byte strings are Coq [string]s; [sapp] is concatenation. *)
Notation sapp := String.append.
Infix "+++" := String.append (at level 60, right associativity).
#[global] Arguments String.append : simpl nomatch.

(** A key/value list standing for a Go map with string keys.  Its order stands for
    one iteration order of the map. *)
Fixpoint alookup {V} (k : string) (m : list (string * V)) : option V :=
  match m with
  | [] => None
  | (k', v) :: m' => if decide (k = k') then Some v else alookup k m'
  end.

(** Go map assignment [m[k] = v]. *)
Fixpoint ainsert {V} (k : string) (v : V) (m : list (string * V)) : list (string * V) :=
  match m with
  | [] => [(k, v)]
  | (k', v') :: m' => if decide (k = k') then (k', v) :: m' else (k', v') :: ainsert k v m'
  end.

(** Go [delete(m, k)]. *)
Fixpoint adelete {V} (k : string) (m : list (string * V)) : list (string * V) :=
  match m with
  | [] => []
  | (k', v') :: m' => if decide (k = k') then adelete k m' else (k', v') :: adelete k m'
  end.

Definition akeys {V} (m : list (string * V)) : list string := map fst m.

(** [strings.Split(s, sep)] for a one-byte separator. *)
Fixpoint split_on (c : ascii) (s : string) : list string :=
  match s with
  | EmptyString => [EmptyString]
  | String a s' =>
      if decide (a = c) then EmptyString :: split_on c s'
      else match split_on c s' with
           | w :: ws => String a w :: ws
           | [] => [String a EmptyString]
           end
  end.

Definition slash : ascii := "/"%char.
Definition dot : ascii := "."%char.
Definition tilde : ascii := "~"%char.

(** [rfc6901Decoder.Replace]: [strings.NewReplacer("~1", "/", "~0", "~")]
    (internal/tson/tson.go 103-104, internal/tsonpatch/tsonpatch.go 437,
    internal/logument/logument.go 17). One left-to-right pass. *)
Fixpoint rfc_decode (s : string) : string :=
  match s with
  | EmptyString => EmptyString
  | String a s' =>
      if decide (a = tilde) then
        match s' with
        | String b s'' =>
            if decide (b = "1"%char) then String slash (rfc_decode s'')
            else if decide (b = "0"%char) then String tilde (rfc_decode s'')
            else String a (rfc_decode s')
        | EmptyString => String a EmptyString
        end
      else String a (rfc_decode s')
  end.

(** [rfc6901Encoder.Replace]: [strings.NewReplacer("~", "~0", "/", "~1")]
    (internal/tsonpatch/tsonpatch.go 436). *)
Fixpoint rfc_encode (s : string) : string :=
  match s with
  | EmptyString => EmptyString
  | String a s' =>
      if decide (a = tilde) then String tilde (String "0" (rfc_encode s'))
      else if decide (a = slash) then String tilde (String "1" (rfc_encode s'))
      else String a (rfc_encode s')
  end.

(** [strings.ReplaceAll(s, ".", "/")] (internal/tsonpatch/tsonpatch.go 155). *)
Fixpoint dots_to_slashes (s : string) : string :=
  match s with
  | EmptyString => EmptyString
  | String a s' => String (if decide (a = dot) then slash else a) (dots_to_slashes s')
  end.

(** [strings.HasPrefix]. *)
Fixpoint has_prefix (s p : string) : bool :=
  match p, s with
  | EmptyString, _ => true
  | String a p', String b s' => if decide (a = b) then has_prefix s' p' else false
  | String _ _, EmptyString => false
  end.

(** [strings.HasSuffix(s, "/")]. *)
Fixpoint ends_with (c : ascii) (s : string) : bool :=
  match s with
  | EmptyString => false
  | String a EmptyString => bool_decide (a = c)
  | String _ s' => ends_with c s'
  end.

(** Decimal digits. *)
Definition is_digit (a : ascii) : bool :=
  (N.leb 48 (N_of_ascii a)) && (N.leb (N_of_ascii a) 57).
Definition digit_val (a : ascii) : N := N.sub (N_of_ascii a) 48.
Definition digit_char (n : N) : ascii := ascii_of_N (48 + n).

Fixpoint all_digits (s : string) : bool :=
  match s with
  | EmptyString => true
  | String a s' => is_digit a && all_digits s'
  end.

(** Value of a digit string read left to right, starting from [acc]. *)
Fixpoint dec_val (acc : N) (s : string) : N :=
  match s with
  | EmptyString => acc
  | String a s' => dec_val (acc * 10 + digit_val a)%N s'
  end.

(** Decimal text of a natural number (Go [%d], [strconv.FormatInt(_, 10)]). *)
Fixpoint dec_text_fuel (fuel : nat) (n : N) (acc : string) : string :=
  match fuel with
  | O => acc
  | S f =>
      let acc' := String (digit_char (n mod 10)) acc in
      if (n <? 10)%N then acc' else dec_text_fuel f (n / 10) acc'
  end.
Definition dec_text (n : N) : string := dec_text_fuel (S (N.size_nat n)) n EmptyString.

(** [fmt.Sprintf("%d", z)]. *)
Definition z_text (z : Z) : string :=
  if z <? 0 then String "-" (dec_text (Z.to_N (- z))) else dec_text (Z.to_N z).

Definition int64_min : Z := - 2 ^ 63.
Definition int64_max : Z := 2 ^ 63 - 1.
Definition in_int64 (z : Z) : bool := (int64_min <=? z) && (z <=? int64_max).

(** [strconv.ParseInt(s, 10, 64)] and [strconv.Atoi] (64-bit [int]): an optional sign,
    then at least one digit, and a range check.  [None] is the error. *)
Definition parse_int (s : string) : option Z :=
  let '(neg, ds) :=
    match s with
    | String a s' =>
        if decide (a = "-"%char) then (true, s')
        else if decide (a = "+"%char) then (false, s')
        else (false, s)
    | EmptyString => (false, s)
    end in
  match ds with
  | EmptyString => None
  | _ =>
      if all_digits ds then
        let v := Z.of_N (dec_val 0 ds) in
        let z := if (neg : bool) then - v else v in
        if in_int64 z then Some z else None
      else None
  end.

Fixpoint slength (s : string) : nat :=
  match s with EmptyString => O | String _ s' => S (slength s') end.
