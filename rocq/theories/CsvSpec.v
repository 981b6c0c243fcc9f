(** Specification for the stepping table: how a CSV file is read (RFC 4180, any delimiter), and the
    value every name has in a simulation of a stepped session. *)
From Coq Require Import String Ascii List Bool Arith.
From Verif Require Import PyStr StepperModel.
Import ListNotations.
Local Open Scope string_scope. Local Open Scope nat_scope. Local Open Scope list_scope.

(** A field as a reader gets it: with or without quotes around it. *)
Inductive field := Quoted (s : str) | Bare (s : str).

Definition quote : ascii := "034"%char.
Definition carriage_return : ascii := "013"%char.
Definition line_feed : ascii := "010"%char.

(** Reader states: at the start of a field, inside a field without quotes, inside a quoted field, after
    a quote inside a quoted field, after the carriage return of a line end. *)
Inductive rstate := Start | InBare (s : str) | InQuoted (s : str) | AfterQuote (s : str) | AfterCR.

(** [reads d st row rows text]: the records of [text], after the records [rows] and the fields [row] of the
    present record. *)
Fixpoint reads_from (d : ascii) (st : rstate) (row : list field) (rows : list (list field)) (t : str)
    : option (list (list field)) :=
  match t with
  | [] => match st, row with Start, [] => Some rows | _, _ => None end
  | c :: t' =>
      let finish f := if aeqb c d then reads_from d Start (row ++ [f]) rows t'
                      else reads_from d AfterCR (row ++ [f]) rows t' in
      match st with
      | Start =>
          if aeqb c quote then reads_from d (InQuoted []) row rows t'
          else if aeqb c d || aeqb c carriage_return then finish (Bare [])
          else if aeqb c line_feed then None
          else reads_from d (InBare [c]) row rows t'
      | InBare s =>
          if aeqb c d || aeqb c carriage_return then finish (Bare s)
          else if aeqb c quote || aeqb c line_feed then None
          else reads_from d (InBare (s ++ [c])) row rows t'
      | InQuoted s =>
          if aeqb c quote then reads_from d (AfterQuote s) row rows t'
          else reads_from d (InQuoted (s ++ [c])) row rows t'
      | AfterQuote s =>
          if aeqb c quote then reads_from d (InQuoted (s ++ [c])) row rows t'
          else if aeqb c d || aeqb c carriage_return then finish (Quoted s)
          else None
      | AfterCR =>
          if aeqb c line_feed then reads_from d Start [] (rows ++ [row]) t' else None
      end
  end.
Definition reads (d : ascii) (t : str) : option (list (list field)) := reads_from d Start [] [] t.

(** A delimiter that can be told from the rest. *)
Definition good_delimiter (d : ascii) : Prop :=
  d <> quote /\ d <> carriage_return /\ d <> line_feed /\ is_digit d = false.

(** The texts of numbers have no special character. *)
Definition plain_number (d : ascii) (v : value) : Prop :=
  match v with
  | VText _ => True
  | VNumber s => s <> "" /\ ~ In d (s2l s) /\ ~ In quote (s2l s) /\
                 ~ In carriage_return (s2l s) /\ ~ In line_feed (s2l s)
  end.

(** The field of a value: texts are quoted, numbers are not. *)
Definition field_of (v : value) : field :=
  match v with VText s => Quoted (s2l s) | VNumber s => Bare (s2l s) end.

(** The values of names: those set before, and those of a combination of the sweeps (if two sweeps have the
    same name the later one decides). *)
Fixpoint values_in (before : string -> option value) (dims : list dim) (c : list value)
    : string -> option value :=
  match dims, c with
  | d :: dims', v :: c' =>
      values_in (fun k => if String.eqb k (snd (d_target d)) then Some v else before k) dims' c'
  | _, _ => before
  end.

(** The names in the order of their first mention. *)
Fixpoint names_after (names : list string) (dims : list dim) : list string :=
  match dims with
  | [] => names
  | d :: r => names_after (if in_dec string_dec (snd (d_target d)) names then names
                           else names ++ [snd (d_target d)]) r
  end.

(** The lines of the table: one for every combination whose simulation was accepted, with the run number,
    the values of the names and the netlist file. *)
Fixpoint table_lines (o : nat -> option (nat * string)) (names : list string)
    (value_of : list value -> string -> option value) (k : nat) (cs : list (list value))
    : list (list field) :=
  match cs with
  | [] => []
  | c :: r =>
      match o k with
      | Some (n, file) =>
          [Bare (dec n) :: map (fun x => match value_of c x with Some v => field_of v | None => Quoted [] end)
                               names ++ [Quoted (s2l file)]]
      | None => []
      end ++ table_lines o names value_of (S k) r
  end.
