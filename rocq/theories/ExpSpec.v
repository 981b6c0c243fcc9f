(** Vocabulary for C177-C181: waveforms exported as text, several runs one after the other, each after a line
      Step Information: Ton=400m Rload=1K  (Run: 2/3)  *)
From Coq Require Import String Ascii List Bool Arith.
From Verif Require Import PyStr.
Import ListNotations.
Local Open Scope string_scope. Local Open Scope nat_scope. Local Open Scope list_scope.

Definition HT : ascii := "009". Definition LFc : ascii := "010".
Fixpoint sep_by (sep : ascii) (l : list str) : str := match l with [] => [] | [x] => x | x :: r => x ++ sep :: sep_by sep r end.

(** A run: its number and the number of runs (texts), the stepped parameters with their values, the blanks before the parenthesis,
    the rows of data, each a list of fields. *)
Record run := Run { r_no : str; r_total : str; r_params : list (str * str); r_gap : nat; r_rows : list (list str) }.
Definition info_line (word : string) (r : run) : str :=
  s2l "Step Information: " ++ sep_by " " (map (fun p => fst p ++ "="%char :: snd p) (r_params r)) ++ repeat " "%char (S (r_gap r)) ++
  s2l "(" ++ s2l word ++ s2l ": " ++ r_no r ++ s2l "/" ++ r_total r ++ s2l ")" ++ [LFc].
(** The lines of the file: the header, then the runs. *)
Definition exported (word : string) (header : list str) (runs : list run) : list str :=
  sep_by HT header :: flat_map (fun r => info_line word r :: map (sep_by HT) (r_rows r)) runs.

(** Letters, digits, "_", ".", "-" and the micro sign *)
Definition plain (c : ascii) : bool :=
  let n := nat_of_ascii c in
  ((48 <=? n) && (n <=? 57)) || ((65 <=? n) && (n <=? 90)) || ((97 <=? n) && (n <=? 122)) || (n =? 95) || (n =? 46) || (n =? 45) || (n =? 181).
Definition digit (c : ascii) : bool := let n := nat_of_ascii c in (48 <=? n) && (n <=? 57).
Definition param_ok (p : str * str) : Prop := forallb plain (fst p) = true /\ forallb plain (snd p) = true.
(** A row is data: it is not a line of step information *)
Definition row_ok (l : list str) : Prop := forall t, sep_by HT l <> s2l "Step Information:" ++ t.
Definition run_ok (names : list str) (r : run) : Prop :=
  forallb digit (r_no r) = true /\ forallb digit (r_total r) = true /\ Forall param_ok (r_params r) /\ map fst (r_params r) = names /\
  Forall row_ok (r_rows r).

(** The table wanted: a column "Run", the columns of the parameters, then the columns of the file. *)
Definition field (x : str) : str := x ++ [HT].
Definition table (names header : list str) (runs : list run) : str :=
  concat (map field (s2l "Run" :: names)) ++ sep_by HT header ++
  flat_map (fun r => flat_map (fun row => concat (map field (r_no r :: map snd (r_params r))) ++ sep_by HT row) (r_rows r)) runs.

(** One entry for every row of every run. *)
Definition per_row {V} (f : run -> list str -> V) (runs : list run) : list V := flat_map (fun r => map (f r) (r_rows r)) runs.
