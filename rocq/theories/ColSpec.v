(** What collecting and exporting logs promise. *)
From Coq Require Import String Ascii List Bool Arith.
From Verif Require Import PyStr StepsModel ColModel.
Import ListNotations.
Local Open Scope string_scope. Local Open Scope nat_scope. Local Open Scope list_scope.

(** ** Collecting *)
Section Collect.
Context {V : Type}.
Definition column (h : heap V) (cols : list (str * nat)) (p : str) : option (list V) := option_map h (dget p cols).
(** The values of [p] in all the logs, one log after the other. *)
Definition gather (h : heap V) (cols : log -> list (str * nat)) (logs : list log) (p : str) : list V :=
  flat_map (fun l => match column h (cols l) p with Some c => c | None => [] end) logs.
(** The logs that could be read. *)
Definition found (logs : list (option log)) : list log := flat_map (fun o => match o with Some l => [l] | None => [] end) logs.
(** Logs read from different files: no list object is shared, and names are unique within a log. *)
Definition separate (n : nat) (logs : list log) : Prop :=
  NoDup (flat_map (fun l => map snd (l_steps l) ++ map snd (l_data l)) logs) /\
  Forall (fun l => Forall (fun a => a < n) (map snd (l_steps l) ++ map snd (l_data l)) /\ NoDup (map fst (l_steps l)) /\ NoDup (map fst (l_data l))) logs.
(** All logs have the step variables [ps] and the measurements [ms]; each has one value of each of them for every run. *)
Definition same_shape (h : heap V) (ps ms : list str) (logs : list log) : Prop :=
  Forall (fun l => exists n, (forall p, In p ps -> exists c, column h (l_steps l) p = Some c /\ length c = n) /\ (forall m, In m ms -> exists c, column h (l_data l) m = Some c /\ length c = n)) logs.
End Collect.

(** ** Exporting *)
Definition texts (c : cell) : list str := match c with One x => [x] | Many xs => xs end.
(** Every value of the column has the same number of texts. *)
Definition regular (n : nat) (c : list cell) : Prop := length c = n /\ exists w, 1 <= w /\ Forall (fun x => length (texts x) = w) c.
(** The titles of a column: with several texts per value they are numbered. *)
Definition headings (tc : str * list cell) : list str :=
  match snd tc with
  | x :: _ => if length (texts x) <=? 1 then [fst tc] else map (fun n => fst tc ++ s2l "_" ++ dec n) (seq 0 (length (texts x)))
  | [] => [fst tc]
  end.
Definition row_of (i : nat) (tc : str * list cell) : list str := match nth_error (snd tc) i with Some x => texts x | None => [] end.
(** The table: a line of titles, and a line for every run. *)
Definition table (prefix : option str) (n : nat) (cols : list (str * list cell)) : list (list str) :=
  (match prefix with Some _ => [s2l "user info"] | None => [] end ++ [s2l "step"] ++ flat_map headings cols) ::
  map (fun i => match prefix with Some p => [p] | None => [] end ++ [dec (i + 1)] ++ flat_map (row_of i) cols) (seq 0 n).
(** No text contains the separator or a line feed. *)
Definition clean_text (c : ascii) (x : str) : Prop := ~ In c x /\ ~ In "010"%char x.
Definition clean_col (c : ascii) (tc : str * list cell) : Prop := clean_text c (fst tc) /\ Forall (fun x => Forall (clean_text c) (texts x)) (snd tc).
