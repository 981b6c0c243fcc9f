(** Specification for engineering notation. *)
From Coq Require Import String Ascii List Bool Arith ZArith QArith Qabs.
From Verif Require Import PyStr.
Local Open Scope Q_scope.

(** A number that can be written with at most six significant decimal digits. *)
Definition six_digits (v : Q) : Prop :=
  exists n e : Z, (Z.abs n < 1000000)%Z /\ v == inject_Z n * Qpower 10 e.

(** [r] is [v] rounded to six significant digits or better. *)
Definition close (r v : Q) : Prop := Qabs (r - v) <= (5 # 1000000) * Qabs v.

(** The same text, except that letters other than M and F may be written in the other case. *)
Definition other_case (c c' : ascii) : Prop :=
  c = c' \/ (upper_c c = upper_c c' /\ upper_c c <> "M"%char /\ upper_c c <> "F"%char).
Definition same_but_case (s s' : str) : Prop := Forall2 other_case s s'.
(** how often the letter E, in either case, occurs *)
Definition count_e (s : str) : nat := length (filter (fun c => aeqb (upper_c c) "E") s).

(** Scaled numbers: "a.b" in decimal, and the scale factors (powers of ten) with the letters that denote them; M and m are left out
    here (see C39): MEG in any case but with a capital M. *)
Definition decimal (a b : str) : Q :=
  inject_Z (fold_left (fun n c => 10 * n + (Z.of_nat (code c) - 48))%Z (app a b) 0%Z) * Qpower 10 (- Z.of_nat (length b)).
Definition point (b : str) : str := match b with nil => nil | cons _ _ => cons "."%char b end.
Definition scales : list (string * Z) :=
  (("f", -15) :: ("p", -12) :: ("P", -12) :: ("n", -9) :: ("N", -9) :: ("u", -6) :: ("U", -6) :: ("k", 3) :: ("K", 3) ::
   ("MEG", 6) :: ("Meg", 6) :: ("g", 9) :: ("G", 9) :: ("t", 12) :: ("T", 12) :: ("%", -2) :: nil)%string%Z.
(** A unit: it begins with no digit and no blank, and does not end in a blank. *)
Definition unit_ok (u : str) : Prop :=
  match u with nil => True | cons c _ => is_digit c = false /\ is_space c = false end /\ match rev u with nil => True | cons c _ => is_space c = false end.
Definition minus (neg : bool) : str := if neg then cons "-"%char nil else nil.
