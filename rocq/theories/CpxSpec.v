(** Numerals, and what stands in LTspice's log files for complex values. *)
From Coq Require Import String Ascii List Bool Arith ZArith QArith Qreals Reals.
From Verif Require Import PyStr EngModel.
Import ListNotations.
Local Open Scope string_scope. Local Open Scope nat_scope. Local Open Scope list_scope.

(** [neg] sign, digits [a], point and digits [b] (if any), exponent (sign, digits) if any, e.g. -3.0103 or 1.2e-05. *)
Record numeral := { neg : bool; whole : str; frac : str; expo : option (bool * str) }.
Definition good_numeral (x : numeral) : Prop := whole x <> [] /\ forallb is_digit (whole x) = true /\ forallb is_digit (frac x) = true /\
  match expo x with Some (_, e) => e <> [] /\ forallb is_digit e = true | None => True end.
Definition show (x : numeral) : str :=
  (if neg x then ["-"%char] else []) ++ whole x ++ (match frac x with [] => [] | _ => "."%char :: frac x end) ++
  (match expo x with Some (n, e) => "e"%char :: (if n then "-"%char else "+"%char) :: e | None => [] end).
(** Its value: the digits as a whole number, shifted by the digits behind the point and the exponent. *)
Definition value_of (x : numeral) : R :=
  Q2R ((if neg x then (- (inject_Z (number (whole x ++ frac x)) * Qpower 10 (- Z.of_nat (length (frac x)))))%Q else (inject_Z (number (whole x ++ frac x)) * Qpower 10 (- Z.of_nat (length (frac x))))%Q) *
       (match expo x with Some (n, e) => Qpower 10 (if n then - number e else number e) | None => 1 end))%Q.
Definition no_integer (x : numeral) : Prop := frac x <> [] \/ expo x <> None.
