(** What quantities with units promise. *)
From Coq Require Import String Ascii List Bool Arith QArith Qabs.
From Verif Require Import PyStr FunModel.
Import ListNotations.
Local Open Scope string_scope. Local Open Scope nat_scope. Local Open Scope list_scope.

(** The units whose sign can be read back. *)
Definition readable_units : list unit_class := [NoUnit; Ohm; Volt; Ampere; Farad; Henry; Watt; Coulombs; Joules; Celsius; Hertz; Seconds].
