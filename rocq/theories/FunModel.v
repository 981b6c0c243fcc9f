(** Model of spicelib/utils/float_unit.py: the units (114-276), float_unit (279-373) and to_float (376-394).
    Simplifications: those of EngModel (exact rationals, no nan, the ohm sign is written "ohm"); the degree sign is character 176. *)
From Coq Require Import String Ascii List Bool Arith QArith Qabs.
From Verif Require Import PyStr StepsModel EngModel.
Import ListNotations.
Local Open Scope string_scope. Local Open Scope nat_scope. Local Open Scope list_scope.

(** float_unit.py:114-231: the classes of units; [NoUnit] is the class Unit itself. *)
Inductive unit_class := NoUnit | Ohm | Volt | Ampere | Farad | Henry | Watt | Coulombs | Joules | Celsius | Kelvin | Hertz | Seconds | Percent
  | Ppm | Degrees | Radians | VrmsU | ArmsU.
Definition DEG : str := ["176"%char].
(** the attribute "sign" *)
Definition sign (u : unit_class) : str :=
  match u with
  | NoUnit => [] | Ohm => s2l "ohm" | Volt => s2l "V" | Ampere => s2l "A" | Farad => s2l "F" | Henry => s2l "H" | Watt => s2l "W"
  | Coulombs => s2l "C" | Joules => s2l "J" | Celsius => DEG ++ s2l "C" | Kelvin => s2l "K" | Hertz => s2l "Hz" | Seconds => s2l "s"
  | Percent => s2l "%" | Ppm => s2l "ppm" | Degrees => DEG | Radians => s2l "rad" | VrmsU => s2l "Vrms" | ArmsU => s2l "Vrms"
  end.
(** the attribute "one_name" *)
Definition one_name (u : unit_class) : str :=
  s2l (match u with
  | NoUnit => "" | Ohm => "Ohm" | Volt => "Volt" | Ampere => "Ampere" | Farad => "Farad" | Henry => "Henry" | Watt => "Watt" | Coulombs => "Coulom"
  | Joules => "Joule" | Celsius => "Celsius" | Kelvin => "Kelvin" | Hertz => "Hertz" | Seconds => "second" | Percent => "percent" | Ppm => "ppm"
  | Degrees => "Degree" | Radians => "radians" | VrmsU => "Vrms" | ArmsU => "Vrms"
  end).
(** the attribute "many_name" *)
Definition many_name (u : unit_class) : str :=
  s2l (match u with
  | NoUnit => "" | Ohm => "Ohms" | Volt => "Volts" | Ampere => "Amperes" | Farad => "Farads" | Henry => "Henries" | Watt => "Watts" | Coulombs => "Coulombs"
  | Joules => "Joules" | Celsius => "Celsius" | Kelvin => "Kelvins" | Hertz => "Hertz" | Seconds => "seconds" | Percent => "percent" | Ppm => "ppm"
  | Degrees => "Degrees" | Radians => "radians" | VrmsU => "Vrms" | ArmsU => "Vrms"
  end).
(** float_unit.py:255-276 [_UNITS], in its order. *)
Definition units : list (str * unit_class) :=
  [(s2l "R", Ohm); (s2l "ohm", Ohm); (s2l "V", Volt); (s2l "A", Ampere); (s2l "F", Farad); (s2l "H", Henry); (s2l "W", Watt); (s2l "C", Coulombs);
   (s2l "J", Joules); (s2l "s", Seconds); (s2l "K", Kelvin); (s2l "Hz", Hertz); (s2l "%", Percent); (DEG ++ s2l "C", Celsius); (s2l "DEG", Degrees);
   (s2l "RAD", Radians); (s2l "ARMS", ArmsU); (s2l "VRMS", VrmsU)].
Definition lookup_unit (name : str) : unit_class := match dget name units with Some u => u | None => NoUnit end.

(** A float_unit: its number, the text it was made of (_original), its unit. *)
Record fu := Fu { f_val : Q; f_text : option str; f_unit : unit_class }.
(** float_unit.py:283-304 [__init__] and [__new__] with a text; None: ValueError or RuntimeError. *)
Definition of_text (s unit : str) : option fu :=
  match parse_value s with
  | None => None
  | Some (q, unit0) =>
      match unit0 with
      | [] => Some (Fu q (Some (strip s)) (lookup_unit unit))
      | _ => if negb (str_eqb unit []) && negb (str_eqb unit unit0) then None else Some (Fu q (Some (strip s)) (lookup_unit unit0))
      end
  end.
(** The same with a number. *)
Definition of_number (q : Q) (unit : str) : fu := Fu q None (lookup_unit unit).
(** float_unit.py:306-309 *)
Definition clean (x : fu) : fu := Fu (f_val x) None (f_unit x).
(** float_unit.py:311-319 [__str__] *)
Definition show (x : fu) : str :=
  match f_text x with
  | Some (c :: t) => c :: t
  | _ => format_eng (f_val x) ++ sign (f_unit x)
  end.
(** float_unit.py:331-336 [unit_long] *)
Definition unit_long (x : fu) : str := if Qltb 1 (Qabs (f_val x)) then many_name (f_unit x) else one_name (f_unit x).
(** float_unit.py:338-349, the setter of [unit]; None: KeyError. *)
Definition set_unit (name : str) (x : fu) : option fu :=
  match dget name units with
  | Some u => Some (Fu (f_val x) None u)
  | None => match find (fun e => str_eqb (one_name (snd e)) name || str_eqb (many_name (snd e)) name) units with
            | Some (_, u) => Some (Fu (f_val x) None u)
            | None => None
            end
  end.
(** float_unit.py:352-362 *)
Definition add (x y : fu) : fu := of_number (f_val x + f_val y) [].
Definition sub (x y : fu) : fu := of_number (f_val x - f_val y) [].
Definition mul (x y : fu) : fu := of_number (f_val x * f_val y) [].
Definition div (x y : fu) : option fu := if Qeq_bool (f_val y) 0 then None else Some (of_number (f_val x / f_val y) []).
(** float_unit.py:364-370 [__eq__] with a text, and with another number. *)
Definition eq_text (x : fu) (s : str) : bool := match of_text s [] with Some y => Qeq_bool (f_val x) (f_val y) | None => false end.
Definition eq_number (x : fu) (q : Q) : bool := Qeq_bool (f_val x) q.
(** float_unit.py:376-394 [to_float] of a text: a number, the text unchanged, or an exception (None). *)
Definition to_float (s : str) (accept_invalid : bool) : option (fu + str) :=
  match of_text s [] with Some x => Some (inl x) | None => if accept_invalid then Some (inr s) else None end.
