(** Turning a pin about the origin of its symbol, in whole numbers. *)
From Coq Require Import String List ZArith Bool.
Import ListNotations. Local Open Scope string_scope. Local Open Scope list_scope.
From Verif Require Import PyStr.
Local Open Scope Z_scope.

(** A quarter turn anti-clockwise (QSPICE's Y axis points upwards). *)
Definition quarter (q : Z * Z) : Z * Z := (- snd q, fst q).
(** Half a quarter turn; the symbol is drawn larger by the square root of 2, so that its pins stay on the grid. *)
Definition diagonal (q : Z * Z) : Z * Z := (fst q - snd q, fst q + snd q).
Definition turn8 (k : Z) (q : Z * Z) : Z * Z :=
  let q1 := if Z.odd k then diagonal q else q in
  if k <? 2 then q1 else if k <? 4 then quarter q1 else if k <? 6 then quarter (quarter q1) else quarter (quarter (quarter q1)).
Definition mirror (q : Z * Z) : Z * Z := (- fst q, snd q).
(** Orientations: 0 to 7 in steps of 45 degrees; 8 to 15 the same, then mirrored. *)
Definition turn (o : Z) (q : Z * Z) : Z * Z := if o <? 8 then turn8 o q else mirror (turn8 (o - 8) q).
Definition exact_place (p : Z * Z) (o : Z) (q : Z * Z) : option (Z * Z) :=
  if (0 <=? o) && (o <=? 15) then Some (fst p + fst (turn o q), snd p + snd (turn o q)) else None.
(** QSPICE's grid for pins; symbols up to 100000 from their origin. *)
Definition on_hundreds (q : Z * Z) : Prop := (fst q mod 100 = 0 /\ snd q mod 100 = 0) /\ Z.abs (fst q) <= 100000 /\ Z.abs (snd q) <= 100000.

(** ** LTspice's own turns (its Y axis points downwards): R by quarter turns, M the same and then mirrored *)
Definition lt_turns : list (str * (Z * Z -> Z * Z)) :=
  [(s2l "R0", fun q => q); (s2l "R90", fun q => (- snd q, fst q)); (s2l "R180", fun q => (- fst q, - snd q)); (s2l "R270", fun q => (snd q, - fst q));
   (s2l "M0", fun q => (- fst q, snd q)); (s2l "M90", fun q => (snd q, fst q)); (s2l "M180", fun q => (fst q, - snd q)); (s2l "M270", fun q => (- snd q, - fst q))].
(** Where LTspice has the pin at [q] of a symbol placed at [p] and turned by [rot]. *)
Definition lt_place (p : Z * Z) (rot : str) (q : Z * Z) : Z * Z :=
  match find (fun e => str_eqb (fst e) rot) lt_turns with
  | Some (_, g) => (fst p + fst (g q), snd p + snd (g q))
  | None => p
  end.
(** LTspice's grid for pins. *)
Definition on_sixteens (q : Z * Z) : Prop := (fst q mod 16 = 0 /\ snd q mod 16 = 0) /\ Z.abs (fst q) <= 16000 /\ Z.abs (snd q) <= 16000.
