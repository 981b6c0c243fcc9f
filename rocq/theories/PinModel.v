(** Model of where the pins of a QSPICE component are (spicelib/editor/qsch_editor.py:838-856 [_find_pin_position]).
    Simplification: the floating-point numbers of the program are taken as real numbers, so that the results differ from the program's only
    where a coordinate is next to the middle between two multiples of 100; None: ValueError. *)
From Coq Require Import ZArith Bool Reals.
Local Open Scope R_scope.

(** math.atan2 (line 846, 851) *)
Definition atan2 (y x : R) : R :=
  if Rlt_dec 0 x then atan (y / x)
  else if Rlt_dec x 0 then (if Rle_dec 0 y then atan (y / x) + PI else atan (y / x) - PI)
  else if Rlt_dec 0 y then PI / 2 else if Rlt_dec y 0 then - (PI / 2) else 0.
(** math.radians *)
Definition radians (d : R) : R := d * PI / 180.
(** round(v, -2): the nearest multiple of 100, of two the one with the even hundreds. *)
Definition round100 (v : R) : Z :=
  let n := (up (v / 100) - 1)%Z in
  let d := v / 100 - IZR n in
  (100 * (if Rlt_dec d (1 / 2) then n else if Rlt_dec (1 / 2) d then n + 1 else if Z.even n then n else n + 1))%Z.
(** qsch_editor.py:841-844 *)
Definition hypot (q : Z * Z) (o : Z) : R :=
  let h := sqrt (IZR (fst q) ^ 2 + IZR (snd q) ^ 2) in if Z.odd o then h * (1414 / 1000) else h.
(** qsch_editor.py:838-856 *)
Definition pin_place (p : Z * Z) (o : Z) (q : Z * Z) : option (Z * Z) :=
  let hyp := hypot q o in
  if ((0 <=? o) && (o <=? 7))%Z
  then let theta := atan2 (IZR (snd q)) (IZR (fst q)) + radians (IZR (o * 45)) in
       Some (fst p + round100 (hyp * cos theta), snd p + round100 (hyp * sin theta))%Z
  else if ((8 <=? o) && (o <=? 15))%Z
  then let theta := atan2 (IZR (snd q)) (IZR (fst q)) + radians (IZR ((o - 8) * 45)) in
       Some (fst p - round100 (hyp * cos theta), snd p + round100 (hyp * sin theta))%Z
  else None.
