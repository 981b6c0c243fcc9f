(** Model of lines of schematics: spicelib/editor/base_schematic.py:148-204 ([Point], [Line]).
    Two readings of the arithmetic: exact ([touches], coordinates in Q), and that of Python for integer coordinates below 2^53 ([touchesF]:
    "/" of two such integers is the correctly rounded quotient, and "*", "-" and "+" with a float are IEEE binary64 operations,
    which Coq.Floats.SpecFloat computes). *)
From Coq Require Import QArith ZArith Bool Floats.SpecFloat.
Local Open Scope Q_scope.

(** base_schematic.py:148-152 *)
Record point := Pt { px : Q; py : Q }.
(** base_schematic.py:155-166, without style and net *)
Record line := Ln { v1 : point; v2 : point }.
Definition within (a b x : Q) : bool :=                      (* min(a, b) <= x <= max(a, b) *)
  (Qle_bool (if Qle_bool a b then a else b) x && Qle_bool x (if Qle_bool a b then b else a))%bool.
(** base_schematic.py:168-192 [Line.touches] *)
Definition touches (l : line) (p : point) : bool :=
  let a := v1 l in let b := v2 l in
  if Qeq_bool (px a) (px b) then (Qeq_bool (px a) (px p) && within (py a) (py b) (py p))%bool
  else if Qeq_bool (py a) (py b) then (Qeq_bool (py a) (py p) && within (px a) (px b) (px p))%bool
  else let m := (py b - py a) / (px b - px a) in
       let c := py a - m * px a in
       let y := m * px p + c in
       (Qeq_bool y (py p) && within (px a) (px b) (px p))%bool.
(** base_schematic.py:194-204 [Line.intercepts] *)
Definition intercepts (l m : line) : bool :=
  if (touches l (v1 m) || touches l (v2 m))%bool then true
  else if (touches m (v1 l) || touches m (v2 l))%bool then true else false.

(** ** With rounding *)
Local Open Scope Z_scope.
Definition flt : Set := spec_float.
Definition of_int (n : Z) : flt := binary_normalize 53 1024 n 0 false.
Record pointF := PtF { fx : Z; fy : Z }.
Record lineF := LnF { w1 : pointF; w2 : pointF }.
Definition withinF (a b x : Z) : bool := ((Z.min a b <=? x) && (x <=? Z.max a b))%bool.
(** base_schematic.py:168-192, in binary64 *)
Definition touchesF (l : lineF) (p : pointF) : bool :=
  let a := w1 l in let b := w2 l in
  if fx a =? fx b then ((fx a =? fx p) && withinF (fy a) (fy b) (fy p))%bool
  else if fy a =? fy b then ((fy a =? fy p) && withinF (fx a) (fx b) (fx p))%bool
  else let m := SFdiv 53 1024 (of_int (fy b - fy a)) (of_int (fx b - fx a)) in
       let c := SFsub 53 1024 (of_int (fy a)) (SFmul 53 1024 m (of_int (fx a))) in
       let y := SFadd 53 1024 (SFmul 53 1024 m (of_int (fx p))) c in
       (SFeqb y (of_int (fy p)) && withinF (fx a) (fx b) (fx p))%bool.
