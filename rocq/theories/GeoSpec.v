(** Points of segments. *)
From Coq Require Import QArith ZArith.
From Verif Require Import GeoModel.
Local Open Scope Q_scope.
(** [p] lies between [a] and [b] on the straight line through them. *)
Definition on_segment (a b p : point) : Prop :=
  exists t, 0 <= t <= 1 /\ px p == px a + t * (px b - px a) /\ py p == py a + t * (py b - py a).
Definition on_line (l : line) (p : point) : Prop := on_segment (v1 l) (v2 l) p.
(** For integer coordinates: the point is in the box of the segment and the triangle of the three has no area. *)
Definition on_segmentZ (a b p : pointF) : Prop :=
  ((fx b - fx a) * (fy p - fy a) = (fy b - fy a) * (fx p - fx a))%Z /\ (Z.min (fx a) (fx b) <= fx p <= Z.max (fx a) (fx b))%Z /\ (Z.min (fy a) (fy b) <= fy p <= Z.max (fy a) (fy b))%Z.
