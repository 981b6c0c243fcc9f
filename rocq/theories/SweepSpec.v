(** Specification of sweeps: the points of an arithmetic / geometric progression lying on the right
    side of a limit. *)
From Coq Require Import List QArith ZArith.
Import ListNotations.
Local Open Scope Q_scope.

Definition point (origin d : Q) (k : nat) : Q := origin + inject_Z (Z.of_nat k) * d.

(** [x] has not passed [limit] when walking in the direction of [d]. *)
Definition not_past (limit d x : Q) : Prop := (0 < d /\ x <= limit) \/ (d < 0 /\ limit <= x).

(** [l] is the list of all the points origin, origin+d, ... up to the limit, in this order. *)
Definition is_grid (origin limit d : Q) (l : list Q) : Prop :=
  exists m, l = map (point origin d) (seq 0 m)
       /\ (forall k, (k < m)%nat -> not_past limit d (point origin d k))
       /\ (forall k, (m <= k)%nat -> ~ not_past limit d (point origin d k)).

Definition gpoint (origin f : Q) (k : nat) : Q := origin * Qpower f (Z.of_nat k).
Definition g_not_past (origin limit x : Q) : Prop :=
  (origin < limit /\ x <= limit) \/ (limit < origin /\ limit <= x).

(** Same for a geometric progression, up to equality of rationals. *)
Definition is_geometric_grid (origin limit f : Q) (l : list Q) : Prop :=
  (forall k x, nth_error l k = Some x -> x == gpoint origin f k /\ g_not_past origin limit x)
  /\ (forall k, (length l <= k)%nat -> ~ g_not_past origin limit (gpoint origin f k)).
