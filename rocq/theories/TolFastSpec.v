(** What the fast worst case search promises. *)
From Coq Require Import String Ascii List Bool Arith ZArith NArith QArith.
From Verif Require Import TolModel TolFastModel TolSpec.
Import ListNotations.
Local Open Scope string_scope. Local Open Scope nat_scope. Local Open Scope list_scope.

(** The value of an element at nominal, maximum or minimum. *)
Definition value_at (t : wct) (v : value) (d : dev) : option value :=
  match t with Nom => Some v | Max => extreme true v d | Min => extreme false v d end.
(** Netlist [e] is [n] with element k of [order] set as [nth k s] says, and nothing else changed. *)
Definition at_setting (a : ana) (n : ed) (order : list (kind * string)) (s : list wct) (e : ed) : Prop :=
  (forall k r q d, nth_error order k = Some (KComp, r) -> comp_dev a n r q d -> aget r (comps e) = value_at (nth k s Nom) (VNum q) d) /\
  (forall k p v d, nth_error order k = Some (KPar, p) -> par_dev a n p d -> aget p (pars n) = Some v -> aget p (pars e) = value_at (nth k s Nom) v d) /\
  (forall r, ~ In (KComp, r) order -> aget r (comps e) = aget r (comps n)) /\
  (forall p, ~ In (KPar, p) order -> aget p (pars e) = aget p (pars n)) /\
  dirs e = dirs n.
(** The simulator gives the measurement [m s] at setting [s]: it depends on the values in the netlist only. *)
Definition measured_by (a : ana) (n : ed) (order : list (kind * string)) (f : ed -> Q) (m : list wct -> Q) : Prop :=
  forall s e, length s = length order -> at_setting a n order s e -> f e = m s.

Fixpoint put_at {A} (k : nat) (x : A) (l : list A) : list A :=
  match l, k with [], _ => [] | _ :: r, O => x :: r | y :: r, S j => y :: put_at j x r end.
(** Element k moves the measurement always up, or always down, whatever the setting of the others. *)
Definition rising (n : nat) (m : list wct -> Q) (k : nat) : Prop :=
  forall s : list wct, length s = n -> (m (put_at k Min s) < m (put_at k Nom s) /\ m (put_at k Nom s) < m (put_at k Max s))%Q.
Definition falling (n : nat) (m : list wct -> Q) (k : nat) : Prop :=
  forall s : list wct, length s = n -> (m (put_at k Max s) < m (put_at k Nom s) /\ m (put_at k Nom s) < m (put_at k Min s))%Q.
Definition monotone (n : nat) (m : list wct -> Q) : Prop := forall k, k < n -> rising n m k \/ falling n m k.

(** A corner: every element at one of its extremes. *)
Definition corner (c : list bool) : list wct := map (fun up : bool => if up then Max else Min) c.
Definition flip (k : nat) (c : list bool) : list bool := put_at k (negb (nth k c false)) c.
(** The reported values of the elements are those of corner [c]. *)
Definition values_of (a : ana) (n : ed) (order : list (kind * string)) (c : list bool) (vals : list (string * value)) : Prop :=
  (forall k r q d, nth_error order k = Some (KComp, r) -> comp_dev a n r q d -> aget r vals = extreme (nth k c false) (VNum q) d) /\
  (forall k p v d, nth_error order k = Some (KPar, p) -> par_dev a n p d -> aget p (pars n) = Some v -> aget p vals = extreme (nth k c false) v d) /\
  map fst vals = map snd order.
