(** Model of spicelib/utils/sweep_iterators.py.  Simplification: Python floats are exact rationals
    (type Q); a raised [AssertionError] is [None]. *)
From Coq Require Import List QArith Bool ZArith.
Import ListNotations.
Local Open Scope Q_scope.

Definition Qltb (a b : Q) : bool := negb (Qle_bool b a).

(** State of a [sweep] object after construction: start, stop, step. *)
Record sweep_obj := Sweep { sw_start : Q; sw_stop : Q; sw_step : Q }.

(** sweep_iterators.py:62-71 [sweep.__init__] with [stop] given. *)
Definition sweep_init (start stop step : Q) : option sweep_obj :=
  if Qeq_bool step 0 then None
  else if Qltb step 0 && Qltb start stop then Some (Sweep stop start step)
  else if Qltb 0 step && Qltb stop start then Some (Sweep start stop (- step))
  else Some (Sweep start stop step).

(** sweep_iterators.py:32-36 with [stop is None]: from 0 to [start]. *)
Definition sweep_init1 (start step : Q) : option sweep_obj := sweep_init 0 start step.

(** sweep_iterators.py:79-86 [sweep.__next__] called with iteration counter [n]. *)
Definition sweep_next (s : sweep_obj) (n : nat) : option Q :=
  let val := sw_start s + inject_Z (Z.of_nat n) * sw_step s in
  if (Qltb 0 (sw_step s) && Qle_bool val (sw_stop s))
     || (Qltb (sw_step s) 0 && Qle_bool (sw_stop s) val)
  then Some val else None.

(** Python iteration protocol ([list(it)]): call [next] until it stops.  The counter is the state
    of [sweep] and [sweep_log_n] objects.  Out of fuel is [None], which no finished run returns. *)
Fixpoint collect (fuel : nat) (next : nat -> option Q) (n : nat) : option (list Q) :=
  match fuel with
  | O => None
  | S f => match next n with
           | None => Some []
           | Some v => option_map (cons v) (collect f next (S n))
           end
  end.

(** sweep_iterators.py:88-100 [sweep_n]; [N = 1] is a ZeroDivisionError ([None]). *)
Definition sweep_n_init (start stop : Q) (N : nat) : option sweep_obj :=
  match N with
  | 1%nat => None
  | _ => sweep_init start stop ((stop - start) / (inject_Z (Z.of_nat N - 1)))
  end.

(** sweep_iterators.py:115-126 [sweep_log.__init__] with [stop] given. *)
Definition sweep_log_init (start stop step : Q) : option sweep_obj :=
  if Qeq_bool step 1 || Qle_bool step 0 then None
  else if Qltb start stop && Qltb step 1 then Some (Sweep stop start step)
  else if Qltb stop start && Qltb 1 step then Some (Sweep start stop (1 / step))
  else Some (Sweep start stop step).

(** sweep_iterators.py:133-141 [sweep_log.__next__]; the mutable state is [val]. *)
Definition sweep_log_next (s : sweep_obj) (val : Q) : option Q :=
  if (Qltb (sw_start s) (sw_stop s) && Qle_bool val (sw_stop s))
     || (Qltb (sw_stop s) (sw_start s) && Qle_bool (sw_stop s) val)
  then Some val else None.

Fixpoint sweep_log_collect (fuel : nat) (s : sweep_obj) (val : Q) : option (list Q) :=
  match fuel with
  | O => None
  | S f => match sweep_log_next s val with
           | None => Some []
           | Some v => option_map (cons v) (sweep_log_collect f s (val * sw_step s))
           end
  end.

(** sweep_iterators.py:156-174 [sweep_log_n].  The common ratio computed by math.exp/math.log is an
    argument here: floating point transcendental functions are not modelled. *)
Definition sweep_log_n_next (start ratio : Q) (number : nat) (n : nat) : option Q :=
  if Nat.ltb n number then Some (start * Qpower ratio (Z.of_nat n)) else None.
