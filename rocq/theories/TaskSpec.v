(** Vocabulary for C13, C14, C55, C56. *)
From Coq Require Import String Ascii List Bool Arith ZArith Permutation.
From Verif Require Import PyStr RunnerModel TaskModel.
Import ListNotations.

Definition code_of {V} (w : world V) : Z := match w_sim w with SimReturns z => z | SimRaises => (-2)%Z end.

(** The simulation ended well: return code 0 and both result files are there. *)
Definition ended_well {V} (c : config) (w : world V) : Prop :=
  code_of w = 0%Z /\ w_exists w (with_suffix (c_netlist c) (c_raw_ext c)) = true /\
  w_exists w (with_suffix (c_netlist c) (s2l ".log")) = true.

(** The callback has to be called. *)
Definition due {V} (c : config) (w : world V) : Prop :=
  c_callback c = true /\ (c_callback_on_error c = true \/ ended_well c w).

Definition value_of {V} (o : cb_outcome V) : option V :=
  match o with CbReturns v | CbProcess v => v | CbRaises => None end.

(** A thread that, from turn [n] on, has ended with return code [z]. *)
Definition ends_with (obs : nat -> bool * bool * Z) (n : nat) (z : Z) : Prop :=
  forall i, n <= i -> obs i = (false, true, z).

(** Clock notation: hours, minutes, seconds and milliseconds in decimal digits; leading hours (and minutes) may be
    left out when they are zero. *)
Definition clock (t : str) (h m s f : nat) : Prop :=
  exists th tm ts tf, undec ts = Some s /\ undec tf = Some f /\
    ((h = 0 /\ m = 0 /\ t = ts ++ s2l "." ++ tf ++ s2l " secs") \/
     (h = 0 /\ undec tm = Some m /\ t = tm ++ s2l ":" ++ ts ++ s2l "." ++ tf) \/
     (undec th = Some h /\ undec tm = Some m /\ t = th ++ s2l ":" ++ tm ++ s2l ":" ++ ts ++ s2l "." ++ tf)).
