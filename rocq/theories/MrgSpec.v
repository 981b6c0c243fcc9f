(** Vocabulary for C198-C208. *)
From Coq Require Import String Ascii List Bool Arith QArith Sorted.
From Verif Require Import PyStr StepsSpec MrgModel.
Import ListNotations.
Local Open Scope nat_scope. Local Open Scope list_scope.

(** An axis whose points increase; one whose points are at least [err] apart. *)
Definition increasing (l : list Q) : Prop := StronglySorted Qlt l.
Definition spaced (err : Q) (l : list Q) : Prop := StronglySorted (fun x y => (x + err <= y)%Q) l.

(** The samples [ys] are those of the trace [tr] over [axis], interpolated linearly at the points [ts]; nothing is said about the
    points before the first one of [axis]. *)
Definition resampled (axis tr ts ys : list Q) : Prop :=
  length ys = length ts /\
  forall i t y x0, nth_error ts i = Some t -> nth_error ys i = Some y -> hd_error axis = Some x0 -> (x0 <= t)%Q ->
    interpolates t y axis tr.

(** The file [s] has the trace [n], with as many samples in step [k] as the axis. *)
Definition has_trace (s : source) (k : nat) (n : str) (t : strace) : Prop :=
  StepsModel.dget n (s_traces s) = Some t /\ length (st_wave t k) = length (st_wave (s_ax s) k).

(** Names that decide on the kind of a trace. *)
Definition ordinary (n : str) : Prop := n <> s2l "time" /\ n <> s2l "frequency".

(** The calls of a list with the name lists taken apart: source, name there, keywords that rename. *)
Definition wanted (cs : list call) : list (nat * str * renaming) :=
  flat_map (fun c => map (fun n => (c_src c, n, c_ren c)) (c_names c)) cs.

(** The number type a file declares: the first of the flags "real" and "complex", "real" if there is none. *)
Definition number_type (flags : list str) (ty : str) : Prop :=
  (exists p q, flags = p ++ ty :: q /\ (ty = s2l "real" \/ ty = s2l "complex") /\ ~ In (s2l "real") p /\ ~ In (s2l "complex") p) \/
  (ty = s2l "real" /\ ~ In (s2l "real") flags /\ ~ In (s2l "complex") flags).

(** The file can be merged into a writer of number type [ty] whose axis is of kind [what]. *)
Definition same_kind (s : source) (ty what : str) : Prop := number_type (s_flags s) ty /\ st_what (s_ax s) = what.

(** A call that asks for alignment with a file of well separated points, more than [n] of them, and names traces the file has. *)
Definition aligned (srcs : nat -> source) (n : nat) (ty what : str) (c : call) : Prop :=
  c_align c = true /\ (0 < c_err c)%Q /\ c_step c = 0 /\ (c_minstep c == 0)%Q /\
  same_kind (srcs (c_src c)) ty what /\
  spaced (c_err c) (st_wave (s_ax (srcs (c_src c))) 0) /\ n < length (st_wave (s_ax (srcs (c_src c))) 0) /\
  Forall (fun x => exists t, has_trace (srcs (c_src c)) 0 x t) (c_names c).
