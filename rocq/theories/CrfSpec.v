(** Vocabulary for C272-C277. *)
From Coq Require Import String Ascii List Bool Arith QArith.
From Verif Require Import PyStr MrgModel MrgSpec CrfModel.
Import ListNotations.
Local Open Scope string_scope. Local Open Scope nat_scope. Local Open Scope list_scope.

(** The runs that have a RAW file, with what is in it. *)
Definition with_file (tasks : list rtask) : list (nat * source) :=
  flat_map (fun t => match k_raw t with Some s => [(k_runno t, s)] | None => [] end) tasks.

(** A RAW file that has the traces [save] over an axis of more than [n] points that are at least 1e-11 apart. *)
Definition usable (n : nat) (save : list str) (s : source) : Prop :=
  spaced default_error (st_wave (s_ax s) 0) /\ n < length (st_wave (s_ax s) 0) /\
  Forall (fun x => exists t, has_trace s 0 x t) save.

(** The kind of the axis agrees with its name. *)
Definition proper_axis (s : source) : Prop :=
  (s_ax_name s = s2l "time" -> st_what (s_ax s) = s2l "time") /\
  (s_ax_name s = s2l "frequency" -> st_what (s_ax s) = s2l "frequency").

(** One trace of one run. *)
Definition wanted_traces (runs : list (nat * source)) (save : list str) : list (nat * source * str) :=
  flat_map (fun rs => map (fun x => (rs, x)) save) runs.

(** The trace [t'] of the new file, over the axis [ts], is the trace [x] of the run, tagged with the run number. *)
Definition is_trace_of (ts : list Q) (q : nat * source * str) (t' : trc) : Prop :=
  let '(runno, s, x) := q in
  exists t, has_trace s 0 x t /\ t_name t' = rename (AddTag (dec runno)) x /\ t_num t' = st_num t /\
    (ordinary (t_name t') -> t_what t' = st_what t) /\
    resampled (st_wave (s_ax s) 0) (st_wave t 0) ts (t_data t').

(** Names that take a tag without losing anything: V(x), I(x) as a whole, or names that do not begin like that. *)
Definition plain_name (x : str) : Prop :=
  (exists k body, In k (s2l "IViv") /\ body <> [] /\ ~ In ")"%char body /\ x = [k] ++ s2l "(" ++ body ++ s2l ")") \/
  (forall k body rest, x = [k] ++ s2l "(" ++ body ++ s2l ")" ++ rest -> In k (s2l "IViv") -> body = [] \/ In ")"%char body).
