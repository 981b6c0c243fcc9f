(** Which files belong to a run. *)
From Coq Require Import String Ascii List Bool Arith ZArith QArith.
From Verif Require Import PyStr SimModel ClnModel.
Import ListNotations.
Local Open Scope string_scope. Local Open Scope nat_scope. Local Open Scope list_scope.

(** The extensions of netlists; schematics of QSPICE are saved as netlists. *)
Definition netlists : list str := map s2l [".net"; ".asc"; ".cir"; ".sp"; ".ckt"].
Definition raw_name (m : sim) : str := match m with Qspice => s2l ".qraw" | _ => s2l ".raw" end.
(** What a simulator leaves beside the netlist: log, waveforms and its console messages; LTspice's other files for .net and .asc, and the
    netlist it makes of a schematic. *)
Definition products (m : sim) (suffix : str) : list str :=
  [s2l ".log"; raw_name m; s2l ".exe.log"] ++
  (if str_eqb suffix (s2l ".net") || str_eqb suffix (s2l ".asc") then map s2l [".log.raw"; ".op.raw"; ".db"] else []) ++
  (if str_eqb suffix (s2l ".asc") then [s2l ".net"] else []).
(** The netlist of the run, the log of a failed run, and the products. *)
Definition run_files (m : sim) (suffix : str) : list str := suffix :: s2l ".fail" :: products m suffix.
Definition belongs (m : sim) (net p : path) : Prop := exists d stem suffix e,
  net = Path d (stem ++ suffix) /\ stem <> [] /\ In suffix netlists /\ p = Path d (stem ++ e) /\ In e (run_files m suffix).
Definition source_name (s : source) : str := match s with FromFile p => name p | FromEditor p _ => name p end.
(** What may happen: runs that are named by the runner and find a place in time; simulators that write no other files. *)
Definition usual (m : sim) (s : cstate) (e : cevent) : Prop :=
  match e with
  | ERun given src slot => given = None /\ slot = true /\ exists stem ext, source_name src = stem ++ ext /\ stem <> [] /\ In ext (s2l ".qsch" :: netlists)
  | EWrite no ext _ => forall t, In t (s_active s) -> k_no t = no -> exists d stem suffix, k_net t = Path d (stem ++ suffix) /\ stem <> [] /\ In suffix netlists /\ In ext (products m suffix)
  | _ => True
  end.
Inductive goes (m : sim) (out : option str) (cwd : str) (d0 : disk) : cstate -> Prop :=
| GStart : goes m out cwd d0 (new_state d0)
| GStep : forall s e, goes m out cwd d0 s -> usual m s e -> goes m out cwd d0 (cstep m out cwd s e).
Definition known (s : cstate) : list ctask := s_active s ++ s_done s.
Definition running (s : cstate) (t : ctask) : Prop := In t (s_active s) /\ k_end t = None.
Definition failed (t : ctask) : Prop := exists e, k_end t = Some e /\ e_ret e <> 0%Z.
(** When a started task is over its time: its own time limit counts, otherwise the runner's. *)
Inductive limit (runner : option Q) : option Q * option Q -> Q -> Prop :=
| LOwn : forall start own, limit runner (Some start, Some own) (start + own)%Q
| LRunner : forall start r, runner = Some r -> limit runner (Some start, None) (start + r)%Q.
