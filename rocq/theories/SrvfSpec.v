(** What the clients and the simulators did, read off the history; which names are those of run files. *)
From Coq Require Import String Ascii List Bool Arith ZArith.
From Verif Require Import PyStr SimModel SrvfModel ClnSpec.
Import ListNotations.
Local Open Scope string_scope. Local Open Scope nat_scope. Local Open Scope list_scope.

(** The names of the files of run [n]: anything, "_", the number, and one of these extensions. *)
Definition run_exts : list str := netlists ++ map s2l [".log"; ".fail"; ".raw"; ".qraw"; ".exe.log"; ".log.raw"; ".op.raw"; ".db"; ".zip"].
Definition file_of (out b : str) (n : nat) (e : str) : path := Path out ((b ++ "_"%char :: dec n) ++ e).
Definition run_file (out : str) (p : path) (n : nat) : Prop := exists b e, p = file_of out b n e /\ In e run_exts.
(** The last text the simulator of run [n] wrote to the file with extension [e]; the return code it ended with. *)
Definition wrote (h : list vevent) (n : nat) (e : str) : option str :=
  fold_left (fun acc x => match x with VWrite n' e' t => if (n' =? n) && str_eqb e' e then Some t else acc | _ => acc end) h None.
Definition returned (h : list vevent) (n : nat) : option Z :=
  fold_left (fun acc x => match x with VEnd n' r => if n' =? n then Some r else acc | _ => acc end) h None.
(** The text of a file in the archive a client sent (the last one of that name). *)
Definition sent (files : list (str * str)) (f : str) : option str :=
  fold_left (fun acc x => if str_eqb (fst x) f then Some (snd x) else acc) files None.
(** What should be delivered for run [n] of circuit [b]: waveforms and log; only the log, renamed, if the simulation failed. *)
Definition part (out b : str) (n : nat) (e : str) (t : option str) : list (path * content) := match t with Some t => [(file_of out b n e, Plain t)] | None => [] end.
Definition delivery (m : sim) (out b : str) (n : nat) (h : list vevent) (ret : Z) : list (path * content) :=
  if Z.eqb ret 0 then part out b n (raw_name m) (wrote h n (raw_name m)) ++ part out b n (s2l ".log") (wrote h n (s2l ".log"))
  else part out b n (s2l ".fail") (wrote h n (s2l ".log")).
(** The run is going on. *)
Definition on_run (v : vserver) (n : nat) (t : job) : Prop := In t (v_jobs v) /\ j_no t = n /\ j_end t = None.
(** What may happen: sources sent do not have names of run files; simulators write and end while they run, and write only their products; the
    server is not stopped. *)
Definition allowed (m : sim) (out : str) (v : vserver) (e : vevent) : Prop :=
  match e with
  | VRun _ circuit files _ =>
      (exists stem ext, circuit = stem ++ ext /\ stem <> [] /\ In ext (s2l ".qsch" :: netlists)) /\
      (forall f n, In f (map fst files) -> ~ run_file out (Path out f) n)
  | VWrite n ext _ => exists t stem suffix, on_run v n t /\ j_net t = Path out (stem ++ suffix) /\ stem <> [] /\ In suffix netlists /\ In ext (products m suffix)
  | VEnd n _ => exists t, on_run v n t
  | VStop => False
  | _ => True
  end.
Inductive reached (m : sim) (out : str) (d0 : vdisk) : list vevent -> vserver -> Prop :=
| RStart : reached m out d0 [] (started_on d0)
| RStep : forall h v e, reached m out d0 h v -> allowed m out v e -> reached m out d0 (h ++ [e]) (vstep m out v e).
