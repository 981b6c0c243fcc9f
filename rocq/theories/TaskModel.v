(** Model of RunTask.run / get_results / wait_results (spicelib/sim/run_task.py) and of the argument
    checks done by SimRunner.run before a task exists (spicelib/sim/sim_runner.py). *)
From Coq Require Import String Ascii List Bool Arith ZArith.
From Verif Require Import PyStr RunnerModel.
Import ListNotations.

(** pathlib PurePath.with_suffix on a file name. *)
Definition with_suffix (name ext : str) : str := fst (split_suffix name) ++ ext.

Section Task.
Variable V : Type.   (* values returned by user callbacks; None is Python's None *)

(** What the simulator call does: return a code or raise (run_task.py:124-132). *)
Inductive sim_outcome := SimReturns (z : Z) | SimRaises.
(** What the callback does: return a value, raise, or (class derived from ProcessCallback) hand over
    a value through its queue (run_task.py:167-183). *)
Inductive cb_outcome := CbReturns (v : option V) | CbRaises | CbProcess (v : option V).

Record config := Config {
  c_netlist : str; c_raw_ext : str; c_callback : bool; c_callback_on_error : bool }.
(** The world after the simulator ran: which files exist, and how the callback behaves on given
    raw/log arguments. *)
Record world := World {
  w_sim : sim_outcome; w_exists : str -> bool; w_callback : option str -> option str -> cb_outcome }.

Record result := Result {
  r_ret : Z; r_raw : option str; r_log : option str;
  r_calls : list (option str * option str);   (* invocations of the callback *)
  r_callback_return : option V }.

(** run_task.py:115-190 [RunTask.run]. Times and log messages are omitted. *)
Definition task_run (c : config) (w : world) : result :=
  let ret := match w_sim w with SimReturns z => z | SimRaises => (-2)%Z end in
  let log0 := with_suffix (c_netlist c) (s2l ".log") in
  let '(raw, log, some_error) :=
    if Z.eqb ret 0 then
      let raw0 := with_suffix (c_netlist c) (c_raw_ext c) in
      (Some raw0, log0, negb (w_exists w raw0 && w_exists w log0))
    else
      (None, if w_exists w log0 then with_suffix log0 (s2l ".fail") else log0, true) in
  if c_callback c && (c_callback_on_error c || negb some_error) then
    match w_callback w raw (Some log) with
    | CbReturns v => Result ret raw (Some log) [(raw, Some log)] v
    | CbRaises => Result ret raw (Some log) [(raw, Some log)] None
    | CbProcess v => Result ret raw (Some log) [(raw, Some log)] v
    end
  else Result ret raw (Some log) [] None.

(** run_task.py:192-208 [get_results]; the task fields as an observer sees them. *)
Inductive answer := NotYet | FromCallback (v : option V) | Files (raw log : option str).
Definition get_results (alive started callback : bool) (r : result) : answer :=
  if alive || negb started then NotYet
  else if callback then FromCallback (r_callback_return r) else Files (r_raw r) (r_log r).

(** run_task.py:210-218 [wait_results]: [obs i] = (is_alive, start_time is not None, retcode) at the
    i-th turn of the loop; None when still waiting after [fuel] turns. *)
Fixpoint wait_results (fuel i : nat) (obs : nat -> bool * bool * Z) : option nat :=
  match fuel with
  | O => None
  | S f =>
      let '(alive, started, ret) := obs i in
      if alive || negb started || Z.eqb ret (-1) then wait_results f (S i) obs else Some i
  end.

(** sim_runner.py:475-507 [validate_callback_args]: [args] are the parameter names of the callback
    (None: no callback). *)
Inductive cb_args := ADict (d : list (str * V)) | ATuple (vs : list V).
Inductive checked := Rejected | Accepted (kwargs : option (list (str * V))).

Definition has_key (k : str) (d : list (str * V)) : bool := existsb (fun e => str_eqb (fst e) k) d.
Definition cb_args_len (a : cb_args) : nat :=
  match a with ADict d => length d | ATuple vs => length vs end.

Definition validate_callback_args (callback : option (list str)) (a : option cb_args) : checked :=
  match callback with
  | None => Accepted None
  | Some args =>
      if length args <? 2 then Rejected
      else if 2 <? length args then
        match a with
        | None => Rejected
        | Some ca =>
            if match ca with ADict d => negb (forallb (fun p => has_key p d) (skipn 2 args)) | _ => false end
            then Rejected
            else if negb (Nat.eqb (length args - 2) (cb_args_len ca)) then Rejected
            else match ca with
                 | ATuple vs => Accepted (Some (combine (skipn 2 args) vs))
                 | ADict d => Accepted (Some d)
                 end
        end
      else Accepted None
  end.

End Task.
Arguments CbReturns {V}. Arguments CbRaises {V}. Arguments CbProcess {V}.
Arguments World {V}. Arguments w_sim {V}. Arguments w_exists {V}. Arguments w_callback {V}.
Arguments Result {V}. Arguments r_ret {V}. Arguments r_raw {V}. Arguments r_log {V}.
Arguments r_calls {V}. Arguments r_callback_return {V}.
Arguments task_run {V}. Arguments NotYet {V}. Arguments FromCallback {V}. Arguments Files {V}.
Arguments get_results {V}.
Arguments ADict {V}. Arguments ATuple {V}. Arguments Rejected {V}. Arguments Accepted {V}.
Arguments validate_callback_args {V}. Arguments has_key {V}. Arguments cb_args_len {V}.

(** sim_runner.py:562-566: the timeout expression [timeout + 1] evaluated before the first turn of
    the loop of run() ([None] + 1 raises TypeError); the clock difference is 0 at that time. *)
Inductive entry := EntersLoop | GivesUpAtOnce | TypeErrorRaised.
Definition run_entry (timeout_arg runner_timeout : option Z) : entry :=
  match (match timeout_arg with None => runner_timeout | t => t end) with
  | None => TypeErrorRaised
  | Some t => if Z.ltb 0 (t + 1) then EntersLoop else GivesUpAtOnce
  end.

(** run_task.py:46-59 [format_time_difference]; the argument is a time in milliseconds (a float in
    the code; int() truncates, times are not negative). *)
Definition pad (width : nat) (s : str) : str := repeat "0"%char (width - length s) ++ s.
Definition format_time_difference (ms_total : nat) : str :=
  let secs := ms_total / 1000 in
  let ms := ms_total mod 1000 in
  let hours := secs / 3600 in
  let minutes := (secs mod 3600) / 60 in
  let seconds := (secs mod 3600) mod 60 in
  let tail := pad 2 (dec seconds) ++ s2l "." ++ pad 4 (dec ms) in
  if Nat.eqb hours 0 then
    if Nat.eqb minutes 0 then tail ++ s2l " secs"
    else pad 2 (dec minutes) ++ s2l ":" ++ tail
  else pad 2 (dec hours) ++ s2l ":" ++ pad 2 (dec minutes) ++ s2l ":" ++ tail.
