(** Model of spicelib/sim/sim_runner.py (SimRunner, TaskIterator) and of the life of a RunTask
    thread (spicelib/sim/run_task.py) as a transition system.

    Every label of [step] is one atomic action: either of the (single) client thread that calls the
    runner, or of a simulation thread.  Any list of labels is a schedule. *)
From Coq Require Import String Ascii List Bool Arith ZArith.
From Verif Require Import PyStr UpdatesModel.
Import ListNotations.

(** run_task.py:62-96 [RunTask.__init__].  [t_started]: start_time is not None; [t_alive]:
    Thread.is_alive(); [t_ret]: retcode (-1 until the simulator returns); [t_now]: created by
    run_now (ghost field, never read by the model).  Fields irrelevant to scheduling are omitted. *)
Record task := Task {
  t_no : nat; t_file : str; t_edits : option (list update);
  t_started : bool; t_alive : bool; t_ret : Z; t_now : bool }.

(** sim_runner.py:285-326 [SimRunner.__init__].  parallel_sims is a nat (a negative number behaves as 0). *)
Record runner := Runner {
  parallel : nat; runno : nat; okSim : nat; failSim : nat;
  active : list task; completed : list task }.

Definition new_runner (p : nat) : runner := Runner p 0 0 0 [] [].

(** pathlib PurePath.stem / suffix of a file name: the last dot counts if it is neither the first
    nor the last character. *)
Definition dot : ascii := "."%char.
Definition under : ascii := "_"%char.
Definition split_suffix (name : str) : str * str :=
  match split_at_last dot name with
  | Some (a, b) =>
      match a, b with
      | [], _ => (name, [])
      | _, [] => (name, [])
      | _, _ => (a, dot :: b)
      end
  | None => (name, [])
  end.

(** sim_runner.py:443-449 [_run_file_name]. *)
Definition run_file_name (n : nat) (netlist : str) : str :=
  let '(stem, suffix) := split_suffix netlist in
  let suffix' := if str_eqb suffix (s2l ".qsch") then s2l ".net" else suffix in
  stem ++ under :: dec n ++ suffix'.

(** The arguments of run()/run_now() that matter here.  [q_edits]: netlist_updates of the editor
    given as netlist ([] when a file is given). *)
Record request := Request {
  q_netlist : str; q_run_filename : option str; q_wait_resource : bool; q_edits : list update }.

(** sim_runner.py:451-473 [_prepare_sim]: the run number is incremented first. *)
Definition prepared_name (n : nat) (rq : request) : str :=
  match q_run_filename rq with Some f => f | None => run_file_name n (q_netlist rq) end.

(** sim_runner.py:568-579 / 621-630: construction of the task; [t.start()] makes it alive. *)
Definition new_task (n : nat) (file : str) (rq : request) (now : bool) : task :=
  Task n file (match q_edits rq with [] => None | e => Some e end) false true (-1)%Z now.

(** sim_runner.py:656: running or not yet started. *)
Definition busy (t : task) : bool := t_alive t || negb (t_started t).
Definition succeeded (t : task) : bool := Z.eqb (t_ret t) 0.

(** sim_runner.py:646-666 [update_completed].  The index loop with pop(i) is written as a
    recursion on the active list; [acc] is the part with index < i. *)
Fixpoint update_loop (acc rest : list task) (r : runner) : runner :=
  match rest with
  | [] => Runner (parallel r) (runno r) (okSim r) (failSim r) acc (completed r)
  | t :: rest' =>
      if busy t then update_loop (acc ++ [t]) rest' r
      else
        update_loop acc rest'
          (Runner (parallel r) (runno r)
                  (if succeeded t then S (okSim r) else okSim r)
                  (if succeeded t then failSim r else S (failSim r))
                  (active r) (completed r ++ [t]))
  end.
Definition update_completed (r : runner) : runner := update_loop [] (active r) r.

(** What the client thread is doing: nothing, inside the while loop of run() (562-584), or inside
    the join of run_now() (631-633). *)
Inductive client :=
| Idle
| Waiting (n : nat) (file : str) (rq : request)
| Joining (t : task).

(** Iterator filter, sim_runner.py:134, 171-194. *)
Inductive condval := CVal (v : uval) | CSet (vs : list uval).
Inductive conditions :=
| CNone | CDict (d : list (string * condval)) | CFun (f : task -> bool).

Definition condval_matches (c : condval) (v : uval) : bool :=
  match c with CVal w => uval_eqb w v | CSet ws => existsb (uval_eqb v) ws end.

(** 179-191: the for..else over conditions and updates. *)
Fixpoint match_dict (d : list (string * condval)) (edits : list update) : bool :=
  match d with
  | [] => true
  | (name, value) :: d' =>
      if existsb (fun u => String.eqb name (u_name u) && condval_matches value (u_value u)) edits
      then match_dict d' edits
      else false
  end.

Definition match_conditions (c : conditions) (t : task) : bool :=
  match c with
  | CNone => true
  | CDict d =>
      match t_edits t with
      | None | Some [] => false
      | Some edits => match_dict d edits
      end
  | CFun f =>
      match t_edits t with
      | None | Some [] => false
      | Some _ => f t
      end
  end.

(** The actions of a simulation thread (RunTask.run): run_task.py:122 sets start_time; 126-132 set
    retcode; the thread ends. *)
Inductive tact := AStart | ARet (z : Z) | ADie.

(** The whole system: runner, client, and one iterator over the runner (its counter). *)
Record sys := Sys { rn : runner; cl : client; counter : nat }.

Inductive label :=
(* client *)
| LRun (rq : request)          (* entering run() *)
| LPoll                        (* one turn of the loop of run() *)
| LGiveUp                      (* the loop of run() ends by its timeout *)
| LRunNow (rq : request)       (* entering run_now() *)
| LJoin                        (* join() returns because the thread ended *)
| LJoinTimeout                 (* join(timeout + 1) expires with the thread still alive *)
| LUpdate                      (* any other call of update_completed() *)
| LNext                        (* one turn of the loop of the iterator's __next__ *)
(* simulation threads *)
| LThread (k : nat) (a : tact).

(** How a simulation thread was started: by run() after waiting for a free place, by run() with
    wait_resource=False, or by run_now(). *)
Inductive how := Waited | Forced | Now.

Inductive out :=
| OAssigned (n : nat) (explicit : bool) (netlist : str) (file : str) (* number and file given to a run *)
| OStarted (n : nat) (h : how)  (* simulation thread started *)
| OYield (n : nat)             (* the iterator returns this task (return_function applied) *)
| OSkip (n : nat)              (* the iterator passes over this task *)
| OStop                        (* StopIteration *)
| OSleep.

(** Effect of an action of thread [k]; an action that thread cannot do has no effect. *)
Definition th_act (a : tact) (t : task) : task :=
  match a with
  | AStart =>
      if t_alive t
      then Task (t_no t) (t_file t) (t_edits t) true (t_alive t) (t_ret t) (t_now t) else t
  | ARet z =>
      if t_alive t && t_started t
      then Task (t_no t) (t_file t) (t_edits t) (t_started t) (t_alive t) z (t_now t) else t
  | ADie =>
      if t_alive t && t_started t
      then Task (t_no t) (t_file t) (t_edits t) (t_started t) false (t_ret t) (t_now t) else t
  end.
Definition act_on (k : nat) (a : tact) (t : task) : task :=
  if Nat.eqb (t_no t) k then th_act a t else t.

Definition on_runner (g : task -> task) (r : runner) : runner :=
  Runner (parallel r) (runno r) (okSim r) (failSim r) (map g (active r)) (map g (completed r)).
Definition on_client (g : task -> task) (c : client) : client :=
  match c with Joining t => Joining (g t) | _ => c end.
Definition on_threads (g : task -> task) (s : sys) : sys :=
  Sys (on_runner g (rn s)) (on_client g (cl s)) (counter s).

Definition bump (r : runner) : runner :=
  Runner (parallel r) (S (runno r)) (okSim r) (failSim r) (active r) (completed r).
Definition add_active (t : task) (r : runner) : runner :=
  Runner (parallel r) (runno r) (okSim r) (failSim r) (active r ++ [t]) (completed r).
(** sim_runner.py:634-639 *)
Definition add_completed (t : task) (r : runner) : runner :=
  Runner (parallel r) (runno r)
         (if succeeded t then S (okSim r) else okSim r)
         (if succeeded t then failSim r else S (failSim r))
         (active r) (completed r ++ [t]).

Definition is_some {A} (o : option A) : bool := match o with Some _ => true | None => false end.

Section WithIterator.
(** parameters of the iterator: its filter and its wait flag *)
Variable conds : conditions.
Variable wait : bool.

Definition step (s : sys) (l : label) : option (sys * list out) :=
  match l, cl s with
  | LRun rq, Idle =>
      let r := bump (rn s) in
      let f := prepared_name (runno r) rq in
      Some (Sys r (Waiting (runno r) f rq) (counter s),
            [OAssigned (runno r) (is_some (q_run_filename rq)) (q_netlist rq) f])
  | LPoll, Waiting n f rq =>
      (* sim_runner.py:567: (wait_resource is False) or (active_threads() < parallel_sims) *)
      if negb (q_wait_resource rq)
      then Some (Sys (add_active (new_task n f rq false) (rn s)) Idle (counter s), [OStarted n Forced])
      else
        let r := update_completed (rn s) in
        if length (active r) <? parallel r
        then Some (Sys (add_active (new_task n f rq false) r) Idle (counter s), [OStarted n Waited])
        else Some (Sys r (Waiting n f rq) (counter s), [])
  | LGiveUp, Waiting _ _ _ => Some (Sys (rn s) Idle (counter s), [])
  | LRunNow rq, Idle =>
      let r := bump (rn s) in
      let f := prepared_name (runno r) rq in
      Some (Sys r (Joining (new_task (runno r) f rq true)) (counter s),
            [OAssigned (runno r) (is_some (q_run_filename rq)) (q_netlist rq) f; OStarted (runno r) Now])
  | LJoin, Joining t =>
      if t_alive t then None else Some (Sys (add_completed t (rn s)) Idle (counter s), [])
  | LJoinTimeout, Joining t =>
      if t_alive t then Some (Sys (add_completed t (rn s)) Idle (counter s), []) else None
  | LUpdate, Idle => Some (Sys (update_completed (rn s)) Idle (counter s), [])
  | LNext, Idle =>
      (* sim_runner.py:200-224 *)
      let r := update_completed (rn s) in
      match nth_error (completed r) (counter s) with
      | Some t =>
          Some (Sys r Idle (S (counter s)),
                if match_conditions conds t
                then if succeeded t then [OYield (t_no t)] else [OSkip (t_no t)]
                else [OSkip (t_no t)])
      | None =>
          match active r with
          | [] => Some (Sys r Idle (counter s), [OStop])
          | _ => if wait then Some (Sys r Idle (counter s), [OSleep])
                 else Some (Sys r Idle (counter s), [OStop])
          end
      end
  | LThread k a, _ => Some (on_threads (act_on k a) s, [])
  | _, _ => None
  end.

Fixpoint exec (s : sys) (ls : list label) : option (sys * list out) :=
  match ls with
  | [] => Some (s, [])
  | l :: ls' =>
      match step s l with
      | None => None
      | Some (s', o) =>
          match exec s' ls' with None => None | Some (s'', o') => Some (s'', o ++ o') end
      end
  end.

Definition start_sys (p : nat) : sys := Sys (new_runner p) Idle 0.

(** [runs_to p ls s os]: a runner created with parallel_sims = p reaches [s] by schedule [ls], with
    observable events [os]. *)
Definition runs_to (p : nat) (ls : list label) (s : sys) (os : list out) : Prop :=
  exec (start_sys p) ls = Some (s, os).

End WithIterator.

(** sim_runner.py:706-733 [wait_completion].  [env i] is what the simulation threads do during the
    i-th sleep, [late i] whether time.time() > stop_time is true at the i-th turn (the comparison is
    evaluated only when a stop time exists).  [has_timeout]: the timeout argument was given, then the
    stop time is fixed; otherwise it is recomputed by _maximum_stop_time() (689-704), which is None
    when no task is active ([tm_none]: or no timeout applies).  Result: runner and returned value;
    None when the fuel runs out (the call is still waiting). *)
Definition maximum_stop_time_exists (runner_has_timeout : bool) (r : runner) : bool :=
  runner_has_timeout && existsb t_started (active r).

Fixpoint acts (l : list (nat * tact)) (t : task) : task :=
  match l with [] => t | (k, a) :: l' => acts l' (act_on k a t) end.

Fixpoint wait_loop (fuel : nat) (i : nat) (env : nat -> list (nat * tact)) (late : nat -> bool)
  (has_timeout runner_has_timeout : bool) (r : runner) : option (runner * bool) :=
  match active r with
  | [] => Some (r, Nat.eqb (failSim r) 0)
  | _ :: _ =>
      match fuel with
      | O => None
      | S f =>
          let r1 := update_completed (on_runner (acts (env i)) r) in
          let stop_exists := has_timeout || maximum_stop_time_exists runner_has_timeout r1 in
          if stop_exists && late i then Some (r1, false)
          else wait_loop f (S i) env late has_timeout runner_has_timeout r1
      end
  end.
Definition wait_completion (fuel : nat) env late has_timeout runner_has_timeout (r : runner) :=
  wait_loop fuel 0 env late has_timeout runner_has_timeout (update_completed r).
