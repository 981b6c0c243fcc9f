(** Model of a SimRunner used by several threads, as in the simulation server: spicelib/sim/sim_runner.py:646-666 ([update_completed]) and
    567-581 ([run], from the creation of the task), spicelib/client_server/srv_sim_runner.py:88-103 (the manager collects the completed tasks),
    spicelib/sim/run_task.py:66-83, 115-131 and the end of [run] (the states of a simulation thread).
    A step of a thread is one access to a shared list, task or counter: "+= 1" is a read and a write; every self.active_tasks[i] is an access.
    Simplifications: run_now is left out; the manager's pop(0) and its note of the result are one step; waiting is not modelled (a thread that
    waits simply does not step); the number of free places (567) is not looked at: a thread may start a simulation whenever it is idle. *)
From Coq Require Import List Bool Arith.
Import ListNotations.

(** A simulation thread: created; alive, with whether start_time is set and whether retcode is 0 (it is -1 at first); ended. *)
Inductive life := Fresh | Up (timed zero : bool) | Over (zero : bool).
(** threading: is_alive() *)
Definition is_alive (l : life) : bool := match l with Up _ _ => true | _ => false end.
(** run_task.py:66, 121: start_time is None *)
Definition no_time (l : life) : bool := match l with Fresh => true | Up t _ => negb t | Over _ => false end.
(** run_task.py:80, 126-132: retcode == 0 *)
Definition code_zero (l : life) : bool := match l with Fresh => false | Up _ z | Over z => z end.
(** What a simulation thread does: run_task.py:121, 125-132, its end.  An action that is not possible has no effect. *)
Inductive sim_act := SetTime | SetCode (z : bool) | End.
Definition act_on (a : sim_act) (l : life) : life :=
  match l, a with
  | Up false z, SetTime => Up true z
  | Up true _, SetCode z => Up true z
  | Up true z, End => Over z
  | _, _ => l
  end.

(** Where a thread that uses the runner is: update_completed at the test of the loop (656), the three accesses of 657 and 660, reading and
    writing a counter (661, 664), pop (665), append (666); run with a new task, before 579 and before 580; the manager's test (90)
    and pop (91); ended by an IndexError. *)
Inductive pc :=
| Idle
| Test (i : nat) | Alive (i : nat) | Time (i : nat) | Code (i : nat) | Load (z : bool) (i : nat) | Store (z : bool) (v i : nat)
| Pop (i : nat) | Append (k i : nat)
| Enlist (k : nat) | Begin (k : nat)
| CTest | CPop
| Dead.

(** created: the number of tasks made so far, which are 0, 1, ...; collected: the manager's completed_tasks, with retcode == 0. *)
Record sys := Sys { created : nat; tasks : nat -> life; active : list nat; completed : list nat; okSim : nat; failSim : nat;
                    collected : list (nat * bool); threads : nat -> pc }.
Definition put {A} (f : nat -> A) (k : nat) (v : A) : nat -> A := fun j => if j =? k then v else f j.
Definition at_pc (t : nat) (p : pc) (s : sys) : sys :=
  Sys (created s) (tasks s) (active s) (completed s) (okSim s) (failSim s) (collected s) (put (threads s) t p).
Definition remove_at (i : nat) (l : list nat) : list nat := firstn i l ++ skipn (S i) l.

(** What an idle thread can begin. *)
Inductive call := Update | Run | Collect.
(** One event: an action of the simulation thread k, a call by thread t, a step of thread t. *)
Inductive event := Sim (k : nat) (a : sim_act) | Call (t : nat) (c : call) | Step (t : nat).

Definition thread_step (t : nat) (s : sys) : sys :=
  match threads s t with
  | Idle | Dead => s
  | Test i => at_pc t (if i <? length (active s) then Alive i else Idle) s
  | Alive i => match nth_error (active s) i with
               | None => at_pc t Dead s
               | Some k => at_pc t (if is_alive (tasks s k) then Test (S i) else Time i) s
               end
  | Time i => match nth_error (active s) i with
              | None => at_pc t Dead s
              | Some k => at_pc t (if no_time (tasks s k) then Test (S i) else Code i) s
              end
  | Code i => match nth_error (active s) i with
              | None => at_pc t Dead s
              | Some k => at_pc t (Load (code_zero (tasks s k)) i) s
              end
  | Load z i => at_pc t (Store z (if z then okSim s else failSim s) i) s
  | Store z v i => at_pc t (Pop i)
                     (Sys (created s) (tasks s) (active s) (completed s) (if z then S v else okSim s) (if z then failSim s else S v)
                          (collected s) (threads s))
  | Pop i => match nth_error (active s) i with
             | None => at_pc t Dead s
             | Some k => at_pc t (Append k i)
                           (Sys (created s) (tasks s) (remove_at i (active s)) (completed s) (okSim s) (failSim s) (collected s) (threads s))
             end
  | Append k i => at_pc t (Test i)
                    (Sys (created s) (tasks s) (active s) (completed s ++ [k]) (okSim s) (failSim s) (collected s) (threads s))
  | Enlist k => at_pc t (Begin k)
                  (Sys (created s) (tasks s) (active s ++ [k]) (completed s) (okSim s) (failSim s) (collected s) (threads s))
  | Begin k => at_pc t Idle
                 (Sys (created s) (put (tasks s) k (match tasks s k with Fresh => Up false false | l => l end)) (active s) (completed s)
                      (okSim s) (failSim s) (collected s) (threads s))
  | CTest => at_pc t (match completed s with [] => Idle | _ => CPop end) s
  | CPop => match completed s with
            | [] => at_pc t Dead s
            | k :: r => at_pc t CTest
                          (Sys (created s) (tasks s) (active s) r (okSim s) (failSim s) (collected s ++ [(k, code_zero (tasks s k))]) (threads s))
            end
  end.
Definition thread_call (t : nat) (c : call) (s : sys) : sys :=
  match threads s t with
  | Idle => match c with
            | Update => at_pc t (Test 0) s
            | Run => at_pc t (Enlist (created s))
                       (Sys (S (created s)) (tasks s) (active s) (completed s) (okSim s) (failSim s) (collected s) (threads s))
            | Collect => at_pc t CTest s
            end
  | _ => s
  end.
Definition do (e : event) (s : sys) : sys :=
  match e with
  | Sim k a => Sys (created s) (put (tasks s) k (act_on a (tasks s k))) (active s) (completed s) (okSim s) (failSim s) (collected s) (threads s)
  | Call t c => thread_call t c s
  | Step t => thread_step t s
  end.
Definition run_events (es : list event) (s : sys) : sys := fold_left (fun s e => do e s) es s.
(** sim_runner.py:309-321, srv_sim_runner.py:70-76 *)
Definition start : sys := Sys 0 (fun _ => Fresh) [] [] 0 0 [] (fun _ => Idle).
