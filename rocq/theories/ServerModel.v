(** Model of spicelib/client_server/sim_server.py (SimServer), srv_sim_runner.py (ServerSimRunner)
    and sim_client.py (SimClient).

    The XML-RPC server handles one request at a time, so every request is one atomic step; the manager
    thread and the simulation threads contribute the [OpFinish] steps.  Network failures, the transfer
    of files and stop_server are not modelled. *)
From Coq Require Import List Bool Arith.
Import ListNotations.

Definition sid := nat.      (* session id: a uuid4 string in the code *)
Definition archive := nat.  (* content of a zip file *)

(** [sessions]: sim_server.py:67; [pending]: simulations started and not yet collected by the
    manager; [finished]: ServerSimRunner.completed_tasks (run number, zip file or None);
    [next_run]: SimRunner._runno; [used]: session ids ever given out. *)
Record server := Server {
  sessions : list (sid * list nat); pending : list nat; finished : list (nat * option archive);
  next_run : nat; used : list sid }.

Definition server0 : server := Server [] [] [] 0 [].

Fixpoint lookup (s : sid) (l : list (sid * list nat)) : option (list nat) :=
  match l with
  | [] => None
  | (k, v) :: l' => if Nat.eqb k s then Some v else lookup s l'
  end.
Fixpoint append_run (s : sid) (n : nat) (l : list (sid * list nat)) : list (sid * list nat) :=
  match l with
  | [] => []
  | (k, v) :: l' => if Nat.eqb k s then (k, v ++ [n]) :: l' else (k, v) :: append_run s n l'
  end.
Definition drop_session (s : sid) (l : list (sid * list nat)) : list (sid * list nat) :=
  filter (fun e => negb (Nat.eqb (fst e) s)) l.

Definition memb (n : nat) (l : list nat) : bool := existsb (Nat.eqb n) l.

(** srv_sim_runner.py:131-152 [erase_files_of_runno]: removes the first entry of that run. *)
Fixpoint erase (n : nat) (l : list (nat * option archive)) : list (nat * option archive) :=
  match l with
  | [] => []
  | e :: l' => if Nat.eqb (fst e) n then l' else e :: erase n l'
  end.

Inductive op :=
| OpStart (s : sid)                 (* the id uuid4 comes up with *)
| OpRun (s : sid) (accepted : bool) (* accepted: SimRunner.run did not time out waiting *)
| OpFinish (n : nat) (z : option archive)
| OpStatus (s : sid)
| OpGet (s : sid) (n : nat)
| OpClose (s : sid).

Inductive resp :=
| RNone | RRun (n : nat) | RMinusOne | RStatus (l : list nat)
| RFiles (a : archive) | REmpty | RBool (b : bool) | RKeyError.

(** sim_server.py:158-172: the loop of get_files over completed_tasks: first entry with that run
    number and a zip file. *)
Fixpoint find_zip (n : nat) (l : list (nat * option archive)) : option archive :=
  match l with
  | [] => None
  | (m, z) :: l' =>
      if Nat.eqb n m then match z with Some a => Some a | None => find_zip n l' end
      else find_zip n l'
  end.

Definition sstep (v : server) (o : op) : option (server * resp) :=
  match o with
  | OpStart s =>   (* 115-124; a fresh id *)
      if memb s (used v) then None
      else Some (Server ((s, []) :: sessions v) (pending v) (finished v) (next_run v) (s :: used v), RNone)
  | OpRun s accepted =>   (* 96-113 and srv_sim_runner.py:113-129 *)
      match lookup s (sessions v) with
      | None => Some (v, RMinusOne)
      | Some _ =>
          let n := S (next_run v) in
          if accepted
          then Some (Server (append_run s n (sessions v)) (n :: pending v) (finished v) n (used v), RRun n)
          else Some (Server (sessions v) (pending v) (finished v) n (used v), RMinusOne)
      end
  | OpFinish n z =>   (* srv_sim_runner.py:92-104: the manager collects a finished task *)
      if memb n (pending v)
      then Some (Server (sessions v) (filter (fun m => negb (Nat.eqb m n)) (pending v))
                        (finished v ++ [(n, z)]) (next_run v) (used v), RNone)
      else None
  | OpStatus s =>   (* 126-142: the session is only looked up inside the loop *)
      match finished v with
      | [] => Some (v, RStatus [])
      | _ =>
          match lookup s (sessions v) with
          | None => Some (v, RKeyError)
          | Some runs => Some (v, RStatus (filter (fun n => memb n runs) (map fst (finished v))))
          end
      end
  | OpGet s n =>   (* 144-169 *)
      match lookup s (sessions v) with
      | None => Some (v, RKeyError)
      | Some runs =>
          if memb n runs then
            match find_zip n (finished v) with
            | Some a => Some (Server (sessions v) (pending v) (erase n (finished v)) (next_run v) (used v),
                              RFiles a)
            | None => Some (v, REmpty)
            end
          else Some (v, REmpty)
      end
  | OpClose s =>   (* 171-188 *)
      match lookup s (sessions v) with
      | None => Some (v, RBool false)
      | Some runs =>
          Some (Server (drop_session s (sessions v)) (pending v)
                       (fold_left (fun f n => erase n f) runs (finished v)) (next_run v) (used v), RBool true)
      end
  end.

Fixpoint sexec (v : server) (os : list op) : option (server * list (op * resp)) :=
  match os with
  | [] => Some (v, [])
  | o :: os' =>
      match sstep v o with
      | None => None
      | Some (v', r) =>
          match sexec v' os' with None => None | Some (v'', h) => Some (v'', (o, r) :: h) end
      end
  end.

(** * The client (sim_client.py:115-240).  [started]: started_jobs (None stands for the run id -1),
    [stored]: stored_jobs. *)
Record client_st := Client { started : list (option nat); stored : list nat; returned : list nat }.

Definition opt_eqb (a b : option nat) : bool :=
  match a, b with Some x, Some y => Nat.eqb x y | None, None => true | _, _ => false end.

(** An OrderedDict key is stored once. *)
Definition put {A} (eqb : A -> A -> bool) (x : A) (l : list A) : list A :=
  if existsb (eqb x) l then l else l ++ [x].

(** 150-189 [SimClient.run]: the identifier received is stored whatever it is. *)
Definition client_run (c : client_st) (answer : option nat) : client_st :=
  Client (put opt_eqb answer (started c)) (stored c) (returned c).

(** 217-234 [__next__]: one turn of its loop, given the answer of status(). *)
Inductive next_result := NJob (n : nat) | NSleep | NStop | NKeyError.
Definition client_next (c : client_st) (status : list nat) : client_st * next_result :=
  match started c with
  | [] => (c, NStop)
  | _ =>
      match status with
      | [] => (c, NSleep)
      | n :: _ =>
          if existsb (opt_eqb (Some n)) (started c)
          then (Client (filter (fun m => negb (opt_eqb (Some n) m)) (started c))
                       (put Nat.eqb n (stored c)) (returned c ++ [n]), NJob n)
          else (c, NKeyError)
      end
  end.

(** 191-212 [get_runno_data]: None when the run id is not in stored_jobs (SimClientInvalidRunId). *)
Definition client_got (c : client_st) (n : nat) : option client_st :=
  if memb n (stored c)
  then Some (Client (started c) (filter (fun m => negb (Nat.eqb m n)) (stored c)) (returned c))
  else None.

(** * Client and server together.  [me] is the session of the client; [other] labels are requests of
    other sessions and finishing simulations. *)
Record joint := Joint { jserver : server; jclient : client_st }.

Inductive jlabel :=
| JOther (o : op)            (* any server operation not made by this client *)
| JRun (accepted : bool)     (* client.run() *)
| JNext                      (* one turn of next(client) *)
| JGet (n : nat).            (* client.get_runno_data(n) *)

Inductive jout := JRan (n : option nat) | JReturned (n : nat) | JAsleep | JStopped | JFailed
                | JData (a : option archive) | JQuiet.

Definition jstep (me : sid) (j : joint) (l : jlabel) : option (joint * jout) :=
  let v := jserver j in
  let c := jclient j in
  match l with
  | JOther o =>
      match o with
      | OpRun s _ | OpGet s _ | OpClose s | OpStatus s => if Nat.eqb s me then None else
          match sstep v o with Some (v', _) => Some (Joint v' c, JQuiet) | None => None end
      | _ => match sstep v o with Some (v', _) => Some (Joint v' c, JQuiet) | None => None end
      end
  | JRun accepted =>
      match sstep v (OpRun me accepted) with
      | Some (v', RRun n) => Some (Joint v' (client_run c (Some n)), JRan (Some n))
      | Some (v', _) => Some (Joint v' (client_run c None), JRan None)
      | None => None
      end
  | JNext =>
      match started c with
      | [] => Some (j, JStopped)
      | _ =>
          match sstep v (OpStatus me) with
          | Some (v', RStatus l) =>
              let '(c', r) := client_next c l in
              Some (Joint v' c', match r with NJob n => JReturned n | NSleep => JAsleep
                                            | NStop => JStopped | NKeyError => JFailed end)
          | Some (v', _) => Some (Joint v' c, JFailed)
          | None => None
          end
      end
  | JGet n =>
      if memb n (stored c) then
        match sstep v (OpGet me n) with
        | Some (v', r) =>
            match client_got c n with
            | Some c' => Some (Joint v' c', match r with RFiles a => JData (Some a) | RKeyError => JFailed
                                                       | _ => JData None end)
            | None => None
            end
        | None => None
        end
      else Some (j, JFailed)
  end.

Fixpoint jexec (me : sid) (j : joint) (ls : list jlabel) : option (joint * list jout) :=
  match ls with
  | [] => Some (j, [])
  | l :: ls' =>
      match jstep me j l with
      | None => None
      | Some (j', o) =>
          match jexec me j' ls' with None => None | Some (j'', os) => Some (j'', o :: os) end
      end
  end.

(** sim_client.py:115-123: the client starts its session on a running server. *)
Definition connected (me : sid) (v : server) : option joint :=
  match sstep v (OpStart me) with
  | Some (v', _) => Some (Joint v' (Client [] [] []))
  | None => None
  end.
