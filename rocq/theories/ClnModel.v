(** Model of the files of a runner: spicelib/sim/sim_runner.py:418-441 ([_on_output_folder], [_to_output_folder]), 451-473 ([_prepare_sim]),
    646-666 ([update_completed]), 675-687 ([kill_all_spice]), 689-706 ([_maximum_stop_time]), 735-778 ([cleanup_files]) and of the files of
    a task: run_task.py:115-160.
    Simplifications: a disk is a function from paths to contents; folders exist; a path is a folder and a name, paths are the same if these
    are; what an editor saves is given as a text; callbacks, times and messages are omitted. *)
From Coq Require Import String Ascii List Bool Arith ZArith QArith.
From Verif Require Import PyStr RunnerModel SimModel.
Import ListNotations.
Local Open Scope string_scope. Local Open Scope nat_scope. Local Open Scope list_scope.

Definition disk := path -> option str.
Definition same_path (p q : path) : bool := str_eqb (folder p) (folder q) && str_eqb (name p) (name q).
Definition put (p : path) (c : option str) (d : disk) : disk := fun q => if same_path q p then c else d q.
Definition exists_on (d : disk) (p : path) : bool := match d p with Some _ => true | None => false end.
Definition suffix_of (p : path) : str := snd (split_suffix (name p)).

(** How a task ended: retcode, raw_file, log_file. *)
Record ending := { e_ret : Z; e_raw : option path; e_log : path }.
(** A RunTask: its number, netlist_file, and how it ended (None: still running). *)
Record ctask := { k_no : nat; k_net : path; k_end : option ending }.
Definition ended (t : ctask) : bool := match k_end t with Some _ => true | None => false end.
Record cstate := { s_disk : disk; s_no : nat; s_active : list ctask; s_done : list ctask }.

(** What is given to run: a file, or an editor (its circuit_file and the text it saves). *)
Inductive source := FromFile (p : path) | FromEditor (circuit : path) (text : str).
(** sim_runner.py:418-422 [_on_output_folder]; a name without folder is in the working directory [cwd]. *)
Definition on_output_folder (out : option str) (cwd : str) (file : str) : path := match out with Some d => Path d file | None => Path cwd file end.
(** sim_runner.py:424-441 [_to_output_folder] with copy=True and a new name; None: an exception (no such file; copied onto itself). *)
Definition to_output_folder (out : option str) (p : path) (new_name : str) (d : disk) : option (path * disk) :=
  let dest := match out with Some o => Path o new_name | None => Path (folder p) new_name end in
  match d p with
  | None => None
  | Some c => if same_path p dest then None else Some (dest, put dest (Some c) d)
  end.
(** sim_runner.py:451-473 [_prepare_sim], [n]: the number of the run *)
Definition prepare (out : option str) (cwd : str) (n : nat) (given : option str) (s : source) (d : disk) : option (path * disk) :=
  match s with
  | FromEditor c text =>
      let f := match given with Some f => f | None => run_file_name n (name c) end in
      let dest := on_output_folder out cwd f in Some (dest, put dest (Some text) d)
  | FromFile p =>
      let f := match given with Some f => f | None => run_file_name n (name p) end in to_output_folder out p f d
  end.
(** run_task.py:115-160: the end of a task with return code [ret] *)
Definition finish (m : sim) (ret : Z) (t : ctask) (d : disk) : ctask * disk :=
  let log := with_suffix (k_net t) (s2l ".log") in
  if Z.eqb ret 0
  then ({| k_no := k_no t; k_net := k_net t; k_end := Some {| e_ret := ret; e_raw := Some (raw_of m (k_net t)); e_log := log |} |}, d)
  else match d log with
       | Some c => let fail := with_suffix log (s2l ".fail") in
                   ({| k_no := k_no t; k_net := k_net t; k_end := Some {| e_ret := ret; e_raw := None; e_log := fail |} |}, put fail (Some c) (put log None d))
       | None => ({| k_no := k_no t; k_net := k_net t; k_end := Some {| e_ret := ret; e_raw := None; e_log := log |} |}, d)
       end.
(** sim_runner.py:646-666 [update_completed] *)
Definition update (s : cstate) : cstate :=
  {| s_disk := s_disk s; s_no := s_no s; s_active := filter (fun t => negb (ended t)) (s_active s); s_done := s_done s ++ filter ended (s_active s) |}.
(** sim_runner.py:735-744, 746-755 [_del_file_if_exists], [_del_file_ext_if_exists] *)
Definition del (p : path) (d : disk) : disk := if exists_on d p then put p None d else d.
(** sim_runner.py:765-778: the files of one task *)
Definition clean_task (t : ctask) (d : disk) : disk :=
  let net := k_net t in
  let d := del net d in
  let d := match k_end t with Some e => del (e_log e) d | None => d end in
  let d := del (with_suffix net (s2l ".exe.log")) d in
  let d := match k_end t with Some e => match e_raw e with Some r => del r d | None => d end | None => d end in
  if str_eqb (suffix_of net) (s2l ".net") || str_eqb (suffix_of net) (s2l ".asc")
  then let d := fold_left (fun d e => del (with_suffix net (s2l e)) d) [".log.raw"; ".op.raw"; ".db"] d in
       if str_eqb (suffix_of net) (s2l ".asc") then del (with_suffix net (s2l ".net")) d else d
  else d.
(** sim_runner.py:757-778 [cleanup_files] *)
Definition cleanup (s : cstate) : cstate :=
  let s := update s in
  {| s_disk := fold_left (fun d t => clean_task t d) (s_done s) (s_disk s); s_no := s_no s; s_active := s_active s; s_done := s_done s |}.

(** What happens to a runner: run (with [slot]: whether a place was free in time, sim_runner.py:562-584), a running simulator writes a file
    beside its netlist, it ends, update_completed, cleanup_files. *)
Inductive cevent := ERun (given : option str) (s : source) (slot : bool) | EWrite (no : nat) (ext text : str) | EEnd (no : nat) (ret : Z) | EUpdate | EClean.
Fixpoint finish_in (m : sim) (no : nat) (ret : Z) (l : list ctask) (d : disk) : list ctask * disk :=
  match l with
  | [] => ([], d)
  | t :: r => if (k_no t =? no) && negb (ended t) then let (t', d') := finish m ret t d in (t' :: r, d')
              else let (r', d') := finish_in m no ret r d in (t :: r', d')
  end.
Section Runner.
Variables (m : sim) (out : option str) (cwd : str).
Definition cstep (s : cstate) (e : cevent) : cstate :=
  match e with
  | ERun given src slot =>
      let n := S (s_no s) in
      match prepare out cwd n given src (s_disk s) with
      | None => {| s_disk := s_disk s; s_no := n; s_active := s_active s; s_done := s_done s |}
      | Some (net, d) => {| s_disk := d; s_no := n; s_active := s_active s ++ (if slot then [{| k_no := n; k_net := net; k_end := None |}] else []); s_done := s_done s |}
      end
  | EWrite no ext text =>
      match find (fun t => (k_no t =? no) && negb (ended t)) (s_active s) with
      | Some t => {| s_disk := put (with_suffix (k_net t) ext) (Some text) (s_disk s); s_no := s_no s; s_active := s_active s; s_done := s_done s |}
      | None => s
      end
  | EEnd no ret => let (l, d) := finish_in m no ret (s_active s) (s_disk s) in {| s_disk := d; s_no := s_no s; s_active := l; s_done := s_done s |}
  | EUpdate => update s
  | EClean => cleanup s
  end.
Definition new_state (d : disk) : cstate := {| s_disk := d; s_no := 0; s_active := []; s_done := [] |}.
Definition history (d : disk) (h : list cevent) : cstate := fold_left cstep h (new_state d).
End Runner.

(** sim_runner.py:675-687 [kill_all_spice]: the processes (number, name) that are left; simulator.py:92: process_name of the class Simulator *)
Definition kill_all_spice (procs : list (nat * str)) : list (nat * str) :=
  let process_name : str := [] in filter (fun p => negb (str_eqb (snd p) process_name)) procs.
(** sim_runner.py:689-706 [_maximum_stop_time]: of the active tasks (start_time, timeout), with the runner's timeout *)
Definition stop_time (runner : option Q) (t : option Q * option Q) : option Q :=
  match fst t, (match snd t with Some x => Some x | None => runner end) with Some a, Some b => Some (a + b)%Q | _, _ => None end.
Definition maximum_stop_time (runner : option Q) (tasks : list (option Q * option Q)) : option Q :=
  fold_left (fun alarm t => match stop_time runner t with
                            | None => alarm
                            | Some s => match alarm with None => Some s | Some a => if negb (Qle_bool s a) then Some s else alarm end
                            end) tasks None.
