(** Model of what a runner tells of its runs and of the log of edits seen as a list: spicelib/sim/sim_runner.py:352-382 ([sim_info]),
    spicelib/sim/run_task.py:96-107 ([edits]), spicelib/editor/updates.py:40-68 ([Update.__repr__]), 84-95 ([Updates.__getitem__]).
    Simplifications: of the entries of an information, netlist file, return code and edits (the others are fields of the task, copied in the
    same way); item access by name only (an int or a slice is passed on to the list). *)
From Coq Require Import String Ascii List Bool Arith ZArith.
From Verif Require Import PyStr UpdatesModel RunnerModel.
Import ListNotations.
Local Open Scope string_scope.
Local Open Scope nat_scope.
Local Open Scope list_scope.

(** sim_runner.py:376-380: the dictionary made for a task; no key 'edits': None *)
Record info := { f_netlist : str; f_retcode : Z; f_edits : option (list update) }.
(** 374-380; [if task.edits] is false for an empty log (updates.py:81-82 [__len__]) *)
Definition info_of (t : task) : info :=
  {| f_netlist := t_file t; f_retcode := t_ret t; f_edits := match t_edits t with Some (e :: r) => Some (e :: r) | _ => None end |}.
(** [rv[run_no] = v]: the key keeps its place if there is one *)
Fixpoint set_key (n : nat) (v : info) (d : list (nat * info)) : list (nat * info) :=
  match d with
  | [] => [(n, v)]
  | (k, w) :: r => if Nat.eqb k n then (k, v) :: r else (k, w) :: set_key n v r
  end.
(** 372-382 *)
Definition sim_info (tasks : list task) : list (nat * info) := fold_left (fun d t => set_key (t_no t) (info_of t) d) tasks [].

(** run_task.py:104-107 [RunTask.value] *)
Definition task_value (t : task) (reference : string) : uval :=
  match t_edits t with Some (e :: r) => log_value (e :: r) reference | _ => VNone end.

(** updates.py:84-95 with a name; None: IndexError *)
Fixpoint log_item (log : list update) (name : string) : option update :=
  match log with
  | [] => None
  | u :: r => if String.eqb (u_name u) name then Some u else log_item r name
  end.

(** updates.py:40-68. [num]: how Python writes a number *)
Definition shown (num : Z -> string) (v : uval) : string := match v with VNone => "None" | VStr s => s | VNum z => num z end.
Definition described (num : Z -> string) (u : update) : string :=
  let name := u_name u in let value := shown num (u_value u) in
  match u_type u with
  | UpUpdateParameter => "Parameter " ++ name ++ " was updated to " ++ value
  | UpUpdateComponentValue => "Component " ++ name ++ " value was updated to " ++ value
  | UpUpdateComponentParameter => "Parameter " ++ name ++ " was updated to " ++ value
  | UpDeleteParameter => "Parameter " ++ name ++ " was deleted"
  | UpDeleteComponent => "Component " ++ name ++ " was deleted"
  | UpDeleteComponentParameter => "Component Parameter " ++ name ++ " was deleted"
  | UpDeleteInstruction => "Instruction """ ++ value ++ """ was deleted"
  | UpAddParameter => "Parameter " ++ name ++ " was added with " ++ value
  | UpAddComponent => "Component " ++ name ++ " was added"
  | UpAddComponentParameter => "Component Parameter " ++ name ++ " was added with value " ++ value
  | UpAddInstruction => "Instruction """ ++ value ++ """ was added."
  | UpCloneSubcircuit => "Sub-circuit " ++ name ++ " was added"
  | UpInvalid | UpUpdateInstruction => "Invalid Update"
  end%string.
