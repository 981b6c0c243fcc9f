(** Model of SimRunner.create_raw_file_with (spicelib/sim/sim_runner.py:803-845), on the merging of RAW files (MrgModel). *)
From Coq Require Import String Ascii List Bool Arith QArith.
From Verif Require Import PyStr MrgModel.
Import ListNotations.
Local Open Scope string_scope. Local Open Scope nat_scope. Local Open Scope list_scope.

(** A task that the iterator of sim_runner.py:200-215 yields: a successful run that matches the conditions, with its run number and,
    unless raw_file is empty, what RawRead finds in its RAW file. *)
Record rtask := Task { k_runno : nat; k_raw : option source }.

(** Each RAW file is opened anew (841): the trace objects are told apart by the place of the task. *)
Definition no_source : source := Source [] [] [] (STrace [] [] (fun _ => [])) [].
Definition sources (tasks : list rtask) (k : nat) : source :=
  match nth_error tasks k with Some (Task _ (Some s)) => s | _ => no_source end.

(** raw_write.py:239: the default admissible error, 1e-11. *)
Definition default_error : Q := 1 # 100000000000.

(** sim_runner.py:842 for the task at place [k] *)
Definition call_for (save : list str) (k : nat) (runno : nat) : call :=
  Call k save true default_error (AddTag (dec runno)) 0 0.

Section Loop.
Variable srcs : nat -> source.
Variable save : list str.
(** sim_runner.py:835-842: the loop; [ok] is the return value so far. None: an exception. *)
Fixpoint add_tasks (k : nat) (tasks : list rtask) (ok : bool) (st : writer * names) : option (bool * (writer * names)) :=
  match tasks with
  | [] => Some (ok, st)
  | t :: r =>
      match k_raw t with
      | None => add_tasks (S k) r false st
      | Some _ => match add_traces srcs (call_for save k (k_runno t)) st with
                  | Some st' => add_tasks (S k) r ok st'
                  | None => None
                  end
      end
  end.
End Loop.

(** What comes out: StopIteration of [next] (818), False without a file (821-823), another exception, or a file with the traces of the
    writer and the return value. *)
Inductive made := NoTask | NoTemplate | Failed | Made (complete : bool) (w : writer).

(** raw_write.py:81-92 with the title as plot name (827-832); the trace objects have the names of the file. *)
Definition new_raw (title : str) : writer := Writer (s2l "auto") false false title [] [] [].
Definition file_names : names := fun _ n => n.

(** sim_runner.py:803-845; [title]: of the template *)
Definition create_raw_file_with (title : str) (tasks : list rtask) (save : list str) : made :=
  match tasks with
  | [] => NoTask
  | t :: _ =>
      match k_raw t with
      | None => NoTemplate
      | Some _ =>
          match add_tasks (sources tasks) save 0 tasks true (new_raw title, file_names) with
          | None => Failed
          | Some (ok, (w, nm)) =>
              match before_save (sources tasks) w nm with
              | Some w' => Made ok w'
              | None => Failed
              end
          end
      end
  end.
