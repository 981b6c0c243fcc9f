(** Vocabulary for C08-C12, in terms of the events a user can observe and of the tasks of a runner. *)
From Coq Require Import String Ascii List Bool Arith ZArith.
From Verif Require Import PyStr UpdatesModel RunnerModel.
Import ListNotations.

(** Every task the runner knows: active, completed, or being executed by run_now(). *)
Definition all_tasks (s : sys) : list task :=
  active (rn s) ++ completed (rn s) ++ match cl s with Joining t => [t] | _ => [] end.

(** Simulations started by run() whose thread has not ended. *)
Definition running (s : sys) : list task :=
  filter (fun t => t_alive t && negb (t_now t)) (all_tasks s).

Definition forced_starts (os : list out) : nat :=
  length (filter (fun o => match o with OStarted _ Forced => true | _ => false end) os).

Definition started_numbers (os : list out) : list nat :=
  flat_map (fun o => match o with OStarted n _ => [n] | _ => [] end) os.

(** (number, explicit run_filename?, netlist, file) of every run issued, in order *)
Definition assigned (os : list out) : list (nat * bool * str * str) :=
  flat_map (fun o => match o with OAssigned n e q f => [(n, e, q, f)] | _ => [] end) os.
Definition assigned_numbers (os : list out) : list nat :=
  flat_map (fun o => match o with OAssigned n _ _ _ => [n] | _ => [] end) os.

Definition yielded (os : list out) : list nat :=
  flat_map (fun o => match o with OYield n => [n] | _ => [] end) os.

(** No run_now() gave up waiting for its simulation. *)
Definition no_join_timeout (ls : list label) : Prop := ~ In LJoinTimeout ls.

Definition prefix {A} (a b : list A) : Prop := exists c, b = a ++ c.

(** What a dictionary of conditions means for the edits of a run. *)
Definition satisfies (edits : list update) (d : list (string * condval)) : Prop :=
  forall name c, In (name, c) d ->
    exists u, In u edits /\ u_name u = name /\
      match c with CVal v => u_value u = v | CSet vs => In (u_value u) vs end.

(** A completed run is to be handed out by an iterator. *)
Definition wanted (c : conditions) (t : task) : Prop :=
  t_ret t = 0%Z /\
  match c with
  | CNone => True
  | CDict d => exists e es, t_edits t = Some (e :: es) /\ satisfies (e :: es) d
  | CFun f => exists e es, t_edits t = Some (e :: es) /\ f t = true
  end.

(** [l'] are, in order, exactly the elements of [l] with property [P]. *)
Inductive selects {A} (P : A -> Prop) : list A -> list A -> Prop :=
| sel_nil : selects P [] []
| sel_take : forall x l l', P x -> selects P l l' -> selects P (x :: l) (x :: l')
| sel_skip : forall x l l', ~ P x -> selects P l l' -> selects P (x :: l) l'.

(** Tasks the iterator has gone past, in order. *)
Definition consumed (os : list out) : list nat :=
  flat_map (fun x => match x with OYield n | OSkip n => [n] | _ => [] end) os.
