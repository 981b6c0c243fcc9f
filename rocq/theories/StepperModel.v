(** Model of spicelib/sim/sim_stepping.py: SimStepper.run_all and total_number_of_simulations. *)
From Coq Require Import String List Bool Arith.
Import ListNotations.

(** Kind of a sweep, sim_stepping.py:138-152. *)
Inductive what := WParam | WComponent | WModel.

(** What a sweep sets in the netlist: parameter, component value or component model.  A value is a text
    or a number, the latter given by the text Python has for it (its format in the netlist is the
    editor's, which is modelled elsewhere). *)
Definition target : Type := what * string.
Inductive value := VText (s : string) | VNumber (s : string).

(** sim_stepping.py:37-47 [StepInfo].  [d_reiterable] tells whether [iter()] on the given iterable
    restarts from the beginning (list, tuple, range, sweep) or not (generator, file, map object). *)
Record dim := Dim { d_target : target; d_values : list value; d_reiterable : bool }.

(** The netlist seen as the current value of every target (editor set_parameter /
    set_component_value / set_element_model, sim_stepping.py:209-214). *)
Definition netlist : Type := target -> option value.

Definition what_eqb (a b : what) : bool :=
  match a, b with WParam, WParam | WComponent, WComponent | WModel, WModel => true | _, _ => false end.
Definition target_eqb (a b : target) : bool :=
  what_eqb (fst a) (fst b) && String.eqb (snd a) (snd b).

Definition assign (n : netlist) (t : target) (v : value) : netlist :=
  fun t' => if target_eqb t' t then Some v else n t'.

(** Local state of run_all, sim_stepping.py:197-198: [iter_no] (-1 is [None]), the not yet produced
    values of each iterator, the editor, and the netlists handed to [runner.run] so far. *)
Record st := St { iter_no : option nat; iters : list (list value); net : netlist; runs : list netlist }.

Fixpoint set_nth {A} (l : list A) (i : nat) (x : A) : list A :=
  match l, i with
  | [], _ => []
  | _ :: r, O => x :: r
  | y :: r, S i' => y :: set_nth r i' x
  end.

(** One round of the loops of sim_stepping.py:199-233.  [None]: the outer loop has ended. *)
Definition step (dims : list dim) (s : st) : option st :=
  match iter_no s with
  | None => None                                            (* 219-220: iter_no < 0: break *)
  | Some i =>
      match nth_error dims i with
      | Some d =>                                           (* 200: 0 <= iter_no < len(iter_list) *)
          match nth i (iters s) [] with
          | [] =>                                           (* 203-206: StopIteration *)
              Some (St (match i with O => None | S i' => Some i' end)
                       (set_nth (iters s) i (if d_reiterable d then d_values d else []))
                       (net s) (runs s))
          | v :: rest =>                                    (* 202, 208-218 *)
              Some (St (Some (S i)) (set_nth (iters s) i rest)
                       (assign (net s) (d_target d) v) (runs s))
          end
      | None =>                                             (* 222-233: run, then iter_no = len-1 *)
          Some (St (match List.length dims with O => None | S k => Some k end)
                   (iters s) (net s) (runs s ++ [net s]))
      end
  end.

(** [while True]; [None] when out of fuel. *)
Fixpoint loop (fuel : nat) (dims : list dim) (s : st) : option (list netlist) :=
  match fuel with
  | O => None
  | S f => match step dims s with
           | None => Some (runs s)
           | Some s' => loop f dims s'
           end
  end.

(** sim_stepping.py:165-236 [run_all]; result: the netlists simulated, in order. *)
Definition run_all (fuel : nat) (dims : list dim) (n0 : netlist) : option (list netlist) :=
  loop fuel dims (St (Some 0) (map d_values dims) n0 []).

(** sim_stepping.py:154-163 [total_number_of_simulations]; empty sweeps are skipped. *)
Definition total_number_of_simulations (dims : list dim) : nat :=
  fold_left (fun total d => match List.length (d_values d) with O => total | l => total * l end) dims 1.
