(** Specification of a stepped simulation: lexicographic cartesian product. *)
From Coq Require Import String List.
From Verif Require Import StepperModel.
Import ListNotations.

(** All combinations, first sweep slowest. *)
Fixpoint combinations (dims : list dim) : list (list value) :=
  match dims with
  | [] => [[]]
  | d :: rest => flat_map (fun v => map (cons v) (combinations rest)) (d_values d)
  end.

(** The netlist [n0] in which the targets of the sweeps have been given the values of a combination
    (if two sweeps have the same target, the later one decides). *)
Fixpoint with_combination (n0 : netlist) (dims : list dim) (c : list value) : netlist :=
  match dims, c with
  | d :: dims', v :: c' => with_combination (assign n0 (d_target d) v) dims' c'
  | _, _ => n0
  end.

Definition same_netlist (a b : netlist) : Prop := forall t, a t = b t.

Definition all_reiterable (dims : list dim) : Prop := Forall (fun d => d_reiterable d = true) dims.
