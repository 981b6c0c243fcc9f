(** Specification for the list of the nodes of a netlist. *)
From Coq Require Import String Ascii List Bool Arith.
From Verif Require Import PyStr Regex CompSpec NodModel.
Import ListNotations.
Local Open Scope string_scope.
Local Open Scope nat_scope.
Local Open Scope list_scope.

(** [listed] has each of [all] once, in the order in which they are first met: what comes in [listed] before [x] is exactly what
    comes in [all] before the first [x]. *)
Definition first_met (all listed : list str) : Prop :=
  NoDup listed /\ (forall n, In n listed <-> In n all) /\
  forall p x q, all = p ++ x :: q -> ~ In x p -> exists a b, listed = a ++ x :: b /\ forall y, In y a <-> In y p.
(** The statements of a netlist, in order: each component or instance is a well-formed statement (CompSpec). *)
Inductive consists_of : list entry -> list comp -> Prop :=
| co_nil : consists_of [] []
| co_other e c : consists_of e c -> consists_of (OtherEntry :: e) c
| co_statement s ports e c : comp_ok s -> consists_of e c -> consists_of (Statement (Some (comp_text s)) ports :: e) (s :: c).
(** The nodes of statements, as they are written *)
Definition nodes_written (l : list comp) : list str := concat (map (fun c => map snd (c_nodes c)) l).
