(** What the parameters of a QSPICE schematic promise. *)
From Coq Require Import String Ascii List Bool Arith ZArith.
From Verif Require Import PyStr ParSpec QTagModel QTagSpec QEdModel QEdSpec.
Import ListNotations.
Local Open Scope string_scope. Local Open Scope nat_scope. Local Open Scope list_scope.

(** A text that is no .PARAM line, whatever stands before it as qualifier. *)
Definition no_param_line (s : str) : Prop := forall q w r, s = q ++ w ++ r -> (forall c, In c q -> In c QUAL) -> upper w <> s2l ".PARAM".
(** The directives are as QSPICE writes them, with the qualifier in front, and each .PARAM line is a well-formed one (ParSpec). *)
Definition par_texts (ed : qed) : Prop := (forall i, In i (q_items ed) -> i < q_next ed) /\
  forall i, In i (q_items ed) -> head_is (s2l "text") (q_store ed i) = true ->
    comment_of (q_store ed i) = Some true \/
    comment_of (q_store ed i) = Some false /\ exists s, text_of (q_store ed i) = Some s /\
      (no_param_line s \/ exists p, s = QUAL ++ pline_text p /\ pline_ok p /\ l_lead p = []).
(** Settings of parameters, one after the other. *)
Definition setting : Type := str * str.
Fixpoint set_all (l : list setting) (ed : qed) : option qed :=
  match l with [] => Some ed | (n, v) :: r => match set_parameter n v ed with Some ed' => set_all r ed' | None => None end end.
(** Names and values; a name that is new must not begin like a value (C76), as for netlists. *)
Definition setting_ok (k : setting) : Prop :=
  par_name_ok (fst k) /\ par_value (snd k) /\ good_text (snd k) /\ match fst k with c :: _ => begins_value c = false | [] => True end.
Fixpoint settings (l : list setting) (f : str -> option str) : str -> option str :=
  match l with [] => f | (n, v) :: r => settings r (fun x => if str_eqb (upper x) (upper n) then Some v else f x) end.
