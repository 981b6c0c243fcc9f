(** Calls of the LTspice schematic editor, one after the other, and what it can be asked.  asc_editor.py. *)
From Coq Require Import String Ascii List Bool Arith ZArith.
From Verif Require Import PyStr StepsModel QTagModel AscModel AscSpec AscParSpec.
Import ListNotations.
Local Open Scope string_scope. Local Open Scope nat_scope. Local Open Scope list_scope.

(** The call of the editor that makes an edit; None: an exception. *)
Definition call (e : edit) (a : asc) : option asc :=
  match e with
  | SetValue ref v => set_component_value ref v a
  | Move ref x y r => match dget r rotations with Some n => set_component_position ref x y n a | None => None end
  | SetModel ref m => set_element_model ref m a
  | Remove ref => remove_component ref a
  | AddInstr s => add_instruction s a
  | RemInstr s => Some (fst (remove_instruction s a))
  | RemMatching pat => Some (fst (remove_Xinstruction pat a))
  | SetParam n v => set_parameter n v a
  end.
Fixpoint calls (es : list edit) (a : asc) : option asc :=
  match es with [] => Some a | e :: r => match call e a with Some a' => calls r a' | None => None end end.
(** set_parameter, one call after the other. *)
Fixpoint set_all (l : list setting) (a : asc) : option asc :=
  match l with [] => Some a | (n, v) :: r => match set_parameter n v a with Some a' => set_all r a' | None => None end end.
(** All that can be asked. *)
Definition same_answers (a b : asc) : Prop :=
  get_components a = get_components b /\ (forall ref, get_component_value ref a = get_component_value ref b) /\
  (forall ref, get_component_position ref a = get_component_position ref b) /\
  (forall conv ref, get_component_parameters conv ref a = get_component_parameters conv ref b) /\
  (forall n, get_parameter n a = get_parameter n b) /\ get_all_parameter_names a = get_all_parameter_names b.
