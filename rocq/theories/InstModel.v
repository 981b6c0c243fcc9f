(** Edits of components inside instances through the editor: sequences of calls of the API. *)
From Coq Require Import String Ascii List Bool.
From Verif Require Import PyStr PTokSpec CompSpec NetModel EditSpec InstSpec.
Import ListNotations.
Local Open Scope string_scope.
Local Open Scope list_scope.

(** spice_subcircuit.py:516-574 through spice_editor.py: set_component_value("X1:R1", v), set_component_parameters("X1:R1", k=v) with
    one keyword (None removes the parameter); None: an exception *)
Definition api_change (en : env) (pe : list str * edit) (ed : editor) : option editor :=
  match snd pe with
  | SetValue r v => set_component_value en (full_ref (fst pe) r) v ed
  | SetParam r k w => set_component_parameter en (full_ref (fst pe) r) k (Some (word_text w)) ed
  | DropParam r k => set_component_parameter en (full_ref (fst pe) r) k None ed
  end.
Fixpoint api_changes (en : env) (es : list (list str * edit)) (ed : editor) : option editor :=
  match es with [] => Some ed | pe :: r => match api_change en pe ed with Some ed' => api_changes en r ed' | None => None end end.
