(** Model of clearing parameters: spicelib/editor/primitives.py:282-300 ([clear_parameters], [clear_parameter], [clear_param]) on the
    attributes of a component of CompModel. The value None is the text None that str() makes of it (spice_components.py:352), as
    the value is only compared with texts and numbers of the statement and written. *)
From Coq Require Import String Ascii List Bool.
From Verif Require Import PyStr PTokModel CompModel.
Import ListNotations.
Local Open Scope string_scope.
Local Open Scope list_scope.

Definition py_none : pval := One (s2l "None").
(** 282-288: every key of the dictionary is given None; without parameters nothing happens *)
Definition clear_parameters (a : attrs) : attrs :=
  {| a_ref := a_ref a; a_ports := a_ports a; a_val := a_val a; a_par := option_map (map (fun kv => (fst kv, py_none))) (a_par a) |}.
(** 290-296, on attributes that were read before (otherwise [_attributes] has the parameters only) *)
Definition clear_parameter (k : str) (a : attrs) : attrs :=
  {| a_ref := a_ref a; a_ports := a_ports a; a_val := a_val a; a_par := Some (pset (match a_par a with Some d => d | None => [] end) k py_none) |}.
