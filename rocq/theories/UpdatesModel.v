(** Model of spicelib/editor/updates.py (the log of netlist edits). *)
From Coq Require Import String List Bool ZArith.
Import ListNotations.
Local Open Scope string_scope.

(** updates.py:14-31 [class UpdateType].  [UpInvalid] is [InvalidUpdate].
    The other members are transcribed one by one. *)
Inductive utype :=
| UpInvalid | UpUpdateParameter | UpUpdateComponentValue | UpUpdateComponentParameter
| UpDeleteParameter | UpDeleteComponent | UpDeleteComponentParameter | UpDeleteInstruction
| UpAddParameter | UpAddComponent | UpAddComponentParameter | UpAddInstruction
| UpUpdateInstruction | UpCloneSubcircuit.

Definition utype_eqb (a b : utype) : bool :=
  match a, b with
  | UpInvalid, UpInvalid | UpUpdateParameter, UpUpdateParameter
  | UpUpdateComponentValue, UpUpdateComponentValue
  | UpUpdateComponentParameter, UpUpdateComponentParameter
  | UpDeleteParameter, UpDeleteParameter | UpDeleteComponent, UpDeleteComponent
  | UpDeleteComponentParameter, UpDeleteComponentParameter
  | UpDeleteInstruction, UpDeleteInstruction | UpAddParameter, UpAddParameter
  | UpAddComponent, UpAddComponent | UpAddComponentParameter, UpAddComponentParameter
  | UpAddInstruction, UpAddInstruction | UpUpdateInstruction, UpUpdateInstruction
  | UpCloneSubcircuit, UpCloneSubcircuit => true
  | _, _ => false
  end.

(** updates.py: UpdateValueType = str | int | float | None.  Simplification: the two
    numeric types are one constructor over Z (only equality of values matters here). *)
Inductive uval := VNone | VStr (s : string) | VNum (z : Z).

Definition uval_eqb (a b : uval) : bool :=
  match a, b with
  | VNone, VNone => true
  | VStr s, VStr t => String.eqb s t
  | VNum x, VNum y => Z.eqb x y
  | _, _ => false
  end.

(** updates.py:32-38 [@dataclass Update]. *)
Record update := Upd { u_name : string; u_value : uval; u_type : utype }.

(** updates.py:104-110: the test deciding that an existing entry is the one to overwrite. *)
Definition entry_matches (u : update) (name : string) (value : uval) (ty : utype) : bool :=
  String.eqb (u_name u) name
  && (negb (String.eqb name "INSTRUCTION") || uval_eqb value (u_value u))
  && (utype_eqb (u_type u) ty || utype_eqb ty UpInvalid).

(** updates.py:100-113 [Updates.add_update]: overwrite the first matching entry, else append. *)
Fixpoint add_update (log : list update) (name : string) (value : uval) (ty : utype)
  : list update :=
  match log with
  | [] => [Upd name value ty]
  | u :: rest =>
      if entry_matches u name value ty
      then Upd (u_name u) value (if utype_eqb ty UpInvalid then u_type u else ty) :: rest
      else u :: add_update rest name value ty
  end.

(** updates.py:115-120 [Updates.value]: [None] result is [VNone]. *)
Fixpoint log_value (log : list update) (reference : string) : uval :=
  match log with
  | [] => VNone
  | u :: rest =>
      if utype_eqb (u_type u) UpUpdateComponentValue && String.eqb (u_name u) reference
      then u_value u else log_value rest reference
  end.

(** updates.py:122-127 [Updates.parameter]. *)
Fixpoint log_parameter (log : list update) (name : string) : uval :=
  match log with
  | [] => VNone
  | u :: rest =>
      if (utype_eqb (u_type u) UpUpdateParameter || utype_eqb (u_type u) UpAddParameter)
         && String.eqb name (u_name u)
      then u_value u else log_parameter rest name
  end.

(** updates.py:129-130 [Updates.updates_on]. *)
Definition log_updates_on (log : list update) (name : string) : list update :=
  filter (fun u => String.prefix name (u_name u)) log.

(** A history: the calls of [add_update] made on an initially empty log (updates.py:70-71). *)
Definition log_of (h : list update) : list update :=
  fold_left (fun l e => add_update l (u_name e) (u_value e) (u_type e)) h [].
