(** Model of the list of the nodes of a netlist: spicelib/editor/spice_subcircuit.py:818-837 [SpiceCircuit.get_all_nodes] and
    40-78 [get_line_command] on a component (line 73: the first character of its text).
    Of an entry of the netlist only what this function looks at is kept. *)
From Coq Require Import String Ascii List Bool Arith.
From Verif Require Import PyStr Regex CompModel NetModel.
Import ListNotations.
Local Open Scope string_scope.
Local Open Scope nat_scope.
Local Open Scope list_scope.

(** An entry of [SpiceCircuit.netlist]: a SpiceComponent or SpiceCircuitInstance, with the text it was read from (primitives.py:62
    [_obj]; None when it was made from its attributes) and its ports (primitives.py:131-143); or anything else. *)
Inductive entry :=
| Statement (text : option str) (ports : list str)
| OtherEntry.

(** lines 827-833, for one entry; None: TypeError or IndexError of line 73.  The group of the nodes is in every pattern. *)
Definition nodes_of (text : option str) : option (list str) :=
  match text with
  | None => None
  | Some [] => None
  | Some (x :: r) =>
      match regex_of x with
      | None => Some []
      | Some rx =>
          match re_match rx (x :: r) with
          | None => Some []
          | Some (_, c) => match group gNODES (x :: r) c with Some n => Some (words n) | None => None end
          end
      end
  end.
(** lines 834-836 *)
Fixpoint note_nodes (circuit_nodes nodes : list str) : list str :=
  match nodes with
  | [] => circuit_nodes
  | n :: r => note_nodes (if existsb (str_eqb n) circuit_nodes then circuit_nodes else circuit_nodes ++ [n]) r
  end.
(** lines 826-837 *)
Fixpoint collect (circuit_nodes : list str) (netlist : list entry) : option (list str) :=
  match netlist with
  | [] => Some circuit_nodes
  | OtherEntry :: r => collect circuit_nodes r
  | Statement t _ :: r => match nodes_of t with Some ns => collect (note_nodes circuit_nodes ns) r | None => None end
  end.
Definition get_all_nodes (netlist : list entry) : option (list str) := collect [] netlist.

(** The entries of a netlist as NetModel reads it; the ports are those of the text (spice_components.py:241-283), or those set *)
Definition entry_of (i : item) : entry :=
  match i with
  | IComp obj e | IInst obj e _ => Statement (Some obj) (match attrs_now obj e with Some a => a_ports a | None => [] end)
  | _ => OtherEntry
  end.
Definition entries (l : list item) : list entry := map entry_of l.
