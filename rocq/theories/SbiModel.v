(** Model of instructions in sub-circuits and of control sections: spicelib/editor/spice_subcircuit.py:363-388 ([clone]), 843-935
    ([class_for_instruction], [add_instruction], [remove_instruction], [remove_Xinstruction] of a SpiceCircuit), 1034-1064;
    spice_subcircuit_instance.py:49-101; base_subcircuit.py:45-63; spice_file.py:24-84 and spice_editor.py:134-188 (control sections).
    Simplifications: a definition is its name, the text of its nodes and its entries, so that [setname] (407-445) writes the new name;
    the entries are those the functions tell apart; the text of an entry is what is saved of it (components and include files are written
    as in CompModel, NetModel); an editor gives the permission of the netlist. *)
From Coq Require Import String Ascii List Bool Arith ZArith.
From Verif Require Import PyStr Regex UpdatesModel CompModel NetModel EditModel.
Import ListNotations.
Local Open Scope string_scope.
Local Open Scope nat_scope.
Local Open Scope list_scope.

(** A Primitive (component, directive, include file; a ControlEditor if [control]) with its text, None if it was made without one
    (primitives.py:60-62); a plain text; a definition inside. *)
Inductive entry := Prim (control : bool) (obj : option str) | Plain (s : str) | Nested (l : list str).

(** spice_subcircuit.py:872-878, 897-906, spice_file.py:65-68, 93-101: the first Primitive with this text but for outer blanks.
    The outer None: AttributeError, the entry has no text. *)
Fixpoint first_same (instr : str) (l : list entry) : option (option nat) :=
  match l with
  | [] => Some None
  | Prim _ None :: _ => None
  | Prim _ (Some s) :: r => if str_eqb (strip s) (strip instr) then Some (Some 0) else option_map (option_map S) (first_same instr r)
  | _ :: r => option_map (option_map S) (first_same instr r)
  end.
Definition ended (s : str) : str := if endswith NLs s then s else s ++ NLs.
(** 843-861.  Line 848: ControlEditor(self, instruction) has no argument named obj, so that its text is None *)
Definition entry_for (instr cmd : str) : entry :=
  if str_eqb cmd (s2l ".CONTROL") then Prim true None
  else if startswith (s2l ".") cmd || (match cmd with [c] => valid_prefix c | _ => false end) then Prim false (Some instr)
  else Plain instr.
(** 863-887; None: an exception *)
Definition sub_add (instr : str) (l : list entry) : option (list entry) :=
  match line_command instr with
  | None => None
  | Some cmd =>
      match is_unique cmd with
      | None | Some true => None
      | Some false =>
          if str_eqb cmd (s2l ".PARAM") then None
          else match first_same instr l with
               | None => None
               | Some (Some _) => Some l
               | Some None => Some (insert_item l (length l - 1) (entry_for (ended instr) cmd))
               end
      end
  end.
(** 922-930: the text the pattern is tried on *)
Definition entry_text (e : entry) : option str := match e with Prim _ o => o | Plain s => Some s | Nested _ => None end.
Definition hit (pat : str -> bool) (e : entry) : bool := match entry_text e with Some s => pat s | None => false end.
Fixpoint remove_hits (pat : str -> bool) (l : list entry) : list entry * list str :=
  match l with
  | [] => ([], [])
  | e :: r => let '(k, g) := remove_hits pat r in
              match entry_text e with
              | Some s => if pat s then (k, strip s :: g) else (e :: k, g)
              | None => (e :: k, g)
              end
  end.

(** 889-910 and 912-935, with the permission of the netlist; the entries left, the updates noted, the result (None: an exception) *)
Definition sub_remove (pm : permission) (instr : str) (l : list entry) : list entry * list str * option bool :=
  match pm with
  | Deny => (l, [], Some false)
  | _ => match first_same instr l with
         | None => (l, [], None)
         | Some None => (l, [], Some false)
         | Some (Some k) => (delete_item l k, [log_text (strip instr)], Some true)
         end
  end.
Definition sub_remove_matching (pm : permission) (pat : str -> bool) (l : list entry) : list entry * list str * bool :=
  match pm with
  | Deny => (l, [], false)
  | _ => let '(k, g) := remove_hits pat l in (k, g, match g with [] => false | _ => true end)
  end.

(** A definition read from a netlist: name, nodes, entries between the header and the end *)
Record defn := { d_name : str; d_nodes : str; d_body : list entry }.
Definition header (name nodes : str) : str := s2l ".subckt " ++ name ++ s2l " " ++ nodes ++ NLs.
Definition footer (name : str) : str := s2l ".ENDS " ++ name ++ NLs.
Definition entries_of (d : defn) : list entry :=
  Prim false (Some (header (d_name d) (d_nodes d))) :: d_body d ++ [Prim false (Some (footer (d_name d)))].
(** 363-388, 407-445: the header becomes a text (429), a ControlEditor a Primitive (380) *)
Definition cloned (e : entry) : entry := match e with Prim _ o => Prim false o | e => e end.
Definition first_line : str := s2l "***** SpiceEditor Manipulated this sub-circuit ****" ++ NLs.
Definition last_line : str := s2l "***** ENDS SpiceEditor ****" ++ NLs.
Definition clone (d : defn) (new_name : str) : list entry :=
  Plain first_line :: Plain (header new_name (d_nodes d)) :: map cloned (d_body d) ++ [Prim false (Some (footer new_name)); Plain last_line].

(** An instance in a netlist that may be edited: reference, the name in its statement, the definition of this name, its own copy (modified,
    name, entries) if there is one, and the updates noted *)
Record inst := { i_ref : str; i_value : str; i_def : defn; i_copy : option (bool * str * list entry); i_log : list logged }.
(** spice_subcircuit_instance.py:49-63 [subcircuit] *)
Definition own_copy (i : inst) : bool * str * list entry :=
  match i_copy i with
  | Some c => c
  | None => let n := i_value i ++ s2l "_" ++ i_ref i in (false, n, clone (i_def i) n)
  end.
Definition note (i : inst) (name value : str) (t : utype) : list logged := i_log i ++ [{| g_name := name; g_value := txt value; g_type := t |}].
(** spice_subcircuit_instance.py:83-94 [begin_update], reached through base_subcircuit.py:45-51 *)
Definition begin_update (i : inst) : inst :=
  let '(m, n, l) := own_copy i in
  if m then i
  else let g := note i (s2l "CLONE(" ++ i_value i ++ s2l ")") (i_value i) UpCloneSubcircuit in
       {| i_ref := i_ref i; i_value := n; i_def := i_def i; i_copy := Some (m, n, l);
          i_log := g ++ [{| g_name := i_ref i; g_value := txt n; g_type := UpUpdateComponentValue |}] |}.
(** spice_subcircuit.py:863-887 on the copy of an instance: no update is begun or ended *)
Definition inst_add (instr : str) (i : inst) : option inst :=
  let '(m, n, l) := own_copy i in
  match sub_add instr l with
  | Some l' => Some {| i_ref := i_ref i; i_value := i_value i; i_def := i_def i; i_copy := Some (m, n, l'); i_log := i_log i |}
  | None => None
  end.
(** spice_subcircuit.py:889-910 on the copy of an instance; None: an exception *)
Definition inst_remove (instr : str) (i : inst) : option (bool * inst) :=
  let i1 := begin_update i in
  let '(m, n, l) := own_copy i1 in
  match first_same instr l with
  | None => None
  | Some None => Some (false, i1)
  | Some (Some k) => Some (true, {| i_ref := i_ref i1; i_value := i_value i1; i_def := i_def i1; i_copy := Some (true, n, delete_item l k);
                                    i_log := note i1 (i_ref i1 ++ s2l ":INSTRUCTION") (log_text (strip instr)) UpDeleteInstruction |})
  end.
(** What saving writes for an instance: the name in its statement, and its copy if it is modified (spice_subcircuit.py:239-242, 1034-1045,
    spice_subcircuit_instance.py:78-81) *)
Definition written (i : inst) : str * list (list entry) :=
  (i_value i, match i_copy i with Some (true, _, l) => [l] | _ => [] end).

(** ** Control sections of the netlist of an editor *)
(** spice_file.py:71-81: where an instruction goes; None: AttributeError *)
Fixpoint backanno_at (l : list entry) : option (option nat) :=
  match l with
  | [] => Some None
  | Prim _ None :: _ => None
  | Prim _ (Some s) :: r => if startswith (s2l ".backanno") (lower s) then Some (Some 0) else option_map (option_map S) (backanno_at r)
  | _ :: r => option_map (option_map S) (backanno_at r)
  end.
(** spice_editor.py:148-161 and spice_file.py:41-81, on a control section; None: an exception *)
Definition add_control (instr : str) (l : list entry) : option (list entry) :=
  let t := strip instr in
  if startswith (s2l ".CONTROL") (upper t) && endswith (s2l ".ENDC") (upper t) then
    match line_command (ended t) with
    | None => None
    | Some cmd =>
        match first_same t l with
        | None => None
        | Some (Some _) => Some l
        | Some None => match backanno_at l with
                       | None => None
                       | Some p => Some (insert_item l (match p with Some k => k | None => length l - 1 end) (entry_for (ended t) cmd))
                       end
        end
    end
  else None.
(** spice_editor.py:142-146 *)
Fixpoint get_controls (l : list entry) : list (option str) :=
  match l with [] => [] | Prim true o :: r => o :: get_controls r | _ :: r => get_controls r end.
(** spice_editor.py:171-188: what becomes of the netlist, and the result; None: an exception (AttributeError of line 181, or 175) *)
Fixpoint remove_nth_control (n : nat) (l : list entry) : list entry * option bool :=
  match l with
  | [] => ([], Some false)
  | Prim true o :: r => match n with
                        | O => (r, match o with Some _ => Some true | None => None end)
                        | S m => let '(k, b) := remove_nth_control m r in (Prim true o :: k, b)
                        end
  | e :: r => let '(k, b) := remove_nth_control n r in (e :: k, b)
  end.
Definition remove_control (index : Z) (l : list entry) : list entry * option bool :=
  if (index <? 0)%Z then (l, None) else remove_nth_control (Z.to_nat index) l.
(** spice_subcircuit.py:222-245, 1064: the text saved; None: TypeError or AttributeError *)
Fixpoint saved (l : list entry) : option str :=
  match l with
  | [] => Some []
  | e :: r =>
      match (match e with Prim _ o => o | Plain s => Some s | Nested k => Some (concat k) end), saved r with
      | Some t, Some u => Some (t ++ u)
      | _, _ => None
      end
  end.
