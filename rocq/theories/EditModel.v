(** Model of the operations of a netlist editor on the entries of its netlist: spicelib/editor/spice_file.py:24-133
    (instructions), spice_editor.py:133-200 (control sections), spice_subcircuit.py:680-816 (components).
    Each gives the new editor, or None when the code raises an exception; the entries then are those of before. *)
From Coq Require Import String Ascii List Bool Arith ZArith.
From Verif Require Import PyStr EngModel Regex SepModel PTokModel CompModel UpdatesModel NetModel.
Import ListNotations.
Local Open Scope string_scope.
Local Open Scope nat_scope.
Local Open Scope list_scope.

(** spice_utils.py:24 *)
Definition unique_commands : list str := map s2l [".AC"; ".DC"; ".TRAN"; ".NOISE"; ".TF"].
(** spice_subcircuit.py:79-85 [_is_unique_instruction]; None: SyntaxError *)
Definition is_unique (line : str) : option bool := option_map (fun c => existsb (str_eqb c) unique_commands) (line_command line).
(** isinstance(entry, Primitive), and its text *)
Definition prim_obj (it : item) : option str :=
  match it with IText _ | ISub _ => None | IPrim s | ICtrl s | IInc s _ | IComp s _ | IInst s _ _ => Some s end.
(** the command of a Primitive passed as text ([line.obj]) *)
(** spice_file.py:55-66: the position of the first Primitive that is a simulation command; None: SyntaxError *)
Fixpoint find_unique (l : list item) : option (option nat) :=
  match l with
  | [] => Some None
  | it :: r =>
      match prim_obj it with
      | None => option_map (option_map S) (find_unique r)
      | Some s => match is_unique s with
                  | None => None
                  | Some true => Some (Some 0)
                  | Some false => option_map (option_map S) (find_unique r)
                  end
      end
  end.
(** spice_file.py:71-74, 92-93: the position of the first Primitive with the same text but for outer blanks *)
Definition same_text (instr : str) (it : item) : bool := match prim_obj it with Some s => str_eqb (strip s) (strip instr) | None => false end.
Fixpoint find_first {A} (p : A -> bool) (l : list A) : option nat :=
  match l with [] => None | x :: r => if p x then Some 0 else option_map S (find_first p r) end.
(** list.insert and del *)
Definition insert_item {A} (l : list A) (i : nat) (x : A) : list A := firstn i l ++ x :: skipn i l.
Definition delete_item {A} (l : list A) (i : nat) : list A := firstn i l ++ skipn (S i) l.
(** spice_file.py:77-84 *)
Definition is_backanno (it : item) : bool := match prim_obj it with Some s => startswith (s2l ".backanno") (lower s) | None => false end.
Definition insert_place (l : list item) : nat := match find_first is_backanno l with Some i => i | None => length l - 1 end.
(** spice_subcircuit.py:843-861 [class_for_instruction].  A component is always a SpiceComponent, even an instance.
    A control section (848) is made without its text: every later look at the entries fails; see CtlModel, here it counts as an exception. *)
Definition item_for (en : env) (instr cmd : str) : item :=
  if startswith (s2l ".INC") cmd then IInc instr (e_inc en instr)
  else if (match cmd with [c] => valid_prefix c | _ => false end) then IComp instr None
  else if startswith (s2l ".") cmd then IPrim instr
  else IText instr.
(** one call of end_update *)
Definition note_update (ed : editor) (l : list item) (name value : str) (t : utype) : editor :=
  {| n_items := l;
     n_log := match n_perm ed with Inform => log1 (n_log ed) {| g_name := name; g_value := txt value; g_type := t |} | _ => n_log ed end;
     n_perm := n_perm ed |}.
(** spice_file.py:24-86 [add_instruction] *)
Definition add_instruction (en : env) (instruction : str) (ed : editor) : option editor :=
  match n_perm ed with
  | Deny => None
  | _ =>
      let instr := if endswith NLs instruction then instruction else instruction ++ NLs in
      let add cmd :=
        match find_first (same_text instr) (n_items ed) with
        | Some _ => Some ed
        | None =>
            if str_eqb cmd (s2l ".CONTROL") then None
            else Some (note_update ed (insert_item (n_items ed) (insert_place (n_items ed)) (item_for en instr cmd))
                         (s2l "INSTRUCTION") (strip instr) UpAddInstruction)
        end in
      match line_command instr with
      | None => None
      | Some cmd =>
          match is_unique cmd with
          | None => None
          | Some true =>
              match find_unique (n_items ed) with
              | None => None
              | Some (Some i) => Some (note_update ed (set_item (n_items ed) i (IPrim instr)) (s2l "INSTRUCTION") (strip instr) UpUpdateInstruction)
              | Some None => add cmd
              end
          | Some false => if str_eqb cmd (s2l ".PARAM") then None else add cmd
          end
      end
  end.
(** [str.replace] of carriage returns and newlines in the log text *)
Definition log_text (s : str) : str :=
  concat (map (fun c => if aeqb c "013" then s2l "\r" else if aeqb c "010" then s2l "\n" else [c]) s).
(** spice_file.py:86-106 [remove_instruction] *)
Definition remove_instruction (instruction : str) (ed : editor) : option (bool * editor) :=
  match n_perm ed with
  | Deny => None
  | _ => match find_first (same_text instruction) (n_items ed) with
         | Some i => Some (true, note_update ed (delete_item (n_items ed) i) (s2l "INSTRUCTION") (log_text (strip instruction)) UpDeleteInstruction)
         | None => Some (false, ed)
         end
  end.
(** spice_file.py:108-133 [remove_Xinstruction]; [pat]: whether the pattern matches at the start of the text *)
Definition any_text (it : item) : option str := match it with ISub _ => None | IText s => Some s | it => prim_obj it end.
Definition to_remove (pat : str -> bool) (it : item) : bool := match any_text it with Some s => pat s | None => false end.
Definition remove_matching (pat : str -> bool) (ed : editor) : option (bool * editor) :=
  match n_perm ed with
  | Deny => None
  | pm =>
      let removed := filter (to_remove pat) (n_items ed) in
      Some (match removed with [] => false | _ => true end,
            {| n_items := filter (fun it => negb (to_remove pat it)) (n_items ed);
               n_log := match pm with
                        | Inform => fold_left log1 (map (fun it => {| g_name := s2l "INSTRUCTION";
                                                                      g_value := txt (strip (match any_text it with Some s => s | None => [] end));
                                                                      g_type := UpDeleteInstruction |}) removed) (n_log ed)
                        | _ => n_log ed end;
               n_perm := n_perm ed |})
  end.
(** spice_editor.py:134-146 [get_control_sections] *)
Fixpoint control_sections (l : list item) : list str :=
  match l with [] => [] | ICtrl s :: r => s :: control_sections r | _ :: r => control_sections r end.
(** spice_editor.py:148-162 [add_control_section] *)
Definition add_control_section (en : env) (instruction : str) (ed : editor) : option editor :=
  let i := strip instruction in
  if startswith (s2l ".CONTROL") (upper i) && endswith (s2l ".ENDC") (upper i) then add_instruction en i ed else None.
(** spice_editor.py:163-190 [remove_control_section] *)
Fixpoint find_control (n : nat) (l : list item) : option (nat * str) :=
  match l with
  | [] => None
  | ICtrl s :: r => match n with 0 => Some (0, s) | S m => option_map (fun x => (S (fst x), snd x)) (find_control m r) end
  | _ :: r => option_map (fun x => (S (fst x), snd x)) (find_control n r)
  end.
Definition remove_control_section (index : Z) (ed : editor) : option (bool * editor) :=
  match n_perm ed with
  | Deny => None
  | _ => if (index <? 0)%Z then None
         else match find_control (Z.to_nat index) (n_items ed) with
              | Some (i, s) => Some (true, note_update ed (delete_item (n_items ed) i) (s2l "INSTRUCTION") (log_text s) UpDeleteInstruction)
              | None => Some (false, ed)
              end
  end.

(** Where a component is added: [insert_before], [insert_after] or at the end *)
Inductive place := Before (ref : str) | After (ref : str) | AtEnd.
(** the position of a component in the netlist of the editor: one inside a sub-circuit is not in the list (ValueError) *)
Definition index_of (en : env) (reference : str) (l : list item) : option nat :=
  match ref_path reference with
  | [] => match find_ref (e_name en) (ref_last reference) l with Some (At i) => Some i | _ => None end
  | _ => None
  end.
(** spice_subcircuit.py:762-797 [add_component], of a component made from the text of its statement.
    The test for '.backanno' compares entries with a text and never succeeds on a loaded netlist. *)
Definition add_component (en : env) (line : str) (p : place) (ed : editor) : option editor :=
  match n_perm ed with
  | Deny => None
  | _ =>
      match parse_line line,
            (match p with
             | Before r => index_of en r (n_items ed)
             | After r => option_map S (index_of en r (n_items ed))
             | AtEnd => Some (length (n_items ed) - 2)
             end) with
      | Some a, Some i => Some (note_update ed (insert_item (n_items ed) i (IComp line None)) (a_ref a)
                                  (match a_val a with Some v => v | None => [] end) UpAddComponent)
      | _, _ => None
      end
  end.
(** spice_subcircuit.py:799-816 [remove_component] *)
Definition remove_component (en : env) (designator : str) (ed : editor) : option editor :=
  match n_perm ed with
  | Deny => None
  | _ => match index_of en designator (n_items ed) with
         | Some i => Some (note_update ed (delete_item (n_items ed) i) designator (s2l "delete") UpDeleteComponent)
         | None => None
         end
  end.
(** spice_subcircuit.py:680-708 [set_element_model] on a component of the editor's own netlist: the value is set and noted twice *)
Definition set_element_model (en : env) (reference model : str) (ed : editor) : option editor :=
  match set_component_value en reference model ed with
  | Some ed' => Some (note_update ed' (n_items ed') reference model UpUpdateComponentValue)
  | None => None
  end.
(** spice_subcircuit.py:550-563 [get_component_parameters], without the entry "Value" that repeats the value; None: an exception *)
Definition get_component_parameters (en : env) (reference : str) (l : list item) : option pdict :=
  match get_component en reference l with
  | Some it => option_map (fun a => match a_par a with Some d => d | None => [] end) (comp_attrs it)
  | None => None
  end.
(** spice_subcircuit.py:863-889 [SpiceCircuit.add_instruction], on the netlist [l] of a sub-circuit whose editor has permission [pm]
    (which is not asked for); None: an exception.  The '.ENDS' entry is the last one. *)
Definition sub_add_instruction (en : env) (pm : permission) (instruction : str) (l : list item) : option (list item) :=
  match line_command instruction with
  | None => None
  | Some cmd =>
      match is_unique cmd with
      | None | Some true => None
      | Some false =>
          if str_eqb cmd (s2l ".PARAM") then None
          else match find_first (same_text instruction) l with
               | Some _ => Some l
               | None =>
                   if str_eqb cmd (s2l ".CONTROL") then None          (* made without a text: see item_for *)
                   else let instr := if endswith NLs instruction then instruction else instruction ++ NLs in
                   Some (insert_item l (length l - 1) (item_for en instr cmd))
               end
      end
  end.
