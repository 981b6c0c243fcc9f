(** Specification for histories of commands on a netlist: what each command does to the list of its statements; independent of the model. *)
From Coq Require Import String Ascii List Bool Arith.
From Verif Require Import PyStr Regex PTokSpec CompSpec CompProps NetSpec EditSpec.
Import ListNotations.
Local Open Scope string_scope.
Local Open Scope nat_scope.
Local Open Scope list_scope.

(** the text of a statement; that of a control section without the blanks at the ends of its lines *)
Definition stmt_text (s : stmt) : str :=
  match s with Control h b t => concat (map (fun l => full (rstrip l)) (h :: b ++ [t])) | _ => concat (stmt_lines s) end.
(** The statements an instruction can be compared with: directives, control sections and includes. *)
Definition is_instruction (s : stmt) : bool := match s with Directive _ | Control _ _ _ | Include _ _ => true | _ => false end.
Definition says (l : str) (s : stmt) : bool := is_instruction s && str_eqb (strip (stmt_text s)) (strip l).
(** the first word of a line, in upper case *)
Fixpoint drop_blanks (l : str) : str :=
  match l with [] => [] | c :: r => if aeqb c " " || aeqb c "009" then drop_blanks r else l end.
Fixpoint until_blank (l : str) : str :=
  match l with [] => [] | c :: r => if aeqb c " " || aeqb c "009" || aeqb c NL || aeqb c CR then [] else c :: until_blank r end.
Definition word1 (l : str) : str := upper (until_blank (drop_blanks l)).
Definition simulations : list str := map s2l [".AC"; ".DC"; ".TRAN"; ".NOISE"; ".TF"].
Definition is_sim (l : str) : bool := existsb (str_eqb (word1 l)) simulations.
Definition sim_stmt (s : stmt) : bool := match s with Directive l => is_sim l | _ => false end.
Definition backanno (s : stmt) : bool := is_instruction s && startswith (s2l ".backanno") (lower (stmt_text s)).

(** operations on lists: replace, delete the first element with [p]; insert before it, or else [k] places from the end *)
Fixpoint replace_first {A} (p : A -> bool) (x : A) (l : list A) : list A :=
  match l with [] => [] | y :: r => if p y then x :: r else y :: replace_first p x r end.
Fixpoint delete_first {A} (p : A -> bool) (l : list A) : list A :=
  match l with [] => [] | y :: r => if p y then r else y :: delete_first p r end.
Fixpoint insert_before {A} (p : A -> bool) (x : A) (l : list A) : list A :=
  match l with [] => [] | y :: r => if p y then x :: y :: r else y :: insert_before p x r end.
Definition insert_from_end {A} (k : nat) (x : A) (l : list A) : list A := firstn (length l - k) l ++ x :: skipn (length l - k) l.

(** Commands: an edit of a component; adding and removing components and instructions ([nl]: the text given ends with a newline). *)
Inductive position := BeforePart (ref : str) | AfterPart (ref : str) | LastPart.
Inductive cmd :=
| Edit (e : edit)
| AddPart (c : comp) (p : position)
| RemovePart (ref : str)
| AddLine (l : str) (nl : bool)
| RemoveLine (l : str)
| RemoveMatching (pat : str -> bool).
Definition add_line (l : str) (st : list stmt) : list stmt :=
  if is_sim l && existsb sim_stmt st then replace_first sim_stmt (Directive l) st
  else if existsb (says l) st then st
  else if existsb backanno st then insert_before backanno (Directive l) st
  else insert_from_end 1 (Directive l) st.
Definition matched (pat : str -> bool) (s : stmt) : bool :=
  match s with Note _ | Directive _ | Control _ _ _ | Include _ _ => pat (stmt_text s) | _ => false end.
Definition run_cmd (k : cmd) (st : list stmt) : list stmt :=
  match k with
  | Edit e => apply_edit e st
  | AddPart c (BeforePart r) => on_part r (fun c0 => [Part c; Part c0]) st
  | AddPart c (AfterPart r) => on_part r (fun c0 => [Part c0; Part c]) st
  | AddPart c LastPart => insert_from_end 2 (Part c) st
  | RemovePart r => on_part r (fun _ => []) st
  | AddLine l _ => add_line l st
  | RemoveLine l => delete_first (says l) st
  | RemoveMatching pat => filter (fun s => negb (matched pat s)) st
  end.
(** A reference that can be looked up in the netlist: see C71. *)
Definition plain_name (r : str) (st : list stmt) : Prop := ~ In ":"%char r /\ no_definition_named r st.
(** the commands a netlist admits *)
Definition cmd_ok (k : cmd) (st : list stmt) : Prop :=
  match k with
  | Edit e => edit_ok e st /\ plain_name (edit_ref e) st
  | AddPart c p => part_ok good_names c /\
      match p with BeforePart r | AfterPart r => plain_name r st /\ part_named r st <> None | LastPart => True end
  | RemovePart r => plain_name r st /\ part_named r st <> None
  | AddLine l _ => is_directive l /\ word1 l <> s2l ".PARAM" /\ ~ In NL l
  | RemoveLine l => is_directive l
  | RemoveMatching pat => forall c, part_ok good_names c -> pat (comp_text c) = false
  end.
Fixpoint cmds_ok (ks : list cmd) (st : list stmt) : Prop :=
  match ks with [] => True | k :: r => cmd_ok k st /\ cmds_ok r (run_cmd k st) end.
Definition run_cmds (ks : list cmd) (st : list stmt) : list stmt := fold_left (fun l k => run_cmd k l) ks st.
