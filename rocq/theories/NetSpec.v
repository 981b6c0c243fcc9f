(** Specification for netlists: what the statements of a netlist file are, independent of the model.  Lines are given without their newline. *)
From Coq Require Import String Ascii List Bool Arith.
From Verif Require Import PyStr Regex PTokSpec CompSpec.
Import ListNotations.
Local Open Scope string_scope.
Local Open Scope list_scope.

(** Statements: a comment or blank line; a directive; a component; a control section; the definition of a sub-circuit; an include
    statement with the statements of the file it names. *)
Inductive stmt :=
| Note (l : str)
| Directive (l : str)
| Part (c : comp)
| Control (head : str) (body : list str) (tail : str)
| Circuit (head : str) (body : list stmt) (tail : str)
| Include (l : str) (body : list stmt).
Record doc := { d_body : list stmt; d_end : str; d_after : list str }.

Definition full (l : str) : str := l ++ [NL].
(** the lines of the file *)
Fixpoint stmt_lines (s : stmt) : list str :=
  match s with
  | Note l | Directive l | Include l _ => [full l]
  | Part c => [comp_text c]
  | Control h b t => map full (h :: b ++ [t])
  | Circuit h b t => full h :: concat (map stmt_lines b) ++ [full t]
  end.
Definition body_lines (b : list stmt) : list str := concat (map stmt_lines b).
Definition doc_lines (d : doc) : list str := body_lines (d_body d) ++ full (d_end d) :: map full (d_after d).

(** What kind of line a line is, from its first character after blanks and its first word. *)
Definition blanks (b : str) : Prop := forall c, In c b -> c = " "%char \/ c = "009"%char.
Definition ends_word (c : ascii) : Prop := c = " "%char \/ c = "009"%char \/ c = NL \/ c = CR.
Definition is_note (l : str) : Prop :=
  exists b r, l = b ++ r /\ blanks b /\ match r with [] => True | c :: _ => In c (s2l "#;*") \/ c = NL \/ c = CR end.
Definition first_word (w l : str) : Prop :=
  exists b u r, l = b ++ u ++ r /\ blanks b /\ (exists v, u = "."%char :: v) /\ (forall c, In c u -> ~ ends_word c) /\
    match r with [] => True | c :: _ => ends_word c end /\ w = upper u.
Definition begins (p w : str) : Prop := exists r, w = p ++ r.
Definition is_directive (l : str) : Prop :=
  exists w, first_word w l /\ w <> s2l ".SUBCKT" /\ w <> s2l ".CONTROL" /\ ~ begins (s2l ".INC") w /\ ~ begins (s2l ".END") w.
Definition ends_control (l : str) : Prop := begins (s2l ".ENDC") (upper (strip l)).

(** names of the parameters: neither numbers nor reserved words, and distinct (CompProps.good_names) *)
Definition part_ok (named : list (str * param) -> Prop) (c : comp) : Prop :=
  comp_ok c /\ named (c_pars c) /\ (forall lo hi, family_of (c_kind c) = Some (Controlled, lo, hi) -> c_end c = []).
Fixpoint stmt_ok (named : list (str * param) -> Prop) (s : stmt) : Prop :=
  match s with
  | Note l => is_note l
  | Directive l => is_directive l
  | Part c => part_ok named c
  | Control h b t => first_word (s2l ".CONTROL") h /\ (forall l, In l b -> ~ ends_control l) /\ ends_control t
  | Circuit h b t => first_word (s2l ".SUBCKT") h /\ fold_right and True (map (stmt_ok named) b) /\ first_word (s2l ".ENDS") t
  | Include l b => (exists w, first_word w l /\ begins (s2l ".INC") w) /\ fold_right and True (map (stmt_ok named) b)
  end.
Definition body_ok named (b : list stmt) : Prop := fold_right and True (map (stmt_ok named) b).
Definition doc_ok named (d : doc) : Prop :=
  body_ok named (d_body d) /\ (exists w, first_word w (d_end d) /\ begins (s2l ".END") w) /\ (forall l, In l (d_after d) -> is_note l).

(** The document as it is when written in the library's own layout: no blanks around directives, none at the end of the lines of a
    control section, components in the canonical layout, no include statements. *)
Fixpoint stmt_canonical (s : stmt) : Prop :=
  match s with
  | Note _ => True
  | Directive l => strip l = l
  | Part c => Forall (fun bn => fst bn = [" "%char]) (c_nodes c)
  | Control h b t => forall l, In l (h :: b ++ [t]) -> rstrip l = l
  | Circuit h b t => strip h = h /\ fold_right and True (map stmt_canonical b) /\ strip t = t
  | Include _ _ => False
  end.
Definition doc_canonical (d : doc) : Prop := fold_right and True (map stmt_canonical (d_body d)) /\ strip (d_end d) = d_end d.

(** Two documents that differ only in blanks, include statements being replaced by the contents of the file. *)
Definition same_part (c c' : comp) : Prop :=
  c_kind c' = c_kind c /\ c_name c' = c_name c /\ map snd (c_nodes c') = map snd (c_nodes c) /\ c_val c' = c_val c /\
  c_pars c' = c_pars c /\ option_map rstrip (c_note c') = option_map rstrip (c_note c) /\
  (Forall (fun bn => fst bn = [" "%char]) (c_nodes c) -> c' = c).
Inductive same_stmt : stmt -> list stmt -> Prop :=
| SNote : forall l, same_stmt (Note l) [Note l]
| SDirective : forall l, same_stmt (Directive l) [Directive (strip l)]
| SPart : forall c c', same_part c c' -> same_stmt (Part c) [Part c']
| SControl : forall h b t, same_stmt (Control h b t) [Control (rstrip h) (map rstrip b) (rstrip t)]
| SCircuit : forall h b t b', same_body b b' -> same_stmt (Circuit h b t) [Circuit (strip h) b' (strip t)]
| SInclude : forall l b b', same_body b b' -> same_stmt (Include l b) b'
with same_body : list stmt -> list stmt -> Prop :=
| SNil : same_body [] []
| SCons : forall s s' b b', same_stmt s s' -> same_body b b' -> same_body (s :: b) (s' ++ b').
Definition same_doc (d d' : doc) : Prop :=
  same_body (d_body d) (d_body d') /\ d_end d' = strip (d_end d) /\ d_after d' = d_after d.
