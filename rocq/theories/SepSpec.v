(** Specification for splitting a netlist text into statements; independent of the model. *)
From Coq Require Import String Ascii List Bool Arith.
From Verif Require Import PyStr.
Import ListNotations.
Local Open Scope string_scope.
Local Open Scope list_scope.

Definition newline (c : ascii) : Prop := c = "010"%char \/ c = "013"%char.
Definition bracket (c : ascii) : Prop := In c (s2l "(){}[]").
Definition quote : ascii := "034".

(** [u] is [t] with some of its "newline, plus sign" pairs deleted, nothing else changed. *)
Inductive without_continuations : str -> str -> Prop :=
| WC_nil : without_continuations [] []
| WC_keep : forall c t u, without_continuations t u -> without_continuations (c :: t) (c :: u)
| WC_drop : forall c t u, newline c -> without_continuations t u -> without_continuations (c :: "+"%char :: t) u.

(** A matching pair of brackets. *)
Definition pair (o c : ascii) : Prop :=
  (o, c) = ("(", ")")%char \/ (o, c) = ("[", "]")%char \/ (o, c) = ("{", "}")%char.

(** Text inside quotes: brackets are balanced; newlines, ; and * are ordinary characters. *)
Inductive quoted : str -> Prop :=
| Q_nil : quoted []
| Q_char : forall c t, ~ bracket c -> c <> quote -> quoted t -> quoted (c :: t)
| Q_pair : forall o c t u, pair o c -> quoted t -> quoted u -> quoted (o :: t ++ c :: u).
(** Text inside brackets: the same, and may contain quoted text. *)
Inductive inside : str -> Prop :=
| I_nil : inside []
| I_char : forall c t, ~ bracket c -> c <> quote -> inside t -> inside (c :: t)
| I_pair : forall o c t u, pair o c -> inside t -> inside u -> inside (o :: t ++ c :: u)
| I_quote : forall t u, quoted t -> inside u -> inside (quote :: t ++ quote :: u).
(** Text of one line of a statement: a newline or a semicolon only within brackets or quotes. *)
Inductive body : str -> Prop :=
| B_nil : body []
| B_char : forall c t, ~ bracket c -> c <> quote -> ~ newline c -> c <> ";"%char -> body t -> body (c :: t)
| B_pair : forall o c t u, pair o c -> inside t -> body u -> body (o :: t ++ c :: u)
| B_quote : forall t u, quoted t -> body u -> body (quote :: t ++ quote :: u).

(** Statements as they stand in the file: a comment line, or a line with any number of continuation lines
    (each preceded by newline and plus sign) and possibly a comment after ';'. *)
Inductive statement :=
| Comment (text : str)
| Code (first : str) (more : list str) (remark : option str).

Definition nl : str := ["010"%char].
Definition remark_text (r : option str) : str := match r with Some t => ";"%char :: t | None => [] end.
(** the characters in the file *)
Definition in_file (s : statement) : str :=
  match s with
  | Comment t => "*"%char :: t ++ nl
  | Code f m r => f ++ concat (map (fun l => nl ++ "+"%char :: l) m) ++ remark_text r ++ nl
  end.
(** the statement as one line *)
Definition one_line (s : statement) : str :=
  match s with
  | Comment t => "*"%char :: t ++ nl
  | Code f m r => f ++ concat m ++ remark_text r ++ nl
  end.
Definition starts_with_none_of (l : str) (t : str) : Prop := match t with c :: _ => ~ In c l | [] => True end.
Definition statement_ok (s : statement) : Prop :=
  match s with
  | Comment t => ~ In "010"%char t
  | Code f m r =>
      body f /\ Forall body m /\ starts_with_none_of (s2l "*+") f /\
      (f = [] -> m = []) /\
      match r with Some t => ~ In "010"%char t | None => True end
  end.
