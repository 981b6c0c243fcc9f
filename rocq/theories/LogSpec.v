(** Vocabulary for C26-C28, C62 and C63. *)
From Coq Require Import String Ascii List Bool Arith QArith.
From Verif Require Import PyStr StepsModel StepsSpec LogModel.
Import ListNotations.
Local Open Scope string_scope.
Local Open Scope nat_scope.
Local Open Scope list_scope.

(** * Lines of values *)
Inductive bracket := Round | Square | Curly.
Definition open_c (b : bracket) : ascii := match b with Round => "(" | Square => "[" | Curly => "{" end.
Definition close_c (b : bracket) : ascii := match b with Round => ")" | Square => "]" | Curly => "}" end.

Inductive piece := Word (s : str) | Group (b : bracket) (l : list piece) | Blank (c : ascii) | Comma (c : ascii).

Fixpoint piece_text (p : piece) : str :=
  match p with
  | Word s => s
  | Group b l => [open_c b] ++ concat (map piece_text l) ++ [close_c b]
  | Blank c => [c]
  | Comma c => [c]
  end.
Definition line_text (l : list piece) : str := concat (map piece_text l).

Definition bracket_char (c : ascii) : bool :=
  aeqb c "(" || aeqb c "[" || aeqb c "{" || aeqb c ")" || aeqb c "]" || aeqb c "}".
Definition word_char (c : ascii) : Prop := is_blank c = false /\ is_comma c = false /\ bracket_char c = false.

(** Words are separated from what follows; groups need no separation from what follows. *)
Fixpoint separated (l : list piece) : Prop :=
  match l with
  | [] => True
  | p :: l' => match p, l' with
               | Word _, Word _ :: _ => False
               | Word _, Group _ _ :: _ => False
               | _, _ => True
               end /\ separated l'
  end.
Fixpoint piece_ok (p : piece) : Prop :=
  match p with
  | Word s => s <> [] /\ Forall word_char s
  | Group _ l => separated l /\ (fix all l := match l with [] => True | q :: l' => piece_ok q /\ all l' end) l
  | Blank c => is_blank c = true
  | Comma c => is_comma c = true
  end.
Definition line_ok (l : list piece) : Prop := separated l /\ Forall piece_ok l.

(** The values of a line: one per word, one list per group, in order; None for an empty field, that is for
    each comma that does not come right after a word.  An empty line has one empty text. *)
Section Values.
Context {V : Type} (conv : str -> V).
Section Fields.
Variable pv : piece -> val V.
Fixpoint fields_with (after_word : bool) (l : list piece) : list (val V) :=
  match l with
  | [] => []
  | p :: l' =>
      match p with
      | Word s => VText (conv s) :: fields_with true l'
      | Group _ _ => pv p :: fields_with false l'
      | Blank _ => fields_with false l'
      | Comma _ => if after_word then fields_with false l' else VNone :: fields_with false l'
      end
  end.
End Fields.
Fixpoint group_val (p : piece) : val V :=
  match p with
  | Group _ l => VList (match l with [] => [VText (conv [])] | _ => fields_with group_val false l end)
  | _ => VNone
  end.
Definition line_values (l : list piece) : list (val V) :=
  match l with [] => [VText (conv [])] | _ => fields_with group_val false l end.
End Values.

(** * Log data *)
(** The column a condition is about: the step variable of that name or else the measurement. *)
Definition column_of {V} (d : logdata V) (p : str) : option (list V) :=
  match dget (lower p) (stepset d) with Some c => Some c | None => dget (lower p) (dataset d) end.

(** Step [i] has, in the column of that name, the value asked for. *)
Definition step_holds {V} (veqb : V -> V -> bool) (conv : V -> V) (d : logdata V) (i : nat) (pv : str * V) : Prop :=
  exists c x, column_of d (fst pv) = Some c /\ nth_error c i = Some x /\ veqb x (conv (snd pv)) = true.

(** The measurements [l] selected by the steps argument out of the column [col]. *)
Definition selected (col : list Q) (s : steps_arg) (l : list Q) : Prop :=
  match s with
  | AllSteps => l = col
  | OneStep i => exists x, nth_error col i = Some x /\ l = [x]
  | Steps is => Forall2 (fun i x => nth_error col i = Some x) is l
  end.

Definition is_max (q : Q) (l : list Q) : Prop := (exists x, In x l /\ x == q)%Q /\ forall x, In x l -> (x <= q)%Q.
Definition is_min (q : Q) (l : list Q) : Prop := (exists x, In x l /\ x == q)%Q /\ forall x, In x l -> (q <= x)%Q.
Fixpoint qsum (l : list Q) : Q := match l with [] => 0 | x :: l' => x + qsum l' end.

(** * Tables of a log *)
(** A measurement table: its name, the cells of its title line (two, and one per further column), and
    the rows: a step number and the value cells. *)
Record table := Table { tb_name : str; tb_title : str * str; tb_cols : list str; tb_rows : list (str * list str) }.

Definition TABC : ascii := "009"%char.
Definition NLC : ascii := "010"%char.
Fixpoint join_tab (l : list str) : str :=
  match l with [] => [] | [x] => x | x :: l' => x ++ [TABC] ++ join_tab l' end.
Definition table_lines (t : table) : list str :=
  (s2l "Measurement: " ++ tb_name t ++ [NLC]) ::
  (join_tab (fst (tb_title t) :: snd (tb_title t) :: tb_cols t) ++ [NLC]) ::
  map (fun r => join_tab (fst r :: snd r) ++ [NLC]) (tb_rows t).

Definition cell (s : str) : Prop := ~ In TABC s /\ ~ In NLC s /\ ~ In "013"%char s.
Definition table_ok (is_int : str -> bool) (t : table) : Prop :=
  tb_name t <> [] /\ cell (tb_name t) /\ cell (fst (tb_title t)) /\ cell (snd (tb_title t)) /\ Forall cell (tb_cols t) /\
  is_int (fst (tb_title t)) = false /\
  startswith (s2l "Measurement: ") (join_tab (fst (tb_title t) :: snd (tb_title t) :: tb_cols t)) = false /\
  tb_rows t <> [] /\
  Forall (fun r => is_int (fst r) = true /\ cell (fst r) /\ Forall cell (snd r) /\
                   length (snd r) = S (length (tb_cols t)) /\
                   startswith (s2l "Measurement: ") (join_tab (fst r :: snd r)) = false) (tb_rows t).

(** The titles under which the columns are found: the name of the measurement for the first; the limits of
    an interval and the position of a point are prefixed with the name. *)
Definition titles (t : table) : list str :=
  tb_name t ::
  match tb_cols t with
  | [] => []
  | c1 :: r1 =>
      (if str_eqb c1 (s2l "FROM") || str_eqb c1 (s2l "at") then tb_name t ++ s2l "_" ++ c1 else c1) ::
      match r1 with
      | [] => []
      | c2 :: r2 => (if str_eqb c2 (s2l "TO") then tb_name t ++ s2l "_TO" else c2) :: r2
      end
  end.

(** The step section of a log: ".step" lines and others. *)
Definition step_section_ok (x : log_line) : Prop :=
  match x with
  | StepLine l => Forall (fun kv => plain (fst kv) /\ plain (snd kv) /\ cell (fst kv) /\ cell (snd kv)) l
  | OtherLine l => startswith (s2l ".step") l = false /\ startswith (s2l "Measurement:") l = false
  end.
(** The values given to [k] in the ".step" lines, in order. *)
Definition step_values (k : str) (log : list log_line) : list str :=
  map snd (filter (fun kv => str_eqb (lower (fst kv)) (lower k)) (concat (step_table log))).

(** Column [j] of the table is stored under its title, in lower case. *)
Definition holds_table {V} (conv : str -> V) (d : columns V) (t : table) : Prop :=
  forall j h, nth_error (titles t) j = Some h ->
    exists col, dget (lower h) d = Some col /\
      Forall2 (fun r x => exists s, nth_error (snd r) j = Some s /\ x = conv s) (tb_rows t) col.
Definition titles_of (ts : list table) : list str := concat (map (fun t => map lower (titles t)) ts).

(** The values of a measurement: those of the first one of that name, in any letter case. *)
Definition measured {V} (m : str) (d : logdata V) (col : list V) : Prop :=
  exists a k b, dataset d = a ++ (k, col) :: b /\ lower k = lower m /\ forall e, In e a -> lower (fst e) <> lower m.
