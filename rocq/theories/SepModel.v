(** Model of spicelib/editor/spice_subcircuit.py, [separate_lines] (lines 91-155). *)
From Coq Require Import String Ascii List Bool Arith.
From Verif Require Import PyStr.
Import ListNotations.
Local Open Scope string_scope.
Local Open Scope nat_scope.
Local Open Scope list_scope.

Definition LF : ascii := "010". Definition CR : ascii := "013". Definition QT : ascii := "034".

(** spice_subcircuit.py:118, 120 *)
Definition is_open (c : ascii) : bool := aeqb c "{" || aeqb c "(" || aeqb c "[".
Definition is_close (c : ascii) : bool := aeqb c "}" || aeqb c ")" || aeqb c "]".
Definition is_nl (c : ascii) : bool := aeqb c LF || aeqb c CR.
(** spice_subcircuit.py:123: does [c] close [o]? *)
Definition closes (o c : ascii) : bool :=
  (aeqb o "{" && aeqb c "}") || (aeqb o "(" && aeqb c ")") || (aeqb o "[" && aeqb c "]").
Definition is_nil {A} (l : list A) : bool := match l with [] => true | _ => false end.
Definition yield_ (x : str) (o : option (list str)) : option (list str) :=
  match o with Some l => Some (x :: l) | None => None end.

(** spice_subcircuit.py:100-155, one step of the [while True] loop per character of the stream.
    [acc] is current_line, [stack] braces_stack (top first), [q] in_quotes.  The look-ahead character
    next_char is simply the head of the remaining text.  [cm] is true while stream.readline() copies the rest
    of a comment line (lines 143-145 and 150-152).  None: MissingExpectedClauseError (lines 124, 126). *)
Fixpoint sep (cm : bool) (acc stack : str) (q : bool) (s : str) : option (list str) :=
  match s with
  | [] => Some (match acc with [] => [] | _ => [acc] end)
  | c :: r =>
      if cm then
        if aeqb c LF then yield_ (acc ++ [c]) (sep false [] stack q r) else sep true (acc ++ [c]) stack q r
      else if is_open c then sep false (acc ++ [c]) (c :: stack) q r
      else if is_close c then
        match stack with
        | o :: st => if closes o c then sep false (acc ++ [c]) st q r else None
        | [] => None
        end
      else if aeqb c QT then sep false (acc ++ [c]) stack (negb q) r
      else if is_nl c then
        if negb (is_nil stack) || q then sep false (acc ++ [c]) stack q r
        else match r with
             | d :: r' =>
                 if aeqb d "+" then sep false acc stack q r'
                 else if (aeqb d LF && aeqb c CR) || (aeqb d CR && aeqb c LF)
                      then sep false (acc ++ [c]) stack q r
                      else yield_ (acc ++ [c]) (sep false [] stack q r)
             | [] => yield_ (acc ++ [c]) (sep false [] stack q r)
             end
      else if aeqb c "*" && is_nil acc && is_nil stack && negb q then sep true [c] stack q r
      else if aeqb c ";" && is_nil stack && negb q then sep true (acc ++ [c]) stack q r
      else sep false (acc ++ [c]) stack q r
  end.
Definition separate_lines (s : str) : option (list str) := sep false [] [] false s.
