(** Model of the tags of a QSPICE schematic: spicelib/editor/qsch_editor.py:178-351 ([smart_split], [QschTag]).
    Simplification: texts of characters below U+0100; a number with a fraction keeps its text. *)
From Coq Require Import String Ascii List Bool Arith ZArith QArith Lia.
From Verif Require Import PyStr EngModel StepsModel.
Import ListNotations.
Local Open Scope string_scope. Local Open Scope nat_scope. Local Open Scope list_scope.

Definition LT : ascii := ascii_of_nat 171.   (* « *)
Definition GT : ascii := ascii_of_nat 187.   (* » *)
Definition DQ : ascii := """"%char.
Definition LF : ascii := ascii_of_nat 10.
Definition COLON : ascii := ":"%char.
Definition BLANK : ascii := " "%char.

(** qsch_editor.py:192-197: a tag has tokens and children. *)
Inductive tag := Tag (tokens : list str) (items : list tag).
Definition toks (t : tag) : list str := let (a, _) := t in a.
Definition kids (t : tag) : list tag := let (_, b) := t in b.

(** The text up to the next quote and what follows the quote; None: there is no quote. *)
Definition to_quote (s : str) : option (str * str) := split_at_first DQ s.
(** qsch_editor.py:178-180 [smart_split]: re.findall of [^QUOTE\s]+ or QUOTE[^QUOTE]*QUOTE.  The fuel is the length of the text. *)
Definition plain_c (c : ascii) : bool := negb (aeqb c DQ) && negb (is_space c).
Fixpoint split_chunks (fuel : nat) (s : str) : list str :=
  match fuel with
  | O => []
  | S f =>
      match s with
      | [] => []
      | c :: r =>
          if plain_c c then let (a, b) := span plain_c s in a :: split_chunks f b
          else if aeqb c DQ then
            match to_quote r with
            | Some (q, b) => (DQ :: q ++ [DQ]) :: split_chunks f b
            | None => split_chunks f r
            end
          else split_chunks f r
      end
  end.
Definition smart_split (s : str) : list str := split_chunks (length s) s.

(** Around the first ": ". *)
Fixpoint at_colon (s : str) : option (str * str) :=
  match s with
  | [] => None
  | c :: r => if aeqb c COLON && match r with d :: _ => aeqb d BLANK | [] => false end then Some ([], tl r)
              else match at_colon r with Some (a, b) => Some (c :: a, b) | None => None end
  end.
(** qsch_editor.py:233-240: the tokens of the line before the closing sign.  None: ValueError, [line.split(': ')] gives more than two. *)
Definition last_tokens (line : str) : option (list str) :=
  match at_colon line with
  | None => Some (smart_split line)
  | Some (name, text) => match at_colon text with None => Some [name ++ [COLON]; text] | Some _ => None end
  end.

(** qsch_editor.py:200-241 [QschTag.parse] from the character after the opening sign on: [seg] is stream[i0:i].  None: an exception
    (OSError for a missing closing sign, IndexError for a missing quote, ValueError).  Result: the tag and what follows its closing sign. *)
Fixpoint parse_from (fuel : nat) (seg : str) (ts : list str) (items : list tag) (s : str) : option (tag * str) :=
  match fuel with
  | O => None
  | S f =>
      match s with
      | [] => None                                                                     (* 231-232 *)
      | c :: r =>
          if aeqb c LT then                                                             (* 213-216, 230: the character after a child is passed over *)
            match parse_from f [] [] [] r with
            | None => None
            | Some (child, rest) => parse_from f [] ts (items ++ [child]) (tl rest)
            end
          else if aeqb c DQ then                                                        (* 217-221 *)
            match to_quote r with
            | None => None
            | Some (q, rest) => parse_from f (seg ++ DQ :: q ++ [DQ]) ts items rest
            end
          else if aeqb c GT then                                                        (* 222-224, 233-241 *)
            match last_tokens seg with
            | None => None
            | Some l => Some (Tag (ts ++ l) items, r)
            end
          else if aeqb c LF then parse_from f [] (ts ++ smart_split seg) items r        (* 225-229 *)
          else parse_from f (seg ++ [c]) ts items r
      end
  end.
(** [QschTag.parse(stream, start)], where [s] is the stream from [start] on; None also for the failing assertion in line 209. *)
Definition parse (s : str) : option (tag * str) :=
  match s with
  | c :: r => if aeqb c LT then parse_from (S (length r)) [] [] [] r else None
  | [] => None
  end.

Fixpoint join_blank (l : list str) : str :=
  match l with [] => [] | [x] => x | x :: r => x ++ BLANK :: join_blank r end.
Definition spaces (level : nat) : str := repeat BLANK (2 * level).
(** qsch_editor.py:247-260 [QschTag.out]. *)
Fixpoint out (level : nat) (t : tag) : str :=
  match t with
  | Tag ts items =>
      match items with
      | [] => spaces level ++ LT :: join_blank ts ++ [GT; LF]
      | _ => spaces level ++ LT :: join_blank ts ++ LF :: flat_map (out (S level)) items ++ spaces level ++ [GT; LF]
      end
  end.

(** qsch_editor.py:263-265, 267-270 [tag], [get_items]; None: IndexError, a child without tokens. *)
Definition head_is (item : str) (t : tag) : bool := match toks t with x :: _ => str_eqb x item | [] => false end.
Definition get_items (item : str) (t : tag) : list tag := filter (head_is item) (kids t).

(** int() of a text: blanks around, a sign, digits with single underscores between them. *)
Fixpoint int_digits (acc : Z) (after_digit : bool) (s : str) : option Z :=
  match s with
  | [] => if after_digit then Some acc else None
  | c :: r => if is_digit c then int_digits (10 * acc + Z_of_digit c) true r
              else if aeqb c "_" && after_digit then int_digits acc false r else None
  end.
Definition py_int (s : str) : option Z :=
  match strip s with
  | c :: r => if aeqb c "-" then option_map Z.opp (int_digits 0 false r)
              else if aeqb c "+" then int_digits 0 false r else int_digits 0 false (c :: r)
  | [] => None
  end.
(** int(s, 16), without the sign, the underscores and the second "0x" that Python would accept too. *)
Definition hex_digit (c : ascii) : option Z :=
  if is_digit c then Some (Z_of_digit c)
  else let k := code (lower_c c) in if (97 <=? k) && (k <=? 102) then Some (Z.of_nat k - 87)%Z else None.
Fixpoint hex_digits (acc : Z) (s : str) : option Z :=
  match s with [] => Some acc | c :: r => match hex_digit c with Some d => hex_digits (16 * acc + d) r | None => None end end.
Definition py_hex (s : str) : option Z := match s with [] => None | _ => hex_digits 0 s end.
(** str(n) of an integer. *)
Definition show_nat (n : Z) : str :=
  let fix go (fuel : nat) (n : Z) (acc : str) : str :=
    match fuel with O => acc | S f => if (n <? 10)%Z then digit_of_Z n :: acc else go f (n / 10)%Z (digit_of_Z (n mod 10) :: acc) end
  in go (S (Z.to_nat (Z.log2 n))) n [].
Definition show_int (n : Z) : str := if (n <? 0)%Z then "-"%char :: show_nat (- n) else show_nat n.

(** Attribute values as get_attr gives them. *)
Inductive attr := AInt (n : Z) | AText (s : str) | APair (l : list Z) | AFloat (s : str).
Fixpoint all_ints (l : list str) : option (list Z) :=
  match l with [] => Some [] | x :: r => match py_int x, all_ints r with Some a, Some b => Some (a :: b) | _, _ => None end end.
Definition inner (s : str) : str := removelast (tl s).
Definition quoted (a : str) : bool := startswith [DQ] a && endswith [DQ] a.
(** qsch_editor.py:272-299 [get_attr] on the token; None: ValueError. *)
Definition read_token (a : str) : option attr :=
  if startswith (s2l "(") a && endswith (s2l ")") a then option_map APair (all_ints (split_on "," (inner a)))
  else if startswith (s2l "0x") a then option_map AInt (py_hex (skipn 2 a))
  else if quoted a then Some (AText (inner a))
  else match py_int a with
       | Some n => Some (AInt n)
       | None => match pyfloat (strip a) with Some _ => Some (AFloat a) | None => Some (AText a) end
       end.
Definition get_attr (i : nat) (t : tag) : option attr := match nth_error (toks t) i with Some a => read_token a | None => None end.
(** The texts written by set_attr, qsch_editor.py:311-320; None: ValueError for any other object. *)
Definition write_token (v : attr) : option str :=
  match v with
  | AInt n => Some (show_int n)
  | AText s => Some (if startswith (s2l "0x") s then s else DQ :: s ++ [DQ])
  | APair (x :: y :: _) => Some (s2l "(" ++ show_int x ++ s2l "," ++ show_int y ++ s2l ")")
  | _ => None
  end.
Definition set_nth (i : nat) (x : str) (l : list str) : option (list str) :=
  if i <? length l then Some (firstn i l ++ x :: skipn (S i) l) else None.
(** qsch_editor.py:301-321 [set_attr]; None: ValueError or IndexError. *)
Definition set_attr (i : nat) (v : attr) (t : tag) : option tag :=
  match write_token v with
  | None => None
  | Some x => option_map (fun l => Tag l (kids t)) (set_nth i x (toks t))
  end.
(** qsch_editor.py:323-343 [get_text] with a default. *)
Definition get_text (label default : str) (t : tag) : str :=
  match get_items (label ++ [COLON]) t with
  | [a] => match toks a with _ :: x :: _ => x | _ => default end
  | _ => default
  end.
(** qsch_editor.py:345-351 [get_text_attr]; None: IndexError. *)
Definition get_text_attr (i : nat) (t : tag) : option str :=
  option_map (fun a => if quoted a then inner a else a) (nth_error (toks t) i).

(** ** The file *)
(** qsch_editor.py:45 [QSCH_HEADER]. *)
Definition HEADER : str := map ascii_of_nat [255; 216; 255; 219].
(** qsch_editor.py:597-601: the text [save_as] writes.  Simplification: the cp1252 encoding is not modelled. *)
Definition file_text (t : tag) : str := HEADER ++ out 0 t ++ [LF].
Definition CR : ascii := ascii_of_nat 13.
(** Opening a file as text turns "\r\n" and "\r" into "\n" (io.TextIOWrapper, newline=None). *)
Fixpoint newlines (s : str) : str :=
  match s with
  | [] => []
  | c :: r => if aeqb c CR then LF :: match r with d :: r' => if aeqb d LF then newlines r' else newlines r | [] => [] end
              else c :: newlines r
  end.
(** qsch_editor.py:883-885, 897-903: reading the file again; None: QschReadingError or an error in [QschTag.parse]. *)
Definition read_file (s : str) : option tag :=
  let s := newlines s in
  if startswith HEADER s then option_map fst (parse (skipn 4 s)) else None.
