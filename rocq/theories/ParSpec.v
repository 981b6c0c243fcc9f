(** Specification for the parameters of a netlist: what a .PARAM statement is and what setting a parameter does; independent of the model. *)
From Coq Require Import String Ascii List Bool Arith.
From Verif Require Import PyStr Regex PTokSpec CompSpec NetSpec CmdSpec.
Import ListNotations.
Local Open Scope string_scope.
Local Open Scope nat_scope.
Local Open Scope list_scope.

Definition spaces (b : str) : Prop := forall c, In c b -> c = " "%char.
(** Names: ASCII letters, digits and underscores. *)
Definition name_c (c : ascii) : bool := alpha c || is_digit c || aeqb c "_".
Definition par_name_ok (n : str) : Prop := n <> [] /\ forallb name_c n = true.
(** Values: an expression in braces, a text in double quotes, or a number followed by a unit. *)
Definition digit_like (c : ascii) : bool := is_digit c || mem_c c (s2l ".+-Ee").
Definition unit_like (c : ascii) : bool := alpha c || aeqb c "%".
Definition quote : ascii := """"%char.
Inductive par_value : str -> Prop :=
| Braced : forall s, ~ In "}"%char s -> ~ In NL s -> par_value ("{"%char :: s ++ ["}"%char])
| Quoted : forall s, ~ In quote s -> ~ In NL s -> par_value (quote :: s ++ [quote])
| Number : forall d u, d <> [] -> forallb digit_like d = true -> forallb unit_like u = true -> par_value (d ++ u).
(** the characters a value can begin with *)
Definition begins_value (c : ascii) : bool := digit_like c || aeqb c "{" || aeqb c quote.

(** ".param name = value name = value ... rest", the rest being blanks or a comment *)
Record entry := { e_sep : str; e_par : str; e_b1 : str; e_b2 : str; e_val : str }.
Definition entry_text (e : entry) : str := e_sep e ++ e_par e ++ e_b1 e ++ "="%char :: e_b2 e ++ e_val e.
Definition entry_ok (e : entry) : Prop :=
  spaces (e_sep e) /\ e_sep e <> [] /\ par_name_ok (e_par e) /\ spaces (e_b1 e) /\ spaces (e_b2 e) /\ par_value (e_val e).
Record pline := { l_lead : str; l_word : str; l_pars : list entry; l_tail : str }.
Definition pline_text (p : pline) : str := l_lead p ++ l_word p ++ concat (map entry_text (l_pars p)) ++ l_tail p.
(** A first name with an initial digit or letter E is not seen (C76); a tail in which a value can begin is read as settings (C77). *)
Definition first_ok (l : list entry) : Prop := match l with e :: _ => match e_par e with c :: _ => begins_value c = false | [] => True end | [] => True end.
Definition pline_ok (p : pline) : Prop :=
  spaces (l_lead p) /\ upper (l_word p) = s2l ".PARAM" /\ Forall entry_ok (l_pars p) /\ first_ok (l_pars p) /\
  (forall c, In c (l_tail p) -> begins_value c = false /\ c <> NL) /\ match l_tail p with [] => True | c :: _ => c = " "%char end.

(** A statement that is a .PARAM line, and any other statement (not .PARAM; no .PARAM in included files). *)
Inductive pstmt := Params (p : pline) | Other (s : stmt).
Definition to_stmt (x : pstmt) : stmt := match x with Params p => Directive (pline_text p) | Other s => s end.
Fixpoint no_params (s : stmt) : Prop :=
  match s with
  | Directive l => word1 l <> s2l ".PARAM"
  | Include _ b => fold_right and True (map no_params b)
  | _ => True
  end.
Definition pstmt_ok (x : pstmt) : Prop := match x with Params p => pline_ok p | Other s => no_params s end.

Definition same_name (n : str) (e : entry) : bool := str_eqb (upper (e_par e)) (upper n).
Definition entries (l : list pstmt) : list entry := concat (map (fun x => match x with Params p => l_pars p | Other _ => [] end) l).
Definition lookup (n : str) (l : list pstmt) : option str := option_map e_val (find (same_name n) (entries l)).
Definition names (l : list pstmt) : list str := map (fun e => upper (e_par e)) (entries l).

(** Setting: the value of the first setting of that name is replaced, with a blank before it and none at the ends of the line. *)
Definition put_value (v : str) (e : entry) : entry :=
  {| e_sep := e_sep e; e_par := e_par e; e_b1 := e_b1 e; e_b2 := match e_b2 e with [] => [" "%char] | b => b end; e_val := v |}.
Fixpoint on_entry (n : str) (f : entry -> entry) (l : list entry) : list entry :=
  match l with [] => [] | e :: r => if same_name n e then f e :: r else e :: on_entry n f r end.
Definition set_line (n v : str) (p : pline) : pline :=
  {| l_lead := []; l_word := l_word p; l_pars := on_entry n (put_value v) (l_pars p); l_tail := rstrip (l_tail p) |}.
(** Removing it: the blanks before it stay *)
Fixpoint drop_entry (n : str) (l : list entry) (tail : str) : list entry * str :=
  match l with
  | [] => ([], tail)
  | e :: r => if same_name n e
              then match r with
                   | [] => ([], e_sep e ++ tail)
                   | x :: r' => ({| e_sep := e_sep e ++ e_sep x; e_par := e_par x; e_b1 := e_b1 x; e_b2 := e_b2 x; e_val := e_val x |} :: r', tail)
                   end
              else let (a, t) := drop_entry n r tail in (e :: a, t)
  end.
Definition drop_line (n : str) (p : pline) : pstmt :=
  let (l, t) := drop_entry n (l_pars p) (l_tail p) in
  match l with
  | [] => Other (Note (s2l "* SpiceEditor removed empty .PARAM line"))
  | _ => Params {| l_lead := l_lead p; l_word := l_word p; l_pars := l; l_tail := t |}
  end.
Fixpoint on_line (n : str) (f : pline -> pstmt) (l : list pstmt) : list pstmt :=
  match l with
  | [] => []
  | Params p :: r => if existsb (same_name n) (l_pars p) then f p :: r else Params p :: on_line n f r
  | x :: r => x :: on_line n f r
  end.
Definition new_line (n v : str) : pline :=
  {| l_lead := []; l_word := s2l ".PARAM"; l_pars := [{| e_sep := [" "%char]; e_par := n; e_b1 := []; e_b2 := []; e_val := v |}];
     l_tail := s2l "  ; Batch instruction" |}.
Inductive pcmd := SetPar (n v : str) | DropPar (n : str).
Definition run_pcmd (k : pcmd) (l : list pstmt) : list pstmt :=
  match k with
  | SetPar n v => if existsb (same_name n) (entries l) then on_line n (fun p => Params (set_line n v p)) l else insert_from_end 2 (Params (new_line n v)) l
  | DropPar n => on_line n (drop_line n) l
  end.
(** A place in a text where a setting of that name could stand: the name, followed by blanks, '=' or a blank, blanks, and the first
    character of a value. *)
Definition all_blank (b : str) : Prop := forall c, In c b -> is_space c = true.
Definition setting_at (n : str) (x : str) (t : str) : Prop :=
  exists w b1 c b2 v y, t = x ++ w ++ b1 ++ c :: b2 ++ v :: y /\ upper w = upper n /\ all_blank b1 /\ (c = "="%char \/ c = " "%char) /\ all_blank b2 /\ begins_value v = true.
(** Removing needs the name to stand nowhere else on the line, as part of another name or in an expression (C78). *)
Definition set_once (n : str) (p : pline) : Prop :=
  forall x y, setting_at n x (pline_text p) -> setting_at n y (pline_text p) -> x = y.
Definition pcmd_ok (k : pcmd) (l : list pstmt) : Prop :=
  match k with
  | SetPar n v => par_name_ok n /\ par_value v /\
      (existsb (same_name n) (entries l) = false -> match n with c :: _ => begins_value c = false | [] => True end)
  | DropPar n => par_name_ok n /\ existsb (same_name n) (entries l) = true /\
      forall p, In (Params p) l -> existsb (same_name n) (l_pars p) = true -> set_once n p /\ first_ok (fst (drop_entry n (l_pars p) (l_tail p)))
  end.
Fixpoint pcmds_ok (ks : list pcmd) (l : list pstmt) : Prop :=
  match ks with [] => True | k :: r => pcmd_ok k l /\ pcmds_ok r (run_pcmd k l) end.
Definition run_pcmds (ks : list pcmd) (l : list pstmt) : list pstmt := fold_left (fun l k => run_pcmd k l) ks l.
(** The parameters as a map from names, in any letter case, to values: what a history of settings makes of it. *)
Definition put_in (n : str) (v : option str) (f : str -> option str) (x : str) : option str := if str_eqb (upper x) (upper n) then v else f x.
Fixpoint after (ks : list pcmd) (f : str -> option str) : str -> option str :=
  match ks with
  | [] => f
  | SetPar n v :: r => after r (put_in n (Some v) f)
  | DropPar n :: r => after r (put_in n None f)
  end.
