(** Specification for component statements: what a statement is, and how its text is laid out. *)
From Coq Require Import String Ascii List Bool Arith.
From Verif Require Import PyStr Regex PTokSpec.
Import ListNotations.
Local Open Scope string_scope.
Local Open Scope nat_scope.
Local Open Scope list_scope.

Definition NL : ascii := "010". Definition CR : ascii := "013".

(** A statement: the kind letter, the rest of the designator, the nodes each with the blanks before it, the blanks
    before the value, the value, the parameters (PTokSpec), the blanks after them and a comment. *)
Record comp := {
  c_kind : ascii; c_name : str; c_nodes : list (str * str); c_gap : str; c_val : str;
  c_pars : list (str * param); c_end : str; c_note : option str }.
Definition nodes_text (l : list (str * str)) : str := concat (map (fun bn => fst bn ++ snd bn) l).
Definition note_text (n : option str) : str := match n with Some t => ";"%char :: t | None => [] end.
Definition comp_body (c : comp) : str :=
  c_kind c :: c_name c ++ nodes_text (c_nodes c) ++ c_gap c ++ c_val c ++ line_text (c_pars c) (c_end c ++ note_text (c_note c)).
Definition comp_text (c : comp) : str := comp_body c ++ [NL].

(** The families of components and their numbers of nodes. *)
Inductive family := Passive | Device | Source | Controlled | Instance.
Definition family_of (x : ascii) : option (family * nat * nat) :=
  let is l := mem_c x (s2l l) in
  if is "RLC" then Some (Passive, 2, 2)
  else if is "D" then Some (Device, 2, 2)
  else if is "JUZ" then Some (Device, 3, 3)
  else if is "O" then Some (Device, 4, 4)
  else if is "M" then Some (Device, 3, 4)
  else if is "Q" then Some (Device, 3, 5)
  else if is "Y" then Some (Device, 2, 4)
  else if is "NP" then Some (Device, 2, 99)
  else if is "VI" then Some (Source, 2, 2)
  else if is "EFGH" then Some (Controlled, 2, 2)
  else if is "S" then Some (Controlled, 4, 4)
  else if is "W" then Some (Controlled, 3, 3)
  else if is "X" then Some (Instance, 1, 99)
  else None.

Definition node_char (c : ascii) : Prop := is_word c = true \/ In c (s2l "+,-.").
Definition last_char (s : str) : option ascii := match rev s with [] => None | c :: _ => Some c end.
Definition trimmed (s : str) : Prop :=
  (exists c r, s = c :: r /\ is_space c = false) /\ (exists c r, s = r ++ [c] /\ is_space c = false).

(** Values: a resistance such as 10k, 4k7, R2val, or an expression between braces or quotes; a model name; the
    description of a source such as SINE(0 1 1k) AC 1; anything for the controlled sources and switches.
    [after] is the rest of the statement: a closing brace (quote) there would end the expression. *)
Definition delims : list (ascii * ascii) := [("{", "}"); ("'", "'"); ("034", "034")]%char.
Definition simple_value (v : str) : Prop :=
  v <> [] /\ (forall c, In c v -> is_space c = false /\ c <> "="%char /\ c <> "\"%char) /\
  match v with c :: _ => ~ In c special | [] => True end.
Definition expression_value (v after : str) : Prop :=
  exists o q t, In (o, q) delims /\ v = o :: t ++ [q] /\ ~ In q t /\ ~ In q after.
Definition value_ok (f : family) (v after : str) : Prop :=
  match f with
  | Passive => simple_value v \/ expression_value v after
  | Device => v <> [] /\ forall c, In c v -> is_word c = true \/ In c (s2l ".-{}")
  | Source => trimmed v /\ forall c, In c v -> c <> "="%char /\ c <> ";"%char /\ c <> "\"%char
  | Controlled => trimmed v
  | Instance => v <> [] /\ forall c, In c v -> is_word c = true \/ In c (s2l ".-{}")
  end.
(** parameter names are words; values are made of the characters the parser knows *)
Definition par_char (c : ascii) : Prop := is_word c = true \/ is_space c = true \/ In c (s2l "{}()-+*/%.,'" ++ ["034"%char]).
Definition par_ok (p : param) : Prop :=
  (forall c, In c (word_text (p_name p)) -> is_word c = true) /\
  (forall w, In w (p_value p :: map snd (p_more p)) -> forall c, In c (word_text w) -> par_char c).
Definition comp_ok (c : comp) : Prop :=
  c_name c <> [] /\ (forall a, In a (c_name c) -> is_word a = true) /\
  Forall (fun bn => blank (fst bn) /\ fst bn <> [] /\ snd bn <> [] /\ forall a, In a (snd bn) -> node_char a) (c_nodes c) /\
  blank (c_gap c) /\ c_gap c <> [] /\
  line_ok (c_pars c) (c_end c) /\ Forall (fun bp => par_ok (snd bp)) (c_pars c) /\
  (c_note c <> None -> c_end c <> []) /\
  (forall a, In a (comp_body c) -> a <> NL /\ a <> CR) /\
  exists f lo hi, family_of (c_kind c) = Some (f, lo, hi) /\ lo <= length (c_nodes c) /\ length (c_nodes c) <= hi /\
    value_ok f (c_val c) (line_text (c_pars c) (c_end c ++ note_text (c_note c))) /\ (f = Controlled -> c_pars c = [] /\ c_note c = None) /\
    (f = Instance -> c_pars c <> [] -> c_note c = None).

(** The layout in which the library writes: single blanks, none around "=" and ",", nothing after the last item. *)
Definition plain_param (p : param) : Prop := p_b1 p = [] /\ p_b2 p = [] /\ Forall (fun bw => fst bw = []) (p_more p).
Definition canonical (c : comp) : Prop :=
  Forall (fun bn => fst bn = [" "%char]) (c_nodes c) /\ c_gap c = [" "%char] /\
  Forall (fun bp => fst bp = [" "%char] /\ plain_param (snd bp)) (c_pars c) /\
  match c_note c with None => c_end c = [] | Some t => c_end c = [" "%char] /\ trimmed (";"%char :: t) end.
