(** LTspice symbol files, how they are written, and what reading and converting them promises. *)
From Coq Require Import String Ascii List Bool Arith ZArith.
From Verif Require Import PyStr QTagModel QTagSpec QEdModel AscModel AscSpec.
Import ListNotations.
Local Open Scope string_scope. Local Open Scope nat_scope. Local Open Scope list_scope.

(** ** Symbols *)
Record pin := { p_x : Z; p_y : Z; p_just : str; p_off : Z; p_attrs : list (str * str) }.
(** A text shown on the symbol: a window (its number) or a word. *)
Record shown_text := { x_x : Z; x_y : Z; x_align : str; x_size : Z; x_word : str; x_window : bool }.
Inductive sitem :=
| SText (t : shown_text)
| SAttr (k v : str)
| SPin (p : pin)
| SLine (x1 y1 x2 y2 : Z) (style : str)
| SShape (name : str) (ps : list (Z * Z)) (style : str).
Record symfile := { m_version : str; m_type : str; m_items : list sitem }.

(** ** Their text *)
Definition sitem_lines (i : sitem) : list str :=
  match i with
  | SText t => [if x_window t then sp [s2l "WINDOW"; x_word t; z (x_x t); z (x_y t); x_align t; z (x_size t)]
                else sp [s2l "TEXT"; z (x_x t); z (x_y t); x_align t; z (x_size t); x_word t]]
  | SAttr k v => [sp [s2l "SYMATTR"; k; v]]
  | SPin p => sp [s2l "PIN"; z (p_x p); z (p_y p); p_just p; z (p_off p)] :: map (fun e => sp [s2l "PINATTR"; fst e; snd e]) (p_attrs p)
  | SLine x1 y1 x2 y2 p => [sp ([s2l "LINE"; s2l "Normal"; z x1; z y1; z x2; z y2] ++ styled p)]
  | SShape n ps p => [sp ([n; s2l "Normal"] ++ flat_map (fun q => [z (fst q); z (snd q)]) ps ++ styled p)]
  end.
Definition sym_lines (m : symfile) : list str := sp [s2l "Version"; m_version m] :: sp [s2l "SymbolType"; m_type m] :: flat_map sitem_lines (m_items m).
Definition sym_text (m : symfile) : str := concat (sym_lines m).

(** ** Well-formed symbol files *)
Definition justifications : list str := map s2l ["NONE"; "LEFT"; "RIGHT"; "TOP"; "BOTTOM"; "VLEFT"; "VRIGHT"; "VTOP"; "VBOTTOM"].
(** Names and values of pin attributes are words; a value may be missing. *)
Definition pin_ok (p : pin) : Prop := In (p_just p) justifications /\ forall k v, In (k, v) (p_attrs p) -> one_word k /\ (v = [] \/ one_word v).
Definition sitem_ok (i : sitem) : Prop :=
  match i with
  | SText t => one_word (x_word t) /\ In (x_align t) (aligns ++ vertical_aligns)
  | SAttr k v => one_word k /\ clean v
  | SPin p => pin_ok p
  | SLine _ _ _ _ p => p = [] \/ one_word p
  | SShape n ps p => (p = [] \/ one_word p) /\ (In n (map s2l ["RECTANGLE"; "CIRCLE"]) /\ length ps = 2 \/ n = s2l "ARC" /\ length ps = 4)
  end.
Definition s_texts (m : symfile) : list shown_text := flat_map (fun i => match i with SText t => [t] | _ => [] end) (m_items m).
Definition s_attributes (m : symfile) : list (str * str) := flat_map (fun i => match i with SAttr k v => [(k, v)] | _ => [] end) (m_items m).
Definition s_pins (m : symfile) : list pin := flat_map (fun i => match i with SPin p => [p] | _ => [] end) (m_items m).
Definition s_lines (m : symfile) : list (Z * Z * Z * Z * str) := flat_map (fun i => match i with SLine a b c d p => [(a, b, c, d, p)] | _ => [] end) (m_items m).
Definition s_shapes (m : symfile) : list (str * list (Z * Z) * str) := flat_map (fun i => match i with SShape n ps p => [(n, ps, p)] | _ => [] end) (m_items m).
Definition sym_ok (m : symfile) : Prop :=
  In (m_version m) (map s2l ["4"; "4.0"; "4.1"]) /\ clean (m_type m) /\ (forall i, In i (m_items m) -> sitem_ok i) /\ NoDup (map fst (s_attributes m)).

(** ** What the reader shows *)
(** The prefix is in capitals. *)
Definition attr_value (k v : str) : str := if str_eqb (upper k) (s2l "PREFIX") then upper v else v.
Definition text_shown (t : text) (s : shown_text) : Prop :=
  t_x t = x_x s /\ t_y t = x_y s /\ t_text t = x_word s /\ t_size t = x_size s /\ t_comment t = negb (x_window s) /\ get_align t = x_align s.
(** How the name of a pin stands beside it. *)
Definition beside (j : str) (h : hor) (v : ver) (vertical : bool) : Prop :=
  In (j, (h, v, vertical))
    [(s2l "NONE", (HCenter, VCenter, false)); (s2l "LEFT", (HLeft, VBottom, false)); (s2l "RIGHT", (HRight, VBottom, false));
     (s2l "TOP", (HLeft, VTop, false)); (s2l "BOTTOM", (HLeft, VBottom, false)); (s2l "VLEFT", (HLeft, VBottom, true));
     (s2l "VRIGHT", (HRight, VBottom, true)); (s2l "VTOP", (HLeft, VTop, true)); (s2l "VBOTTOM", (HLeft, VBottom, true))].
Definition pin_shown (t : text) (p : pin) : Prop :=
  t_x t = p_x p /\ t_y t = p_y p /\ t_size t = p_off p /\ beside (p_just p) (t_h t) (t_v t) (t_vert t) /\
  t_text t = flat_map (fun e => fst e ++ s2l "=" ++ snd e ++ s2l ";") (p_attrs p).

(** ** Conversion of coordinates: LTspice's grid times 6.25, the Y axis turned over *)
(** The nearest whole number. *)
Definition nearest (n4 X : Z) : Prop := (2 * Z.abs (4 * X - n4) <= 4)%Z.
(** The whole number next towards zero. *)
Definition truncated (n4 X : Z) : Prop := (Z.abs (4 * X) <= Z.abs n4 < Z.abs (4 * X) + 4 /\ 0 <= n4 * X)%Z.
Definition moved (how : Z -> Z -> Prop) (p q : Z * Z) : Prop := how (25 * fst p)%Z (fst q) /\ how (- 25 * snd p)%Z (snd q).
Definition on_grid (p : Z * Z) : Prop := (fst p mod 4 = 0 /\ snd p mod 4 = 0)%Z.
Definition exactly (p : Z * Z) : Z * Z := (25 * (fst p / 4), - 25 * (snd p / 4))%Z.

(** ** Symbols that can be converted *)
Definition pin_name (p : pin) : option str := option_map snd (find (fun e => str_eqb (fst e) (s2l "PinName")) (rev (p_attrs p))).
(** Text that can stand between the quotes of a tag. *)
Definition quotable (s : str) : Prop := ~ In DQ s /\ no_colon s /\ ~ In CR s.
Definition attr_of (m : symfile) (k : str) : option str := option_map (fun e => attr_value k (snd e)) (find (fun e => str_eqb (fst e) k) (s_attributes m)).
Definition convertible (m : symfile) : Prop :=
  sym_ok m /\
  (exists p, attr_of m (s2l "Prefix") = Some p /\ p <> [] /\ label_text p /\ no_colon p /\ forall c, In c p -> is_space c = false) /\
  (exists d, attr_of m (s2l "Description") = Some d /\ label_text d /\ no_colon d) /\
  (forall p, In p (s_pins m) -> (exists n, pin_name p = Some n /\ quotable n) /\
     forall k v, In (k, v) (p_attrs p) -> ~ In "="%char k /\ ~ In "="%char v /\ ~ In ";"%char k /\ ~ In ";"%char v) /\
  (forall n ps p, In (n, ps, p) (s_shapes m) -> n <> s2l "ARC").

(** ** The tag of a symbol *)
Definition at_point (i : nat) (t : tag) (p : Z * Z) : Prop := get_attr i t = Some (APair [fst p; snd p]).
(** Two corners, moved. *)
Definition drawn_as (p1 p2 : Z * Z) (t : tag) : Prop := exists q1 q2, at_point 1 t q1 /\ at_point 2 t q2 /\ moved truncated p1 q1 /\ moved truncated p2 q2.
Definition shapes_named (n : str) (m : symfile) : list (str * list (Z * Z) * str) := filter (fun s => str_eqb (fst (fst s)) n) (s_shapes m).
Record symbol_drawn (m : symfile) (args : list str) (t : tag) : Prop := {
  sd_prefix : exists c pre, attr_of m (s2l "Prefix") = Some (c :: pre) /\ toks t = [s2l "symbol"; [c]] /\ get_items (s2l "type:") t = [Tag [s2l "type:"; c :: pre] []];
  sd_descr : exists d, attr_of m (s2l "Description") = Some d /\ get_items (s2l "description:") t = [Tag [s2l "description:"; d] []];
  sd_lines : Forall2 (fun l u => let '(x1, y1, x2, y2, _) := l in drawn_as (x1, y1) (x2, y2) u) (s_lines m) (get_items (s2l "line") t);
  sd_rects : Forall2 (fun s u => exists p1 p2, snd (fst s) = [p1; p2] /\ drawn_as p1 p2 u) (shapes_named (s2l "RECTANGLE") m) (get_items (s2l "rect") t);
  sd_circles : Forall2 (fun s u => exists p1 p2, snd (fst s) = [p1; p2] /\ drawn_as p1 p2 u) (shapes_named (s2l "CIRCLE") m) (get_items (s2l "ellipse") t);
  sd_texts : Forall2 (fun x u => text_of u = Some (snd x) /\ exists q, at_point 1 u q /\ moved nearest (x_x (fst x), x_y (fst x)) q) (combine (s_texts m) args) (get_items (s2l "text") t);
  sd_pins : Forall2 (fun p u => (exists n, pin_name p = Some n /\ get_attr 8 u = Some (AText n)) /\ exists q, at_point 1 u q /\ moved nearest (p_x p, p_y p) q) (s_pins m) (get_items (s2l "pin") t);
  sd_proper : proper t /\ ~ in_tag CR t }.

(** ** The converted schematic *)
Definition value_text (s : symbol) : str := match value_of s (s2l "Value") with Some v => v | None => s2l "<val>" end.
Definition file_wires (f : file) : list (Z * Z * Z * Z) := flat_map (fun i => match i with Wire a b c d => [(a, b, c, d)] | _ => [] end) (f_items f).
Definition file_flags (f : file) : list (Z * Z * str) := flat_map (fun i => match i with Flag a b c => [(a, b, c)] | _ => [] end) (f_items f).
Definition file_notes (f : file) : list note := flat_map (fun i => match i with Note t => [t] | _ => [] end) (f_items f).
Definition file_lines_drawn (f : file) : list (Z * Z * Z * Z * str) := flat_map (fun i => match i with DLine a b c d p => [(a, b, c, d, p)] | _ => [] end) (f_items f).
Definition file_shapes (f : file) : list (str * list (Z * Z) * str) := flat_map (fun i => match i with DShape n ps p => [(n, ps, p)] | _ => [] end) (f_items f).
(** QSPICE counts the turns by 45 degrees, the other way round; from 8 on: mirrored. *)
Definition turns : list (str * Z) :=
  [(s2l "R0", 0); (s2l "R90", 6); (s2l "R180", 4); (s2l "R270", 2); (s2l "M0", 8); (s2l "M90", 14); (s2l "M180", 12); (s2l "M270", 10)]%Z.
(** What can be converted: every symbol is in the library; the texts can be put between quotes; no arcs. *)
Definition can_convert (lib : str -> option symfile) (f : file) : Prop :=
  (forall s, In s (symbols (f_items f)) -> quotable (s_ref s) /\ quotable (value_text s) /\ exists m, lib (s_name s) = Some m /\ convertible m /\ length (s_texts m) <= 2) /\
  (forall x y n, In (x, y, n) (file_flags f) -> quotable n /\ startswith (s2l "0x") n = false) /\
  (forall t, In t (file_notes f) -> quotable (n_text t)) /\
  (forall n ps p, In (n, ps, p) (file_shapes f) -> n <> s2l "ARC").
(** The first component with the same symbol. *)
Definition first_like (f : file) (s s0 : symbol) : Prop := find (fun x => str_eqb (s_name x) (s_name s)) (symbols (f_items f)) = Some s0.
Definition shapes_of (n : str) (f : file) : list (str * list (Z * Z) * str) := filter (fun s => str_eqb (fst (fst s)) n) (file_shapes f).
Record converted (lib : str -> option symfile) (f : file) (t : tag) : Prop := {
  cv_head : toks t = [s2l "schematic"];
  cv_comps : Forall2 (fun s u => (exists q, at_point 1 u q /\ moved truncated (s_x s, s_y s) q) /\ (exists k, In (s_rot s, k) turns /\ get_attr 2 u = Some (AInt k)) /\
      exists y s0 m, get_items (s2l "symbol") u = [y] /\ first_like f s s0 /\ lib (s_name s) = Some m /\ symbol_drawn m [s_ref s0; value_text s0] y)
    (symbols (f_items f)) (get_items (s2l "component") t);
  cv_nets : Forall2 (fun l u => let '(x, y, n) := l in (exists q, at_point 1 u q /\ moved truncated (x, y) q) /\ get_attr 5 u = Some (AText n)) (file_flags f) (get_items (s2l "net") t);
  cv_wires : Forall2 (fun w u => let '(x1, y1, x2, y2) := w in drawn_as (x1, y1) (x2, y2) u /\ get_attr 3 u = Some (AText (s2l "0"))) (file_wires f) (get_items (s2l "wire") t);
  cv_lines : Forall2 (fun l u => let '(x1, y1, x2, y2, _) := l in drawn_as (x1, y1) (x2, y2) u) (file_lines_drawn f) (get_items (s2l "line") t);
  cv_rects : Forall2 (fun s u => exists p1 p2, snd (fst s) = [p1; p2] /\ drawn_as p1 p2 u) (shapes_of (s2l "RECTANGLE") f) (get_items (s2l "rect") t);
  cv_circles : Forall2 (fun s u => exists p1 p2, snd (fst s) = [p1; p2] /\ drawn_as p1 p2 u) (shapes_of (s2l "CIRCLE") f) (get_items (s2l "ellipse") t);
  cv_texts : Forall2 (fun n u => (exists q, at_point 1 u q /\ moved truncated (n_x n, n_y n) q) /\ text_of u = Some (map ascii_of_nat [239; 187; 191] ++ n_text n) /\ get_attr 4 u = Some (AInt 0))
    (file_notes f) (get_items (s2l "text") t) }.
