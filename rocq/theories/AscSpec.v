(** LTspice schematics: what is in a file, how it is written, and what the edits promise. *)
From Coq Require Import String Ascii List Bool Arith ZArith.
From Verif Require Import PyStr QTagModel.
Import ListNotations.
Local Open Scope string_scope. Local Open Scope nat_scope. Local Open Scope list_scope.

(** ** Documents *)
Record window := { w_num : str; w_x : Z; w_y : Z; w_align : str; w_size : Z }.
Record symbol := { s_name : str; s_x : Z; s_y : Z; s_rot : str; s_wins : list window; s_ref : str; s_attrs : list (str * str) }.
Record note := { n_x : Z; n_y : Z; n_align : str; n_size : Z; n_comment : bool; n_text : str }.
Inductive item :=
| Wire (x1 y1 x2 y2 : Z)
| Flag (x y : Z) (name : str)
| Symbol (s : symbol)
| Note (t : note)
| DLine (x1 y1 x2 y2 : Z) (style : str)
| DShape (name : str) (ps : list (Z * Z)) (style : str).
(** A file: version, sheet and items in any order. *)
Record file := { f_version : str; f_sheet : str; f_items : list item }.

(** ** Their text *)
Definition sp (l : list str) : str := join_blank l ++ [LF].
Definition z := show_int.
Definition styled (p : str) : list str := match p with [] => [] | _ => [p] end.
Definition window_line (w : window) : str := sp [s2l "WINDOW"; w_num w; z (w_x w); z (w_y w); w_align w; z (w_size w)].
Definition attr_line (e : str * str) : str := sp [s2l "SYMATTR"; fst e; snd e].
Definition item_lines (i : item) : list str :=
  match i with
  | Wire x1 y1 x2 y2 => [sp [s2l "WIRE"; z x1; z y1; z x2; z y2]]
  | Flag x y n => [sp [s2l "FLAG"; z x; z y; n]]
  | Symbol s => sp [s2l "SYMBOL"; s_name s; z (s_x s); z (s_y s); s_rot s] :: map window_line (s_wins s) ++
                attr_line (s2l "InstName", s_ref s) :: map attr_line (s_attrs s)
  | Note t => [sp [s2l "TEXT"; z (n_x t); z (n_y t); n_align t; z (n_size t); (if n_comment t then s2l ";" else s2l "!") ++ n_text t]]
  | DLine x1 y1 x2 y2 p => [sp ([s2l "LINE"; s2l "Normal"; z x1; z y1; z x2; z y2] ++ styled p)]
  | DShape n ps p => [sp ([n; s2l "Normal"] ++ flat_map (fun q => [z (fst q); z (snd q)]) ps ++ styled p)]
  end.
Definition file_lines_of (f : file) : list str := sp [s2l "Version"; f_version f] :: sp [s2l "SHEET"; f_sheet f] :: flat_map item_lines (f_items f).
Definition file_text (f : file) : str := concat (file_lines_of f).

(** ** Well-formed files *)
Definition one_word (s : str) : Prop := s <> [] /\ forall c, In c s -> is_space c = false.
(** Texts on a line: no line ends and no blanks at the ends. *)
Definition clean (s : str) : Prop := ~ In LF s /\ ~ In CR s /\ strip s = s.
Definition aligns : list str := map s2l ["Left"; "Right"; "Top"; "Bottom"; "Center"; "Invisible"].
Definition vertical_aligns : list str := map (fun a => "V"%char :: a) aligns.
Definition rotation_names : list str := map s2l ["R0"; "R90"; "R180"; "R270"; "M0"; "M90"; "M180"; "M270"].
Definition window_ok (w : window) : Prop := one_word (w_num w) /\ In (w_align w) (aligns ++ vertical_aligns).
Definition attr_ok (e : str * str) : Prop :=
  one_word (fst e) /\ fst e <> s2l "InstName" /\ startswith (s2l "_") (fst e) = false /\ clean (snd e) /\ snd e <> [] /\
  (upper (fst e) = s2l "PREFIX" -> upper (snd e) = snd e).
Definition symbol_ok (s : symbol) : Prop :=
  (exists ws, ws <> [] /\ s_name s = join_blank ws /\ forall w, In w ws -> one_word w) /\ In (s_rot s) rotation_names /\
  (forall w, In w (s_wins s) -> window_ok w) /\ NoDup (map w_num (s_wins s)) /\
  clean (s_ref s) /\ s_ref s <> [] /\ (forall e, In e (s_attrs s) -> attr_ok e) /\ NoDup (map fst (s_attrs s)).
(** Texts that are not turned by 90 degrees (C101). *)
Definition note_ok (t : note) : Prop := In (n_align t) aligns /\ (0 <= n_size t)%Z /\ clean (n_text t).
Definition item_ok (i : item) : Prop :=
  match i with
  | Wire _ _ _ _ => True
  | Flag _ _ n => one_word n
  | Symbol s => symbol_ok s
  | Note t => note_ok t
  | DLine _ _ _ _ p => p = [] \/ one_word p
  | DShape n ps p => (p = [] \/ one_word p) /\ (In n (map s2l ["RECTANGLE"; "CIRCLE"]) /\ length ps = 2 \/ n = s2l "ARC" /\ length ps = 4)
  end.
Definition symbols (l : list item) : list symbol := flat_map (fun i => match i with Symbol s => [s] | _ => [] end) l.
(** The symbols of the file can be found by the library, and the references are distinct. *)
Definition file_ok (sub : str -> str -> option bool) (f : file) : Prop :=
  In (f_version f) (map s2l ["4"; "4.0"; "4.1"]) /\ clean (f_sheet f) /\ (forall i, In i (f_items f) -> item_ok i) /\
  NoDup (map s_ref (symbols (f_items f))) /\ (forall s, In s (symbols (f_items f)) -> sub (s_name s) (s_ref s) <> None).

(** ** Items by kind, the order in which they are written *)
Definition kind (i : item) : nat := match i with Wire _ _ _ _ => 0 | Flag _ _ _ => 1 | Symbol _ => 2 | Note _ => 3 | DLine _ _ _ _ _ => 4 | DShape _ _ _ => 5 end.
Definition by_kind (l : list item) : list item := flat_map (fun k => filter (fun i => kind i =? k) l) [0; 1; 2; 3; 4; 5].
Definition grouped (f : file) : file := {| f_version := f_version f; f_sheet := f_sheet f; f_items := by_kind (f_items f) |}.

(** ** Edits *)
Inductive edit :=
| SetValue (ref v : str)                    (* set_component_value *)
| Move (ref : str) (x y : Z) (rot : str)    (* set_component_position *)
| SetModel (ref m : str)                    (* set_element_model *)
| Remove (ref : str)                        (* remove_component *)
| AddInstr (s : str)                        (* add_instruction *)
| RemInstr (s : str)                        (* remove_instruction *)
| RemMatching (pat : str -> bool)           (* remove_Xinstruction *)
| SetParam (n v : str).                     (* set_parameter *)

(** The first word of the text is one of the simulation commands of which there is only one. *)
Definition sim_command (s : str) : Prop :=
  exists b w r, s = b ++ w ++ r /\ (forall c, In c b -> is_space c = true) /\ (forall c, In c w -> is_space c = false) /\
    match r with c :: _ => is_space c = true | [] => True end /\ In (upper w) (map s2l [".AC"; ".DC"; ".TRAN"; ".NOISE"; ".TF"]).
Definition set_text (s : str) (t : note) : note :=
  {| n_x := n_x t; n_y := n_y t; n_align := n_align t; n_size := n_size t; n_comment := n_comment t; n_text := s |}.
Definition active_sim (i : item) : Prop := match i with Note t => n_comment t = false /\ sim_command (n_text t) | _ => False end.
Definition corners (i : item) : list (Z * Z) :=
  match i with
  | Wire x1 y1 x2 y2 => [(x1, y1); (x2, y2)]
  | Flag x y _ => [(x, y)]
  | Symbol s => [(s_x s, s_y s)]
  | Note t => [(n_x t, n_y t)]
  | _ => []
  end.
(** A new directive stands below and not to the right of all that is on the sheet. *)
Definition added (s : str) (l l' : list item) : Prop :=
  exists x y, l' = by_kind (l ++ [Note {| n_x := x; n_y := y; n_align := s2l "Left"; n_size := 2; n_comment := false; n_text := s |}]) /\
    forall i p, In i l -> In p (corners i) -> (x <= fst p /\ snd p + 24 <= y)%Z.
Definition on_symbol (ref : str) (h : symbol -> symbol) (i : item) : item :=
  match i with Symbol s => Symbol (if str_eqb (s_ref s) ref then h s else s) | _ => i end.
Definition has_ref (ref : str) (l : list item) : Prop := exists s, In (Symbol s) l /\ s_ref s = ref.
Definition value_of (s : symbol) (k : str) : option str := option_map snd (find (fun e => str_eqb (fst e) k) (s_attrs s)).
Definition put_attr (k v : str) (s : symbol) : symbol :=
  {| s_name := s_name s; s_x := s_x s; s_y := s_y s; s_rot := s_rot s; s_wins := s_wins s; s_ref := s_ref s;
     s_attrs := map (fun e => if str_eqb (fst e) k then (k, v) else e) (s_attrs s) |}.
Definition put_place (x y : Z) (r : str) (s : symbol) : symbol :=
  {| s_name := s_name s; s_x := x; s_y := y; s_rot := r; s_wins := s_wins s; s_ref := s_ref s; s_attrs := s_attrs s |}.
Definition put_name (m : str) (s : symbol) : symbol :=
  {| s_name := m; s_x := s_x s; s_y := s_y s; s_rot := s_rot s; s_wins := s_wins s; s_ref := s_ref s; s_attrs := s_attrs s |}.
Definition substring (p s : str) : Prop := exists a b, s = a ++ p ++ b.
Definition is_param_line (s : str) : Prop := exists w r, s = w ++ r /\ upper w = s2l ".PARAM".
(** What a successful edit makes of the items. *)
Definition edited (e : edit) (l l' : list item) : Prop :=
  match e with
  | SetValue ref v => (exists s, In (Symbol s) l /\ s_ref s = ref /\ value_of s (s2l "Value") <> None) /\ l' = map (on_symbol ref (put_attr (s2l "Value") v)) l
  | Move ref x y r => has_ref ref l /\ l' = map (on_symbol ref (put_place x y r)) l
  | SetModel ref m => has_ref ref l /\ l' = map (on_symbol ref (put_name m)) l
  | Remove ref => has_ref ref l /\ l' = filter (fun i => match i with Symbol s => negb (str_eqb (s_ref s) ref) | _ => true end) l
  | AddInstr s =>
      (* the first simulation command is replaced by the new one *)
      (sim_command (strip s) /\ exists p t q, l = p ++ Note t :: q /\ active_sim (Note t) /\ (forall i, In i p -> ~ active_sim i) /\ l' = p ++ Note (set_text (strip s) t) :: q)
      \/ ((sim_command (strip s) -> forall i, In i l -> ~ active_sim i) /\ added (strip s) l l')
  | RemInstr s =>
      (exists p t q, l = p ++ Note t :: q /\ n_comment t = false /\ substring s (n_text t) /\ l' = p ++ q /\
        forall u, In (Note u) p -> n_comment u = false -> ~ substring s (n_text u))
      \/ (l' = l /\ forall u, In (Note u) l -> n_comment u = false -> ~ substring s (n_text u))
  | RemMatching pat => l' = filter (fun i => match i with Note t => n_comment t || negb (pat (n_text t)) | _ => true end) l
  | SetParam n v =>
      (* in a parameter directive the value behind the name is replaced, or a directive is added *)
      (exists p t q a n0 sep old b, l = p ++ Note t :: q /\ n_comment t = false /\ is_param_line (n_text t) /\
        n_text t = a ++ n0 ++ sep ++ old ++ b /\ upper n0 = upper n /\ sep <> [] /\ (forall c, In c sep -> is_space c = true \/ c = "="%char) /\ old <> [] /\
        l' = p ++ Note (set_text (a ++ n0 ++ sep ++ v ++ b) t) :: q)
      \/ added (s2l ".param " ++ n ++ s2l "=" ++ v) l l'
  end.
(** Texts given to the edits that can be written to a line of the file. *)
Definition edit_ok (sub : str -> str -> option bool) (e : edit) : Prop :=
  match e with
  | SetValue _ v => clean v /\ v <> []
  | Move _ _ _ r => In r rotation_names
  | SetModel ref m => (exists ws, ws <> [] /\ m = join_blank ws /\ forall w, In w ws -> one_word w) /\ sub m ref <> None
  | AddInstr s => ~ In LF (strip s) /\ ~ In CR (strip s)
  | SetParam n v => clean v /\ v <> [] /\ ~ In LF n /\ ~ In CR n
  | _ => True
  end.
(** What a sequence of edits makes of the items. *)
Fixpoint edited_all (es : list edit) (l l' : list item) : Prop :=
  match es with [] => l' = l | e :: r => exists m, edited e l m /\ edited_all r m l' end.
(** ** Scaling: what it makes of an item, for the new X and Y of a coordinate. *)
Definition scaled (f g : Z -> Z) (i : item) : item :=
  match i with
  | Wire x1 y1 x2 y2 => Wire (f x1) (g y1) (f x2) (g y2)
  | Flag x y n => Flag (f x) (g y) n
  | Symbol s => Symbol (put_place (f (s_x s)) (g (s_y s)) (s_rot s) s)
  | Note t => Note {| n_x := f (n_x t); n_y := g (n_y t); n_align := n_align t; n_size := n_size t; n_comment := n_comment t; n_text := n_text t |}
  | DLine x1 y1 x2 y2 p => DLine (f x1) (g y1) (f x2) (g y2) p
  | DShape n ps p => DShape n (map (fun q => (f (fst q), g (snd q))) ps) p
  end.
