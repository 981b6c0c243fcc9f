(** Model of the editor of QSPICE schematics: spicelib/editor/qsch_editor.py ([QschComponent], [QschEditor]) and base_schematic.py:279-426.
    A tag object is a number; the store tells its tokens and children.  None: an exception; the editor is then unchanged unless stated.
    Simplifications: components of sub-circuits (references with ":") are not modelled, nor the ports, nets, wires and lines; texts that
    are read as text are quoted in the file; characters are those below U+0100, letter case and \w those of ASCII; a value is given as text
    (a number is the text format_eng makes of it, EngModel). *)
From Coq Require Import String Ascii List Bool Arith ZArith.
From Verif Require Import PyStr EngModel StepsModel Regex UpdatesModel ParModel QTagModel.
Import ListNotations.
Local Open Scope string_scope. Local Open Scope nat_scope. Local Open Scope list_scope.

(** qsch_editor.py:94 [QSCH_TEXT_INSTR_QUALIFIER]. *)
Definition QUAL : str := map ascii_of_nat [239; 187; 191].
(** s.lstrip(QUAL): leading characters of that set are dropped. *)
Definition unqual (s : str) : str := lstrip_if (fun c => mem_c c QUAL) s.

Record comp := Comp { c_tag : nat; c_value : str }.
Inductive perm := Inform | Deny.
Record qed := Q {
  q_head : list str;            (* tokens of the schematic *)
  q_store : nat -> tag;
  q_items : list nat;           (* the children of the schematic *)
  q_next : nat;                 (* the next free number *)
  q_comps : list (str * comp);  (* self.components *)
  q_log : list update;          (* self.netlist_updates *)
  q_canvas : bool;              (* self.canvas_updated *)
  q_path : str;                 (* self._circuit_filepath *)
  q_perm : perm }.
Definition tree (ed : qed) : tag := Tag (q_head ed) (map (q_store ed) (q_items ed)).
Definition with_store (ed : qed) f := Q (q_head ed) f (q_items ed) (q_next ed) (q_comps ed) (q_log ed) (q_canvas ed) (q_path ed) (q_perm ed).
Definition with_items (ed : qed) l := Q (q_head ed) (q_store ed) l (q_next ed) (q_comps ed) (q_log ed) (q_canvas ed) (q_path ed) (q_perm ed).
Definition with_comps (ed : qed) l := Q (q_head ed) (q_store ed) (q_items ed) (q_next ed) l (q_log ed) (q_canvas ed) (q_path ed) (q_perm ed).
Definition put (ed : qed) (i : nat) (t : tag) : qed := with_store ed (fun j => if j =? i then t else q_store ed j).
(** schematic.items.append(tag) *)
Definition append (ed : qed) (t : tag) : qed :=
  Q (q_head ed) (fun j => if j =? q_next ed then t else q_store ed j) (q_items ed ++ [q_next ed]) (S (q_next ed)) (q_comps ed) (q_log ed) (q_canvas ed) (q_path ed) (q_perm ed).
(** base_schematic.py:418-421 [end_update]. *)
Definition end_update (name : str) (v : uval) (ty : utype) (ed : qed) : qed :=
  Q (q_head ed) (q_store ed) (q_items ed) (q_next ed) (q_comps ed) (add_update (q_log ed) (l2s name) v ty) true (q_path ed) (q_perm ed).
(** base_schematic.py:423-424 [updated]. *)
Definition updated (ed : qed) : bool := q_canvas ed || match q_log ed with [] => false | _ => true end.

Definition as_text (a : option attr) : option str := match a with Some (AText s) => Some s | _ => None end.
(** Attribute 8 of a text tag, qsch_editor.py:92; None: an exception or not a text. *)
Definition text_of (t : tag) : option str := as_text (get_attr 8 t).
(** tag.get_attr(QSCH_TEXT_COMMENT) == 1, qsch_editor.py:90; None: an exception. *)
Definition comment_of (t : tag) : option bool := option_map (fun a => match a with AInt 1 => true | _ => false end) (get_attr 4 t).
Definition SYMBOL := s2l "symbol". Definition TEXT := s2l "text". Definition COMPONENT := s2l "component".
Definition symbol_of (t : tag) : option tag := nth_error (get_items SYMBOL t) 0.
(** qsch_editor.py:935-940: reference and value of a component tag. *)
Definition ref_value (t : tag) : option (str * str) :=
  match symbol_of t with
  | None => None
  | Some s => match get_items TEXT s with
              | a :: b :: _ => match text_of a, text_of b with Some r, Some v => Some (r, v) | _, _ => None end
              | _ => None
              end
  end.
(** qsch_editor.py:932-983: self.components from the component tags, numbered by their places. *)
Fixpoint load_comps (i : nat) (l : list tag) (d : list (str * comp)) : option (list (str * comp)) :=
  match l with
  | [] => Some d
  | t :: r => if head_is COMPONENT t
              then match ref_value t with None => None | Some (a, v) => load_comps (S i) r (dset a (Comp i v) d) end
              else load_comps (S i) r d
  end.
(** qsch_editor.py:892-1033 [_parse_qsch_stream] after [QschTag.parse]. *)
Definition load (path : str) (t : tag) : option qed :=
  option_map (fun d => Q (toks t) (fun i => nth i (kids t) (Tag [] [])) (seq 0 (length (kids t))) (length (kids t)) d [] false path Inform)
    (load_comps 0 (kids t) []).
(** qsch_editor.py:584-601 [save_as], without the sub-circuits: the editor and what is written where. *)
Definition save_as (path : str) (ed : qed) : qed * option (str * str) :=
  if updated ed || negb (str_eqb path (q_path ed))
  then (Q (q_head ed) (q_store ed) (q_items ed) (q_next ed) (q_comps ed) (q_log ed) (q_canvas ed) path (q_perm ed), Some (path, file_text (tree ed)))
  else (ed, None).
(** base_schematic.py:329-345 [get_component]. *)
Definition get_component (ref : str) (ed : qed) : option comp := if mem_c COLON ref then None else dget ref (q_comps ed).
(** qsch_editor.py:1203-1207 [get_components]. *)
Definition get_components (ed : qed) : list str := map fst (q_comps ed).
Definition get_components_with (prefixes : str) (ed : qed) : list str :=
  filter (fun k => match k with c :: _ => mem_c c prefixes | [] => false end) (get_components ed).
(** qsch_editor.py:1158-1165 [get_component_value]. *)
Definition get_component_value (ref : str) (ed : qed) : option str := option_map c_value (get_component ref ed).

(** [f] on the n-th child whose first token is [item]. *)
Fixpoint on_item (item : str) (n : nat) (f : tag -> option tag) (l : list tag) : option (list tag) :=
  match l with
  | [] => None
  | t :: r => if head_is item t
              then match n with O => option_map (fun t' => t' :: r) (f t) | S n' => option_map (cons t) (on_item item n' f r) end
              else option_map (cons t) (on_item item n f r)
  end.
Definition in_items (item : str) (n : nat) (f : tag -> option tag) (t : tag) : option tag := option_map (Tag (toks t)) (on_item item n f (kids t)).
(** qsch_editor.py:395-415 [set_value], [set_model] and 1146-1156 [set_component_value], [set_element_model]. *)
Definition set_component_value (ref v : str) (ed : qed) : option qed :=
  match q_perm ed, get_component ref ed with
  | Inform, Some c =>
      let t := q_store ed (c_tag c) in
      match symbol_of t with
      | Some s =>
          match option_map (get_attr 8) (nth_error (get_items TEXT s) 0) with
          | Some (Some (AText r)) =>
              if str_eqb r ref                                                              (* 409: the assertion *)
              then match in_items SYMBOL 0 (in_items TEXT 1 (set_attr 8 (AText v))) t with
                   | Some t' => Some (end_update ref (VStr (l2s v)) UpUpdateComponentValue
                                        (with_comps (put ed (c_tag c) t') (dset ref (Comp (c_tag c) v) (q_comps ed))))
                   | None => None
                   end
              else None
          | _ => None
          end
      | None => None
      end
  | _, _ => None
  end.
Fixpoint remove_first (i : nat) (l : list nat) : option (list nat) :=
  match l with [] => None | x :: r => if x =? i then Some r else option_map (cons x) (remove_first i r) end.
(** qsch_editor.py:1209-1217 [remove_component]; None also for the ValueError of items.remove. *)
Definition remove_component (ref : str) (ed : qed) : option qed :=
  match q_perm ed, get_component ref ed with
  | Inform, Some c => option_map (fun l => end_update ref VNone UpDeleteComponent (with_items ed l)) (remove_first (c_tag c) (q_items ed))
  | _, _ => None
  end.
(** qsch_editor.py:533-559 [set_position]: the position is a pair; the rotation an ERotation or an integer.  Second result false: ValueError. *)
Inductive rotation := Enum (degrees : Z) | Int (degrees : Z).
Definition set_component_position (ref : str) (x y : Z) (rot : rotation) (mirror : bool) (ed : qed) : option (qed * bool) :=
  match get_component ref ed with
  | None => None
  | Some c =>
      match set_attr 1 (APair [x; y]) (q_store ed (c_tag c)) with
      | None => None
      | Some t1 =>
          match rot with
          | Enum _ => Some (put ed (c_tag c) t1, false)                                    (* 547, 556: set_attr takes no float *)
          | Int d =>
              match set_attr 2 (AInt ((d mod 360) / 45 + if mirror then 8 else 0)) t1 with
              | None => Some (put ed (c_tag c) t1, false)
              | Some t2 => Some (put ed (c_tag c) t2, existsb (Z.eqb d) [0; 45; 90; 135; 180; 225; 270; 315; 360; 405; 450; 495; 540; 585; 630; 675]%Z)   (* 559 *)
              end
          end
      end
  end.

(** qsch_editor.py:1219-1248 [_get_text_space]; None: an exception. *)
Definition pair_of (a : option attr) : option (Z * Z) := match a with Some (APair [x; y]) => Some (x, y) | _ => None end.
Definition corners (t : tag) : option (list (Z * Z)) :=
  if head_is COMPONENT t || head_is (s2l "net") t || head_is TEXT t then option_map (fun p => [p]) (pair_of (get_attr 1 t))
  else if head_is (s2l "wire") t then match pair_of (get_attr 1 t), pair_of (get_attr 2 t) with Some p, Some q => Some [p; q] | _, _ => None end
  else Some [].
Fixpoint all_corners (l : list tag) : option (list (Z * Z)) :=
  match l with [] => Some [] | t :: r => match corners t, all_corners r with Some a, Some b => Some (a ++ b) | _, _ => None end end.
Definition text_space (ed : qed) : option (Z * Z) :=
  match all_corners (kids (tree ed)) with
  | None => None
  | Some [] => Some (0, 0)%Z
  | Some ((x, y) :: r) => Some (fold_left Z.min (map fst r) x, fold_left Z.min (map snd r) y - 240)%Z
  end.
(** qsch_editor.py:1127-1129, 1278: the text tag that is parsed for a new directive. *)
Definition new_text (x y : Z) (s : str) : str :=
  LT :: s2l "text (" ++ show_int x ++ s2l "," ++ show_int y ++ s2l ") 1 0 0 0x1000000 -1 -1 " ++ DQ :: s ++ [DQ; GT].
Definition add_text (s : str) (ed : qed) : option qed :=
  match text_space ed with
  | None => None
  | Some (x, y) => option_map (fun p => append ed (fst p)) (parse (new_text x y s))
  end.

(** Looking through the text tags that are no comments, qsch_editor.py:1038-1044, 1260-1264, 1286-1289; None: an exception. *)
Fixpoint find_text (store : nat -> tag) (test : str -> option bool) (l : list nat) : option (option (nat * str)) :=
  match l with
  | [] => Some None
  | i :: r =>
      if head_is TEXT (store i)
      then match comment_of (store i) with
           | None => None
           | Some true => find_text store test r
           | Some false => match text_of (store i) with
                           | None => None
                           | Some s => match test s with None => None | Some true => Some (Some (i, s)) | Some false => find_text store test r end
                           end
           end
      else find_text store test r
  end.
(** qsch_editor.py:1044-1047: the line has a setting of the parameter. *)
Definition param_line (s : str) : bool := startswith (s2l ".PARAM") (upper (unqual s)).
Definition sets_param (name s : str) : option bool := Some (param_line s && match line_match (unqual s) name with Some _ => true | None => false end).
(** qsch_editor.py:1035-1049 [_get_param_named]; None: an exception. *)
Definition get_param_named (name : str) (ed : qed) : option (option (nat * str)) := find_text (q_store ed) (sets_param name) (q_items ed).
(** qsch_editor.py:1088-1095 [get_parameter]; None: ParameterNotFoundError or another exception. *)
Definition get_parameter (name : str) (ed : qed) : option str :=
  match get_param_named name ed with
  | Some (Some (_, s)) => match line_match (unqual s) name with Some c => group gVALUE (unqual s) c | None => None end
  | _ => None
  end.
(** qsch_editor.py:1097-1134 [set_parameter]. *)
Definition set_parameter (name v : str) (ed : qed) : option qed :=
  match q_perm ed, get_param_named name ed with
  | Inform, Some (Some (i, s)) =>
      match line_match (unqual s) name with
      | None => None
      | Some c =>
          match cap gVALUE c with
          | None => None
          | Some (a, b) =>
              let s' := firstn (a + 3) s ++ v ++ skipn (b + 3) s in
              option_map (fun t => end_update name (VStr (l2s v)) UpUpdateParameter (put ed i t)) (set_attr 8 (AText s') (q_store ed i))
          end
      end
  | Inform, Some None => option_map (end_update name (VStr (l2s v)) UpAddParameter) (add_text (QUAL ++ s2l ".param " ++ name ++ s2l "=" ++ v) ed)
  | _, _ => None
  end.

(** s.split()[0].upper(); None: IndexError. *)
Definition command (s : str) : option str :=
  match fst (span (fun c => negb (is_space c)) (lstrip s)) with [] => None | w => Some (upper w) end.
(** spice_utils.py:24. *)
Definition unique_commands : list str := map s2l [".AC"; ".DC"; ".TRAN"; ".NOISE"; ".TF"].
Definition is_unique (w : str) : bool := existsb (str_eqb w) unique_commands.
Definition INSTRUCTION := s2l "INSTRUCTION".
(** qsch_editor.py:1250-1279 [add_instruction]. *)
Definition add_instruction (instruction : str) (ed : qed) : option qed :=
  match q_perm ed with
  | Deny => None
  | Inform =>
      let ins := strip instruction in
      match command ins with
      | None => None
      | Some w =>
          if is_unique w
          then match find_text (q_store ed) (fun s => option_map is_unique (command (unqual s))) (q_items ed) with
               | None => None
               | Some (Some (i, s)) =>
                   option_map (fun t => end_update INSTRUCTION (VStr (l2s ins)) UpAddInstruction
                                          (end_update INSTRUCTION (VStr (l2s (unqual s))) UpDeleteInstruction (put ed i t)))
                     (set_attr 8 (AText (QUAL ++ ins)) (q_store ed i))
               | Some None => add_text (QUAL ++ ins) ed
               end
          else if startswith (s2l ".PARAM") w then None
          else add_text (QUAL ++ ins) (end_update INSTRUCTION (VStr (l2s ins)) UpAddInstruction ed)
      end
  end.
(** qsch_editor.py:1281-1298 [remove_instruction]. *)
Definition remove_instruction (instruction : str) (ed : qed) : option (qed * bool) :=
  match q_perm ed, find_text (q_store ed) (fun s => Some (is_sub instruction s)) (q_items ed) with
  | Inform, Some (Some (i, _)) =>
      option_map (fun l => (end_update INSTRUCTION (VStr (l2s instruction)) UpDeleteInstruction (with_items ed l), true)) (remove_first i (q_items ed))
  | Inform, Some None => Some (ed, false)
  | _, _ => None
  end.

(** qsch_editor.py:622-635, 691-699, 761: the components written to the netlist, with the text of their value; None: an exception.
    Simplification: only the reference (without the prefix added for its type) and the value of the line. *)
Definition element (r : str) (c : comp) (store : nat -> tag) : option (list (str * str)) :=
  let t := store (c_tag c) in
  match get_attr 3 t with
  | None => None
  | Some a =>
      match a, get_items SYMBOL t with
      | AInt 0, [s] => match nth_error (get_items TEXT s) 1 with
                       | Some b => option_map (fun v => [(r, v)]) (get_text_attr 8 b)
                       | None => None
                       end
      | _, _ => Some []
      end
  end.
Fixpoint elements (store : nat -> tag) (l : list (str * comp)) : option (list (str * str)) :=
  match l with
  | [] => Some []
  | (r, c) :: d => match element r c store, elements store d with Some a, Some b => Some (a ++ b) | _, _ => None end
  end.
Definition netlist_elements (ed : qed) : option (list (str * str)) := elements (q_store ed) (q_comps ed).

(** s.split("\\n"): the two characters backslash and n. *)
Fixpoint split_bsn (s : str) : list str :=
  match s with
  | [] => [[]]
  | a :: r => match (if aeqb a "\" then match r with b :: r' => if aeqb b "n" then Some (split_bsn r') else None | [] => None end else None) with
              | Some l => [] :: l
              | None => match split_bsn r with [] => [[a]] | x :: l => (a :: x) :: l end
              end
  end.
(** qsch_editor.py:771-777: the directives in the netlist. *)
Fixpoint directives (store : nat -> tag) (l : list nat) : option (list str) :=
  match l with
  | [] => Some []
  | i :: r =>
      if head_is TEXT (store i)
      then match text_of (store i), comment_of (store i), directives store r with
           | Some s, Some c, Some d => Some ((if c then [] else map strip (split_bsn (unqual s))) ++ d)
           | _, _, _ => None
           end
      else directives store r
  end.
Definition netlist_directives (ed : qed) : option (list str) := directives (q_store ed) (q_items ed).
