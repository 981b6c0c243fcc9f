(** Model of the editor of LTspice schematics: spicelib/editor/asc_editor.py ([AscComponent], [AscEditor]), ltspice_utils.py and
    base_schematic.py:278-424.  None: an exception (the editor is then unchanged unless stated).
    Simplifications: the encoding of the file is not modelled; characters are those below U+0100; components inside sub-circuits
    (references with ":") are not modelled; finding the symbol file and its sub-circuit is an oracle [sub]; a value is given as text
    (a number is the text format_eng makes of it, EngModel). *)
From Coq Require Import String Ascii List Bool Arith ZArith.
From Verif Require Import PyStr EngModel StepsModel Regex CompModel UpdatesModel ParModel QTagModel.
Import ListNotations.
Local Open Scope string_scope. Local Open Scope nat_scope. Local Open Scope list_scope.

Inductive hor := HLeft | HRight | HCenter.          (* base_schematic.py:119-123 [HorAlign] *)
Inductive ver := VTop | VCenter | VBottom.          (* base_schematic.py:126-130 [VerAlign] *)
(** base_schematic.py:246-256 [Text]; [t_comment]: its type is COMMENT, not DIRECTIVE; [t_vert]: its angle is R90. *)
Record text := Txt { t_x : Z; t_y : Z; t_text : str; t_size : Z; t_comment : bool; t_h : hor; t_v : ver; t_vert : bool; t_visible : bool }.
Definition with_text (t : text) (s : str) : text := Txt (t_x t) (t_y t) s (t_size t) (t_comment t) (t_h t) (t_v t) (t_vert t) (t_visible t).
(** Values of attributes: texts, windows, the sub-circuit (only that there is one), and None (set by set_component_parameters). *)
Inductive aval := AStr (s : str) | AWin (t : text) | ASub | ANone.
(** base_schematic.py:265-272 [SchematicComponent], primitives.py:86-129; [c_rot]: the value of the ERotation. *)
Record comp := Comp { c_sym : str; c_x : Z; c_y : Z; c_rot : Z; c_ref : str; c_attrs : list (str * aval) }.
Definition with_attrs (c : comp) (l : list (str * aval)) : comp := Comp (c_sym c) (c_x c) (c_y c) (c_rot c) (c_ref c) l.
Definition seg : Type := Z * Z * Z * Z.
(** base_schematic.py:284-293: [a_labels] x, y and text; [a_ports]: number of the label (the Text object is shared) and direction;
    [a_lines]: with the pattern of the style; [a_shapes]: name, points, pattern. *)
Inductive perm := Inform | Deny.
Record asc := Asc {
  a_version : str; a_sheet : str; a_wires : list seg; a_labels : list (Z * Z * str); a_comps : list (str * comp); a_dirs : list text;
  a_ports : list (nat * str); a_lines : list (seg * str); a_shapes : list (str * list (Z * Z) * str);
  a_log : list update; a_canvas : bool; a_perm : perm }.
Definition with_comps (a : asc) l := Asc (a_version a) (a_sheet a) (a_wires a) (a_labels a) l (a_dirs a) (a_ports a) (a_lines a) (a_shapes a) (a_log a) (a_canvas a) (a_perm a).
Definition with_dirs (a : asc) l := Asc (a_version a) (a_sheet a) (a_wires a) (a_labels a) (a_comps a) l (a_ports a) (a_lines a) (a_shapes a) (a_log a) (a_canvas a) (a_perm a).
(** base_schematic.py:418-421 [end_update]. *)
Definition end_update (name : str) (v : uval) (ty : utype) (a : asc) : asc :=
  Asc (a_version a) (a_sheet a) (a_wires a) (a_labels a) (a_comps a) (a_dirs a) (a_ports a) (a_lines a) (a_shapes a)
      (add_update (a_log a) (l2s name) v ty) true (a_perm a).
(** base_schematic.py:423-424 [updated]. *)
Definition updated (a : asc) : bool := a_canvas a || match a_log a with [] => false | _ => true end.

(** ** Alignment of texts *)
(** ltspice_utils.py:68-93 [asc_text_align_set]; None: ValueError. *)
Definition align_names : list (str * (hor * ver * bool)) :=
  [(s2l "left", (HLeft, VCenter, true)); (s2l "center", (HCenter, VCenter, true)); (s2l "right", (HRight, VCenter, true));
   (s2l "top", (HCenter, VTop, true)); (s2l "bottom", (HCenter, VBottom, true)); (s2l "invisible", (HCenter, VCenter, false))].
Definition set_align (x y : Z) (s : str) (size : Z) (comment : bool) (alignment : str) : option text :=
  let l := lower alignment in
  let vert := startswith (s2l "v") l in
  match dget (if vert then skipn 1 l else l) align_names with
  | Some (h, v, vis) => Some (Txt x y s size comment h v vert vis)
  | None => None
  end.
(** ltspice_utils.py:96-118 [asc_text_align_get]. *)
Definition get_align (t : text) : str :=
  let ans := if negb (t_visible t) then s2l "Invisible"
             else match t_v t with
                  | VCenter => match t_h t with HRight => s2l "Right" | HCenter => s2l "Center" | HLeft => s2l "Left" end
                  | VTop => s2l "Top"
                  | VBottom => s2l "Bottom"
                  end in
  if t_vert t then s2l "V" ++ ans else ans.

(** ** Reading *)
(** ltspice_utils.py:29-39 [TEXT_REGEX], with re.IGNORECASE. *)
Definition integer : re := Seq (Opt (lit "-")) (Plus (Chr is_digit)).
Definition any_of (l : list string) : re := fold_right (fun w r => Alt (ilit (s2l w)) r) (Chr (fun _ => false)) l.
Definition gX := 1. Definition gY := 2. Definition gALIGN := 3. Definition gSIZE := 4. Definition gTYPE := 5. Definition gTEXT := 6.
Definition text_re : re :=
  Seq (ilit (s2l "TEXT ")) (Seq (Grp gX integer) (Seq sp1 (Seq (Grp gY integer) (Seq sp1 (Seq (Opt (ichar "V"))
    (Seq (Grp gALIGN (any_of ["Left"; "Right"; "Top"; "Bottom"; "Center"; "Invisible"])) (Seq (Chr is_space) (Seq (Grp gSIZE (Plus (Chr is_digit)))
      (Seq sp0 (Seq (Grp gTYPE (Chr (fun c => aeqb c "!" || aeqb c ";"))) (Grp gTEXT (Star true (Chr not_nl))))))))))))).
(** asc_editor.py:372-387; None: an exception; Some None: no match, nothing is stored. *)
Definition read_text (line : str) : option (option text) :=
  match re_match text_re line with
  | None => Some None
  | Some (_, c) =>
      match group gX line c, group gY line c, group gALIGN line c, group gSIZE line c, group gTYPE line c, group gTEXT line c with
      | Some x, Some y, Some al, Some sz, Some ty, Some s =>
          match py_int x, py_int y, py_int sz with
          | Some x, Some y, Some sz => option_map Some (set_align x y (strip s) sz (negb (str_eqb ty (s2l "!"))) al)
          | _, _, _ => None
          end
      | _, _, _, _, _, _ => None
      end
  end.
(** ltspice_utils.py:41-50 [ASC_ROTATION_DICT], base_schematic.py:37-54. *)
Definition rotations : list (str * Z) :=
  [(s2l "R0", 0); (s2l "R90", 90); (s2l "R180", 180); (s2l "R270", 270); (s2l "M0", 360); (s2l "M90", 450); (s2l "M180", 540); (s2l "M270", 630)]%Z.
(** int() of each of some words; None: ValueError. *)
Fixpoint ints (l : list str) : option (list Z) :=
  match l with [] => Some [] | x :: r => match py_int x, ints r with Some a, Some b => Some (a :: b) | _, _ => None end end.
(** The first word of a text and what follows it. *)
Definition first_word (s : str) : option (str * str) :=
  match span (fun c => negb (is_space c)) (lstrip s) with ([], _) => None | (w, r) => Some (w, r) end.
(** s.split(maxsplit=2) when it gives three texts; None: fewer, ValueError. *)
Definition split2 (s : str) : option (str * str * str) :=
  match first_word s with
  | Some (a, r) => match first_word r with
                   | Some (b, r') => match lstrip r' with [] => None | c => Some (a, b, c) end
                   | None => None
                   end
  | None => None
  end.
(** The state of the loop: the editor and the component being read. *)
Definition state : Type := asc * option comp.
(** asc_editor.py:334-337, 450-452: storing the component. *)
Definition store (s : state) : asc := match snd s with None => fst s | Some c => with_comps (fst s) (dset (c_ref c) c (a_comps (fst s))) end.
Fixpoint points (l : list Z) : list (Z * Z) := match l with x :: y :: r => (x, y) :: points r | _ => [] end.

Section Sub.
(** asc_editor.py:363-366 with 456-512: [_get_symbol] and [_get_subcircuit] for a symbol and a reference.  None: an exception
    (symbol or library not found); Some b: whether the component has a "_SUBCKT". *)
Variable sub : str -> str -> option bool.

(** asc_editor.py:338-346 *)
Definition read_symbol (line : str) : option comp :=
  match rev (words line) with
  | rot :: y :: x :: rest =>
      match rev rest, py_int x, py_int y, dget rot rotations with
      | _ :: symbol, Some x, Some y, Some r => Some (Comp (join_blank symbol) x y r [] [])
      | _, _, _, _ => None
      end
  | _ => None
  end.
(** asc_editor.py:347-354 *)
Definition read_window (line : str) (c : comp) : option comp :=
  match words line with
  | [_; num; x; y; al; size] =>
      match py_int x, py_int y, py_int size with
      | Some x, Some y, Some size => option_map (fun t => with_attrs c (dset (s2l "_WINDOW " ++ num) (AWin t) (c_attrs c))) (set_align x y num size false al)
      | _, _, _ => None
      end
  | _ => None
  end.
(** asc_editor.py:356-371 *)
Definition read_symattr (line : str) (c : comp) : option comp :=
  match split2 line with
  | Some (_, ref, rest) =>
      let v := strip rest in
      if str_eqb ref (s2l "InstName")
      then match sub (c_sym c) v with
           | None => None
           | Some b => Some (Comp (c_sym c) (c_x c) (c_y c) (c_rot c) v (if b then dset (s2l "_SUBCKT") ASub (c_attrs c) else c_attrs c))
           end
      else Some (with_attrs c (dset ref (AStr (if str_eqb (upper ref) (s2l "PREFIX") then upper v else v)) (c_attrs c)))
  | None => None
  end.
Definition add_wire (a : asc) (w : seg) := Asc (a_version a) (a_sheet a) (a_wires a ++ [w]) (a_labels a) (a_comps a) (a_dirs a) (a_ports a) (a_lines a) (a_shapes a) (a_log a) (a_canvas a) (a_perm a).
Definition add_label (a : asc) (l : Z * Z * str) := Asc (a_version a) (a_sheet a) (a_wires a) (a_labels a ++ [l]) (a_comps a) (a_dirs a) (a_ports a) (a_lines a) (a_shapes a) (a_log a) (a_canvas a) (a_perm a).
Definition add_port (a : asc) (p : nat * str) := Asc (a_version a) (a_sheet a) (a_wires a) (a_labels a) (a_comps a) (a_dirs a) (a_ports a ++ [p]) (a_lines a) (a_shapes a) (a_log a) (a_canvas a) (a_perm a).
Definition add_line (a : asc) (l : seg * str) := Asc (a_version a) (a_sheet a) (a_wires a) (a_labels a) (a_comps a) (a_dirs a) (a_ports a) (a_lines a ++ [l]) (a_shapes a) (a_log a) (a_canvas a) (a_perm a).
Definition add_shape (a : asc) (l : str * list (Z * Z) * str) := Asc (a_version a) (a_sheet a) (a_wires a) (a_labels a) (a_comps a) (a_dirs a) (a_ports a) (a_lines a) (a_shapes a ++ [l]) (a_log a) (a_canvas a) (a_perm a).
Definition set_version (a : asc) v := Asc v (a_sheet a) (a_wires a) (a_labels a) (a_comps a) (a_dirs a) (a_ports a) (a_lines a) (a_shapes a) (a_log a) (a_canvas a) (a_perm a).
Definition set_sheet (a : asc) v := Asc (a_version a) v (a_wires a) (a_labels a) (a_comps a) (a_dirs a) (a_ports a) (a_lines a) (a_shapes a) (a_log a) (a_canvas a) (a_perm a).
(** asc_editor.py:389-394 *)
Definition read_wire (line : str) (a : asc) : option asc :=
  match words line with
  | [_; x1; y1; x2; y2] => match ints [x1; y1; x2; y2] with Some [x1; y1; x2; y2] => Some (add_wire a (x1, y1, x2, y2)) | _ => None end
  | _ => None
  end.
(** asc_editor.py:395-399 (split(maxsplit=4) gives four texts only when there are four words) *)
Definition read_flag (line : str) (a : asc) : option asc :=
  match words line with
  | [_; x; y; s] => match ints [x; y] with Some [x; y] => Some (add_label a (x, y, s)) | _ => None end
  | _ => None
  end.
(** asc_editor.py:400-403 *)
Definition read_version (line : str) (a : asc) : option asc :=
  match words line with
  | [_; v] => if existsb (str_eqb v) (map s2l ["4"; "4.0"; "4.1"]) then Some (set_version a v) else None
  | _ => None
  end.
(** asc_editor.py:406-411 *)
Definition read_port (line : str) (a : asc) : option asc :=
  match words line, rev (a_labels a) with
  | [_; x; y; d], (lx, ly, _) :: _ =>
      match ints [x; y] with
      | Some [x; y] => if (x =? lx)%Z && (y =? ly)%Z then Some (add_port a (pred (length (a_labels a)), d)) else None
      | _ => None
      end
  | _, _ => None
  end.
(** asc_editor.py:414-432 *)
Definition read_drawing (line : str) (a : asc) : option asc :=
  match words line with
  | w :: _ :: x1 :: y1 :: x2 :: y2 :: style =>
      match style with _ :: _ :: _ => None | _ =>
        let pat := match style with p :: _ => p | [] => [] end in
        match ints [x1; y1; x2; y2] with
        | Some [x1; y1; x2; y2] =>
            let a' := if startswith (s2l "LINE") line then add_line a (x1, y1, x2, y2, pat) else a in
            Some (if str_eqb w (s2l "RECTANGLE") || str_eqb w (s2l "CIRCLE") then add_shape a' (w, [(x1, y1); (x2, y2)], pat) else a')
        | _ => None
        end
      end
  | _ => None
  end.
(** asc_editor.py:434-444 *)
Definition read_arc (line : str) (a : asc) : option asc :=
  match words line with
  | _ :: _ :: rest =>
      match ints (firstn 8 rest), skipn 8 rest with
      | Some l, style => if length l =? 8 then
                           match style with
                           | [] => Some (add_shape a (s2l "ARC", points l, []))
                           | [p] => Some (add_shape a (s2l "ARC", points l, p))
                           | _ => None
                           end
                         else None
      | None, _ => None
      end
  | _ => None
  end.
(** asc_editor.py:332-449: one line of the file. *)
Definition read_line (line : str) (s : state) : option state :=
  let (a, cur) := s in
  let is w := startswith (s2l w) line in
  let keep o := option_map (fun a' => (a', cur)) o in
  if is "SYMBOL" then option_map (fun c => (store s, Some c)) (read_symbol line)
  else if is "WINDOW" then match cur with None => None | Some c => option_map (fun c' => (a, Some c')) (read_window line c) end
  else if is "SYMATTR" then match cur with None => None | Some c => option_map (fun c' => (a, Some c')) (read_symattr line c) end
  else if is "TEXT" then keep (option_map (fun o => match o with Some t => with_dirs a (a_dirs a ++ [t]) | None => a end) (read_text line))
  else if is "WIRE" then keep (read_wire line a)
  else if is "FLAG" then keep (read_flag line a)
  else if is "Version" then keep (read_version line a)
  else if is "SHEET " then keep (Some (set_sheet a (strip (skipn 6 line))))
  else if is "IOPIN " then keep (read_port line a)
  else if is "LINE" || is "RECTANGLE" || is "CIRCLE" then keep (read_drawing line a)
  else if is "ARC" then keep (read_arc line a)
  else if is "DATAFLAG" then Some s
  else None.
Fixpoint read_lines (l : list str) (s : state) : option state :=
  match l with [] => Some s | x :: r => match read_line x s with Some s' => read_lines r s' | None => None end end.
(** The lines of a text, each with its newline: "for line in file". *)
Fixpoint file_lines (s : str) : list str :=
  match s with
  | [] => []
  | c :: r => if aeqb c LF then [c] :: file_lines r
              else match file_lines r with [] => [[c]] | x :: l => (c :: x) :: l end
  end.
(** asc_editor.py:221-236, 327-454 [__init__], [reset_netlist] of a new editor.  Simplification: the version is a text from the start. *)
Definition empty : asc := Asc (s2l "4") (s2l "1 0 0") [] [] [] [] [] [] [] [] false Inform.
Definition load (file : str) : option asc := option_map store (read_lines (file_lines (newlines file)) (empty, None)).
End Sub.

(** ** Writing *)
Definition num_text (l : list Z) : str := join_blank (map show_int l).
Definition seg_text (w : seg) : str := let '(x1, y1, x2, y2) := w in num_text [x1; y1; x2; y2].
Definition style_text (p : str) : str := match p with [] => [] | _ => BLANK :: p end.
(** f"{value}" of an attribute; windows and sub-circuits have names beginning with "_" and are not written here. *)
Definition aval_text (v : aval) : str := match v with AStr s => s | ANone => s2l "None" | AWin _ | ASub => [] end.
(** asc_editor.py:273-280 *)
Definition window_text (e : str * aval) : str :=
  match snd e with
  | AWin t => if startswith (s2l "_WINDOW") (fst e)
              then s2l "WINDOW " ++ skipn 8 (fst e) ++ BLANK :: num_text [t_x t; t_y t] ++ BLANK :: get_align t ++ BLANK :: show_int (t_size t) ++ [LF]
              else []
  | _ => []
  end.
(** asc_editor.py:287-289 *)
Definition attr_text (e : str * aval) : str :=
  if startswith (s2l "_") (fst e) then [] else s2l "SYMATTR " ++ fst e ++ BLANK :: aval_text (snd e) ++ [LF].
Definition rot_name (z : Z) : option str := option_map fst (find (fun e => Z.eqb (snd e) z) rotations).
(** asc_editor.py:267-289, without writing the sub-circuits; None: KeyError, nothing of this component is written. *)
Definition comp_text (c : comp) : option str :=
  match rot_name (c_rot c) with
  | None => None
  | Some r => Some (s2l "SYMBOL " ++ c_sym c ++ BLANK :: num_text [c_x c; c_y c] ++ BLANK :: r ++ [LF] ++
                    flat_map window_text (c_attrs c) ++ s2l "SYMATTR InstName " ++ c_ref c ++ [LF] ++ flat_map attr_text (c_attrs c))
  end.
(** asc_editor.py:290-299 *)
Definition dir_text (t : text) : str :=
  s2l "TEXT " ++ num_text [t_x t; t_y t] ++ BLANK :: get_align t ++ BLANK :: show_int (t_size t) ++ BLANK ::
  (if t_comment t then s2l ";" else s2l "!") ++ t_text t ++ [LF].
(** asc_editor.py:300-306 *)
Definition line_text (l : seg * str) : str := s2l "LINE Normal " ++ seg_text (fst l) ++ style_text (snd l) ++ [LF].
Definition shape_text (s : str * list (Z * Z) * str) : str :=
  let '(n, ps, p) := s in n ++ s2l " Normal " ++ num_text (flat_map (fun q => [fst q; snd q]) ps) ++ style_text p ++ [LF].
(** The pieces written one after the other, up to the first that raises; the second result tells whether all were written. *)
Fixpoint write (l : list (option str)) : str * bool :=
  match l with
  | [] => ([], true)
  | None :: _ => ([], false)
  | Some s :: r => (s ++ fst (write r), snd (write r))
  end.
(** asc_editor.py:258-310 [save_netlist]: what is in the file afterwards, and whether the call succeeds. *)
Definition save (a : asc) : str * bool :=
  write ([Some (s2l "Version " ++ a_version a ++ [LF]); Some (s2l "SHEET " ++ a_sheet a ++ [LF])] ++
         map (fun w => Some (s2l "WIRE " ++ seg_text w ++ [LF])) (a_wires a) ++
         map (fun f => let '(x, y, s) := f in Some (s2l "FLAG " ++ num_text [x; y] ++ BLANK :: s ++ [LF])) (a_labels a) ++
         map (fun e => comp_text (snd e)) (a_comps a) ++
         map (fun t => Some (dir_text t)) (a_dirs a) ++ map (fun l => Some (line_text l)) (a_lines a) ++ map (fun s => Some (shape_text s)) (a_shapes a)).

(** ** Components *)
(** base_schematic.py:329-345 [get_component]. *)
Definition get_component (ref : str) (a : asc) : option comp := if mem_c COLON ref then None else dget ref (a_comps a).
(** asc_editor.py:665-668 [get_components]; with prefixes, None: IndexError of the empty reference. *)
Definition get_components (a : asc) : list str := map fst (a_comps a).
(** asc_editor.py:79-85, 624-629 [get_component_value]; None: ComponentNotFoundError, or TypeError for a value that is None. *)
Definition VALUE := s2l "Value". Definition VALUE2 := s2l "Value2".
Definition get_component_value (ref : str) (a : asc) : option str :=
  match get_component ref a with
  | None => None
  | Some c => match dget VALUE (c_attrs c), dget VALUE2 (c_attrs c) with
              | Some (AStr v), Some (AStr w) => Some (v ++ BLANK :: w)
              | Some (AStr v), None | None, Some (AStr v) => Some v
              | _, _ => None
              end
  end.
Definition put_comp (ref : str) (c : comp) (a : asc) : asc := with_comps a (dset ref c (a_comps a)).
(** asc_editor.py:56-77, 598-617 [set_component_value]. *)
Definition set_component_value (ref v : str) (a : asc) : option asc :=
  match get_component ref a, a_perm a with
  | Some c, Inform => match dget VALUE (c_attrs c) with
                      | None => None
                      | Some _ => Some (end_update (c_ref c) (VStr (l2s v)) UpUpdateComponentValue (put_comp ref (with_attrs c (dset VALUE (AStr v) (c_attrs c))) a))
                      end
  | _, _ => None
  end.
(** asc_editor.py:526-533 [get_component_position], [set_component_position]. *)
Definition get_component_position (ref : str) (a : asc) : option (Z * Z * Z) := option_map (fun c => (c_x c, c_y c, c_rot c)) (get_component ref a).
Definition set_component_position (ref : str) (x y rot : Z) (a : asc) : option asc :=
  option_map (fun c => put_comp ref (Comp (c_sym c) x y rot (c_ref c) (c_attrs c)) a) (get_component ref a).
(** asc_editor.py:619-622 [set_element_model]. *)
Definition set_element_model (ref model : str) (a : asc) : option asc :=
  option_map (fun c => put_comp ref (Comp model (c_x c) (c_y c) (c_rot c) (c_ref c) (c_attrs c)) a) (get_component ref a).
(** asc_editor.py:670-674 [remove_component]; begin_update's answer is not looked at. *)
Definition ddel {W} (k : str) (d : list (str * W)) : list (str * W) := filter (fun e => negb (str_eqb (fst e) k)) d.
Definition remove_component (ref : str) (a : asc) : option asc :=
  match get_component ref a with
  | None => None
  | Some _ => Some (end_update ref (VStr "") UpDeleteComponent (with_comps a (ddel ref (a_comps a))))
  end.

(** ** Parameters of components *)
(** asc_editor.py:48-49 [LTSPICE_PARAMETERS], [LTSPICE_PARAMETERS_REDUCED]. *)
Definition SPICELINE := s2l "SpiceLine". Definition SPICELINE2 := s2l "SpiceLine2".
Definition LT_PARAMS : list str := [VALUE; VALUE2; s2l "SpiceModel"; SPICELINE; SPICELINE2].
Definition LT_REDUCED : list str := [SPICELINE; SPICELINE2].
Definition mem_s (x : str) (l : list str) : bool := existsb (str_eqb x) l.
Section Params.
(** str(try_convert_value(text)), logfile_data.py:76-101: how a value of a structured attribute is written back. *)
Variable conv : str -> str.
(** asc_editor.py:108-112: the settings on a line, as a dictionary. *)
Definition line_dict (s : str) : list (str * str) :=
  fold_left (fun d x => match group gNAME s (snd x), group gVALUE s (snd x) with Some n, Some v => dset n (conv v) d | _, _ => d end)
    (finditer (setting_re any_name) s) [].
(** asc_editor.py:87-118 [get_parameters] with as_dicts=True: a value, or the dictionary of a line; None: TypeError, a line that is None. *)
Inductive pval := PVal (v : aval) | PDict (d : list (str * str)).
Fixpoint get_dicts (l : list (str * aval)) : option (list (str * pval)) :=
  match l with
  | [] => Some []
  | (k, v) :: r =>
      if mem_s k LT_PARAMS
      then match (if mem_s k LT_REDUCED then match v with AStr s => Some (match line_dict s with [] => PVal v | d => PDict d end) | _ => None end else Some (PVal v)), get_dicts r with
           | Some p, Some q => Some ((k, p) :: q)
           | _, _ => None
           end
      else get_dicts r
  end.
(** asc_editor.py:87-118 with as_dicts=False: the settings of the lines among the attributes. *)
Fixpoint get_flat (l : list (str * aval)) (d : list (str * aval)) : option (list (str * aval)) :=
  match l with
  | [] => Some d
  | (k, v) :: r =>
      if mem_s k LT_PARAMS
      then if mem_s k LT_REDUCED
           then match v with
                | AStr s => get_flat r (fold_left (fun d e => dset (fst e) (AStr (snd e)) d) (line_dict s) (dset k v d))
                | _ => None
                end
           else get_flat r (dset k v d)
      else get_flat r d
  end.
Definition get_component_parameters (ref : str) (a : asc) : option (list (str * aval)) :=
  match get_component ref a with Some c => get_flat (c_attrs c) [] | None => None end.
Definition dict_text (d : list (str * str)) : str := join_blank (map (fun e => fst e ++ s2l "=" ++ snd e) d).
Definition of_value (v : option str) : aval := match v with Some s => AStr s | None => ANone end.
(** asc_editor.py:166-183: one of the lines; the attributes, and the kind of update when the key was found.  None: an exception. *)
Definition set_in_line (line key : str) (v : option str) (params : list (str * pval)) (attrs : list (str * aval)) : option (list (str * aval) * option utype) :=
  match dget line params with
  | None => Some (attrs, None)
  | Some (PVal (AStr s)) => if is_sub key s then None else Some (attrs, None)
  | Some (PVal _) => None
  | Some (PDict d) =>
      match dget key d with
      | None => Some (attrs, None)
      | Some _ => match v with
                  | None => Some (dset line (AStr (dict_text (ddel key d))) attrs, Some UpDeleteComponentParameter)
                  | Some s => Some (dset line (AStr (dict_text (dset key s d))) attrs, Some UpUpdateComponentParameter)
                  end
      end
  end.
Definition later (a b : option utype) : option utype := match b with Some _ => b | None => a end.
(** asc_editor.py:150-204: one keyword; [ty] is the value of update_type. *)
Definition set_one (key : str) (v : option str) (attrs : list (str * aval)) (ty : option utype) : option (list (str * aval) * option utype) :=
  match get_dicts attrs with
  | None => None
  | Some params =>
      match dget key params with
      | Some _ => Some (dset key (of_value v) attrs, Some UpUpdateComponentParameter)
      | None =>
          match set_in_line SPICELINE key v params attrs with
          | None => None
          | Some (at1, t1) =>
              match set_in_line SPICELINE2 key v params at1 with
              | None => None
              | Some (at2, t2) =>
                  match later t1 t2 with
                  | Some t => Some (at2, Some t)
                  | None =>
                      match v with
                      | None => Some (at2, ty)
                      | Some s =>
                          if mem_s key LT_PARAMS then Some (dset key (AStr s) at2, Some UpUpdateComponentParameter)
                          else match dget SPICELINE params with
                               | Some (PDict d) => Some (dset SPICELINE (AStr (dict_text (dset key s d))) at2, Some UpAddComponentParameter)
                               | Some (PVal _) => None
                               | None => Some (dset SPICELINE (AStr (key ++ s2l "=" ++ s)) at2, Some UpAddComponentParameter)
                               end
                      end
                  end
              end
          end
      end
  end.
(** asc_editor.py:121-205, 637-663 [set_component_parameters]: the editor, and whether the call ends without an exception. *)
Fixpoint set_params (ref : str) (kw : list (str * option str)) (ty : option utype) (a : asc) : asc * bool :=
  match kw with
  | [] => (a, true)
  | (key, v) :: r =>
      match get_component ref a with
      | None => (a, false)
      | Some c =>
          let v' := option_map strip v in
          match set_one key v' (c_attrs c) ty with
          | None => (a, false)
          | Some (l, None) => (put_comp ref (with_attrs c l) a, false)                          (* 205: UnboundLocalError *)
          | Some (l, Some t) =>
              set_params ref r (Some t) (end_update (c_ref c ++ s2l ":" ++ key) (match v' with Some s => VStr (l2s s) | None => VNone end) t (put_comp ref (with_attrs c l) a))
          end
      end
  end.
Definition set_component_parameters (ref : str) (kw : list (str * option str)) (a : asc) : asc * bool :=
  match get_component ref a, a_perm a with
  | Some _, Inform => set_params ref kw None a
  | _, _ => (a, false)
  end.
End Params.

(** ** Directives *)
(** asc_editor.py:676-708 [_get_text_space]; None: ValueError of the sheet. *)
Definition all_points (a : asc) : list (Z * Z) :=
  flat_map (fun w => let '(x1, y1, x2, y2) := w in [(x1, y1); (x2, y2)]) (a_wires a) ++ map fst (a_labels a) ++
  map (fun t => (t_x t, t_y t)) (a_dirs a) ++ map (fun e => (c_x (snd e), c_y (snd e))) (a_comps a).
Definition text_space (a : asc) : option (Z * Z) :=
  match words (a_sheet a) with
  | [_; x; y] => match ints [x; y] with
                 | Some [x; _] => Some (fold_left Z.min (map fst (all_points a)) (Z.min 100000 x), fold_left Z.max (map snd (all_points a)) (-100000) + 24)%Z
                 | _ => None
                 end
  | _ => None
  end.
Definition add_text (s : str) (a : asc) : option asc :=
  option_map (fun p => with_dirs a (a_dirs a ++ [Txt (fst p) (snd p) s 2 false HLeft VCenter false true])) (text_space a).
(** asc_editor.py:535-546 [_get_param_named]: the number of the directive, its text and the groups. *)
Definition sets_param (name : str) (t : text) : option caps :=
  if t_comment t then None
  else if startswith (s2l ".PARAM") (upper (t_text t)) then line_match (t_text t) name else None.
Fixpoint find_dir {B} (f : text -> option B) (l : list text) : option (list text * text * B * list text) :=
  match l with
  | [] => None
  | t :: r => match f t with
              | Some b => Some ([], t, b, r)
              | None => match find_dir f r with Some (p, u, b, q) => Some (t :: p, u, b, q) | None => None end
              end
  end.
(** asc_editor.py:562-567 [get_parameter]; None: ParameterNotFoundError. *)
Definition get_parameter (name : str) (a : asc) : option str :=
  match find_dir (sets_param name) (a_dirs a) with Some (_, t, c, _) => group gVALUE (t_text t) c | None => None end.
(** asc_editor.py:548-560 [get_all_parameter_names]. *)
Definition get_all_parameter_names (a : asc) : list str :=
  sort_texts (flat_map (fun t => if t_comment t then [] else if startswith (s2l ".PARAM") (upper (t_text t)) then line_names (t_text t) else []) (a_dirs a)).
(** asc_editor.py:569-596 [set_parameter]. *)
Definition set_parameter (name v : str) (a : asc) : option asc :=
  match a_perm a, find_dir (sets_param name) (a_dirs a) with
  | Inform, Some (p, t, c, q) =>
      match cap gVALUE c with
      | None => None
      | Some (b, e) => Some (end_update name (VStr (l2s v)) UpUpdateParameter (with_dirs a (p ++ with_text t (firstn b (t_text t) ++ v ++ skipn e (t_text t)) :: q)))
      end
  | Inform, None => option_map (end_update name (VStr (l2s v)) UpAddParameter) (add_text (s2l ".param " ++ name ++ s2l "=" ++ v) a)
  | Deny, _ => None
  end.
(** s.split()[0].upper(); None: IndexError. *)
Definition command (s : str) : option str := option_map (fun p => upper (fst p)) (first_word s).
(** spice_utils.py:24. *)
Definition is_unique (w : str) : bool := existsb (str_eqb w) (map s2l [".AC"; ".DC"; ".TRAN"; ".NOISE"; ".TF"]).
Definition INSTRUCTION := s2l "INSTRUCTION".
(** asc_editor.py:753-768: the first directive that is a simulation command; None: IndexError of an empty directive. *)
Fixpoint find_unique (l : list text) : option (option (list text * text * list text)) :=
  match l with
  | [] => Some None
  | t :: r =>
      let next := match find_unique r with
                  | Some (Some (p, u, q)) => Some (Some (t :: p, u, q))
                  | o => o
                  end in
      if t_comment t then next
      else match command (t_text t) with
           | None => None
           | Some w => if is_unique w then Some (Some ([], t, r)) else next
           end
  end.
(** asc_editor.py:747-778 [add_instruction]; begin_update's answer is not looked at. *)
Definition add_instruction (instruction : str) (a : asc) : option asc :=
  let ins := strip instruction in
  let added := option_map (end_update INSTRUCTION (VStr (l2s ins)) UpAddInstruction) (add_text ins a) in
  match command ins with
  | None => None
  | Some w =>
      if is_unique w
      then match find_unique (a_dirs a) with
           | None => None
           | Some (Some (p, t, q)) =>
               Some (end_update INSTRUCTION (VStr (l2s ins)) UpAddInstruction (end_update INSTRUCTION (VStr (l2s (strip (t_text t)))) UpDeleteInstruction
                      (with_dirs a (p ++ with_text t ins :: q))))
           | Some None => added
           end
      else if startswith (s2l ".PARAM") w then None else added
  end.
(** asc_editor.py:780-797 [remove_instruction]: the editor and the answer. *)
Definition remove_instruction (instruction : str) (a : asc) : asc * bool :=
  match find_dir (fun t => if t_comment t then None else if is_sub instruction (t_text t) then Some tt else None) (a_dirs a) with
  | Some (p, t, _, q) => (end_update INSTRUCTION (VStr (l2s (t_text t))) UpDeleteInstruction (with_dirs a (p ++ q)), true)
  | None => (a, false)
  end.
(** asc_editor.py:799-822 [remove_Xinstruction]; [pat]: whether the pattern matches a text. *)
Definition remove_Xinstruction (pat : str -> bool) (a : asc) : asc * bool :=
  let out := filter (fun t => negb (t_comment t) && pat (t_text t)) (a_dirs a) in
  let log := fold_left (fun l t => add_update l (l2s INSTRUCTION) (VStr (l2s (t_text t))) UpDeleteInstruction) out (a_log a) in
  (Asc (a_version a) (a_sheet a) (a_wires a) (a_labels a) (a_comps a) (filter (fun t => negb (negb (t_comment t) && pat (t_text t))) (a_dirs a))
       (a_ports a) (a_lines a) (a_shapes a) log (match out with [] => a_canvas a | _ => true end) (a_perm a),
   match out with [] => false | _ => true end).

(** ** Scaling *)
(** base_schematic.py:380-411 [scale]; [f], [g]: the new X and Y of a coordinate, round_fun(X * scale_x + offset_x).  The texts of the ports
    are the objects of the labels, so that they are changed again. *)
Section Scale.
Variables f g : Z -> Z.
Definition scale_seg (w : seg) : seg := let '(x1, y1, x2, y2) := w in (f x1, g y1, f x2, g y2).
Definition scale_label (l : Z * Z * str) : Z * Z * str := let '(x, y, s) := l in (f x, g y, s).
Definition scale_nth (i : nat) (l : list (Z * Z * str)) : list (Z * Z * str) := map (fun p => if fst p =? i then scale_label (snd p) else snd p) (combine (seq 0 (length l)) l).
Definition scale (a : asc) : asc :=
  Asc (a_version a) (a_sheet a) (map scale_seg (a_wires a))
      (fold_left (fun l p => scale_nth (fst p) l) (a_ports a) (map scale_label (a_labels a)))
      (map (fun e => (fst e, let c := snd e in Comp (c_sym c) (f (c_x c)) (g (c_y c)) (c_rot c) (c_ref c) (c_attrs c))) (a_comps a))
      (map (fun t => Txt (f (t_x t)) (g (t_y t)) (t_text t) (t_size t) (t_comment t) (t_h t) (t_v t) (t_vert t) (t_visible t)) (a_dirs a))
      (a_ports a) (map (fun l => (scale_seg (fst l), snd l)) (a_lines a))
      (map (fun s => let '(n, ps, p) := s in (n, map (fun q => (f (fst q), g (snd q))) ps, p)) (a_shapes a))
      (a_log a) true (a_perm a).
End Scale.
