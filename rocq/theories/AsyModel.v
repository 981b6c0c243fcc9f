(** Model of the reader of LTspice symbols (spicelib/editor/asy_reader.py), of their conversion to QSPICE tags, and of the script that turns an
    LTspice schematic into a QSPICE one (spicelib/scripts/asc_to_qsch.py, qsch_editor.py:1324-1423 [copy_from]).  None: an exception.
    Simplifications: the encoding of the files is not modelled, characters are those below U+0100; arithmetic is exact (coordinates below 2^50
    are exact in the program too, except for the quotients of arcs); hierarchical blocks ("_SUBCKT") are not saved along. *)
From Coq Require Import String Ascii List Bool Arith ZArith.
From Verif Require Import PyStr EngModel StepsModel CompModel QTagModel QEdModel QNetModel AscModel.
Import ListNotations.
Local Open Scope string_scope. Local Open Scope nat_scope. Local Open Scope list_scope.

(** ** Reading a symbol *)
Definition drawn : Type := str * list (Z * Z) * str.
(** asy_reader.py:39-46.  Pins and windows are Text objects; the text of a pin is its attributes, "name=value;" each. *)
Record asy := Asy {
  y_version : str; y_type : option str; y_pins : list text; y_lines : list (seg * str); y_shapes : list drawn;
  y_attrs : list (str * str); y_windows : list text }.
Definition empty_asy : asy := Asy (s2l "4") None [] [] [] [] [].
Definition with_pins (s : asy) l := Asy (y_version s) (y_type s) l (y_lines s) (y_shapes s) (y_attrs s) (y_windows s).
Definition with_windows (s : asy) l := Asy (y_version s) (y_type s) (y_pins s) (y_lines s) (y_shapes s) (y_attrs s) l.
Definition with_sattrs (s : asy) l := Asy (y_version s) (y_type s) (y_pins s) (y_lines s) (y_shapes s) l (y_windows s).
Definition with_drawn (s : asy) l d := Asy (y_version s) (y_type s) (y_pins s) (y_lines s ++ l) (y_shapes s ++ d) (y_attrs s) (y_windows s).
(** The state of the loop: the symbol and the pin being read (line 47). *)
Definition ystate : Type := asy * option text.
(** asy_reader.py:94-95, 184-185 *)
Definition store_pin (s : ystate) : asy := match snd s with None => fst s | Some p => with_pins (fst s) (y_pins (fst s) ++ [p]) end.

(** asy_reader.py:62-67 *)
Definition asy_window (line : str) : option text :=
  match words line with
  | [_; num; x; y; al; size] =>
      match py_int x, py_int y, py_int size with Some x, Some y, Some size => set_align x y num size false al | _, _, _ => None end
  | _ => None
  end.
(** asy_reader.py:68-81 *)
Definition asy_attr (line : str) (l : list (str * str)) : list (str * str) :=
  match first_word line with
  | None => l
  | Some (_, r) =>
      match first_word r with
      | None => l
      | Some (ref, r') => let v := strip r' in dset ref (if str_eqb (upper ref) (s2l "PREFIX") then upper v else v) l
      end
  end.
(** asy_reader.py:82-85 *)
Definition asy_version (line : str) : option str :=
  match words line with [_; v] => if existsb (str_eqb v) (map s2l ["4"; "4.0"; "4.1"]) then Some v else None | _ => None end.
(** asy_reader.py:88-92: line.split(' ', maxsplit=3) has to give three texts. *)
Definition pin_attr (line : str) (p : text) : option text :=
  match split_on " " line with
  | [_; k; v] => Some (with_text p (t_text p ++ k ++ s2l "=" ++ strip v ++ s2l ";"))
  | _ => None
  end.
(** asy_reader.py:100-120 *)
Definition justify (j : str) : hor * ver * bool :=
  if str_eqb j (s2l "NONE") then (HCenter, VCenter, false)
  else if startswith (s2l "V") j
       then (if str_eqb j (s2l "VRIGHT") then HRight else HLeft, if str_eqb j (s2l "VTOP") then VTop else VBottom, true)
       else if str_eqb j (s2l "TOP") then (HLeft, VTop, false)
       else if str_eqb j (s2l "RIGHT") then (HRight, VBottom, false) else (HLeft, VBottom, false).
(** asy_reader.py:96-97, 122-123 *)
Definition asy_pin (line : str) : option text :=
  match words line with
  | [_; x; y; j; off] => match ints [x; y; off] with
                         | Some [x; y; off] => let '(h, v, r) := justify j in Some (Txt x y [] off false h v r true)
                         | _ => None
                         end
  | _ => None
  end.
(** asy_reader.py:129-147: the line and the shape a line of the file stands for. *)
Definition asy_drawing (line : str) : option (list (seg * str) * list drawn) :=
  match words line with
  | w :: _ :: x1 :: y1 :: x2 :: y2 :: style =>
      match style with _ :: _ :: _ => None | _ =>
        let pat := match style with p :: _ => p | [] => [] end in
        match ints [x1; y1; x2; y2] with
        | Some [x1; y1; x2; y2] =>
            Some (if startswith (s2l "LINE") line then [(x1, y1, x2, y2, pat)] else [],
                  if str_eqb w (s2l "RECTANGLE") || str_eqb w (s2l "CIRCLE") then [(w, [(x1, y1); (x2, y2)], pat)] else [])
        | _ => None
        end
      end
  | _ => None
  end.
(** asy_reader.py:149-159 *)
Definition asy_arc (line : str) : option drawn :=
  match words line with
  | _ :: _ :: rest =>
      match ints (firstn 8 rest) with
      | Some l => if length l =? 8 then match skipn 8 rest with [] => Some (s2l "ARC", points l, []) | [p] => Some (s2l "ARC", points l, p) | _ => None end else None
      | None => None
      end
  | _ => None
  end.
(** asy_reader.py:161-177; Some None: the text is left out. *)
Definition asy_text (line : str) : option (option text) :=
  match words line with
  | [_; x; y; al; size; s] => match ints [x; y; size] with Some [x; y; size] => option_map Some (set_align x y s size true al) | _ => None end
  | _ => Some None
  end.
(** asy_reader.py:61-183: one line of the file. *)
Definition asy_line (line : str) (st : ystate) : option ystate :=
  let (s, pin) := st in
  let is w := startswith (s2l w) line in
  if is "WINDOW" then option_map (fun t => (with_windows s (y_windows s ++ [t]), pin)) (asy_window line)
  else if is "SYMATTR" then Some (with_sattrs s (asy_attr line (y_attrs s)), pin)
  else if is "Version" then option_map (fun v => (Asy v (y_type s) (y_pins s) (y_lines s) (y_shapes s) (y_attrs s) (y_windows s), pin)) (asy_version line)
  else if is "SymbolType " then Some (Asy (y_version s) (Some (strip (skipn 11 line))) (y_pins s) (y_lines s) (y_shapes s) (y_attrs s) (y_windows s), pin)
  else if is "PINATTR" then match pin with None => None | Some p => option_map (fun p' => (s, Some p')) (pin_attr line p) end
  else if is "PIN" then option_map (fun p => (store_pin st, Some p)) (asy_pin line)
  else if is "LINE" || is "RECTANGLE" || is "CIRCLE" then option_map (fun d => (with_drawn s (fst d) (snd d), pin)) (asy_drawing line)
  else if is "ARC" then option_map (fun d => (with_drawn s [] [d], pin)) (asy_arc line)
  else if is "TEXT " then option_map (fun o => (match o with Some t => with_windows s (y_windows s ++ [t]) | None => s end, pin)) (asy_text line)
  else None.
Fixpoint asy_lines (l : list str) (s : ystate) : option ystate :=
  match l with [] => Some s | x :: r => match asy_line x s with Some s' => asy_lines r s' | None => None end end.
(** asy_reader.py:37-185 [AsyReader.__init__] for a file with this text. *)
Definition read_asy (file : str) : option asy := option_map store_pin (asy_lines (file_lines (newlines file)) (empty_asy, None)).

(** ** What a symbol is *)
(** asy_reader.py:273-275 [is_subcircuit] *)
Definition is_subcircuit (s : asy) : bool :=
  match y_type s with Some t => str_eqb t (s2l "BLOCK") | None => false end || match dget (s2l "Prefix") (y_attrs s) with Some p => str_eqb p (s2l "X") | None => false end.
Fixpoint first_of {A} (f : str -> option A) (l : list str) : option A :=
  match l with [] => None | x :: r => match f x with Some a => Some a | None => first_of f r end end.
(** asy_reader.py:277-284 [get_library]; None: None. *)
Definition get_library (s : asy) : option str :=
  match first_of (fun k => match dget k (y_attrs s) with
                           | Some v => if existsb (fun x => endswith (s2l x) (lower v)) [".lib"; ".sub"; ".cir"; ".txt"] then Some v else None
                           | None => None
                           end) (map s2l ["ModelFile"; "SpiceModel"; "SpiceLine"; "SpiceLine2"; "Def_Sub"; "Value"; "Value2"]) with
  | Some v => Some v
  | None => dget (s2l "SpiceModel") (y_attrs s)
  end.
(** asy_reader.py:286-292 [get_model]; None: ValueError. *)
Definition get_model (s : asy) : option str :=
  first_of (fun k => dget k (y_attrs s)) (map s2l ["Value"; "SpiceModel"; "Value2"; "ModelFile"; "SpiceLine"; "SpiceLine2"; "Def_Sub"]).

(** ** Tags *)
(** QschTag.parse(text)[0] *)
Definition tag_from (ts : list str) : option tag := option_map fst (parse (LT :: join_blank ts ++ [GT])).
Definition pt (x y : str) : str := s2l "(" ++ x ++ s2l "," ++ y ++ s2l ")".
(** asy_reader.py:195-198: int(x * 6.25), int(y * -6.25) *)
Definition cut_x (x : Z) : Z := Z.quot (25 * x) 4.
Definition cut_y (y : Z) : Z := Z.quot (- 25 * y) 4.
(** The integer nearest to n/4, halves to the even one: the text f"{n/4:.0f}" without its sign for zero. *)
Definition near4 (n : Z) : Z :=
  let q := Z.div n 4 in
  if (n mod 4 =? 3)%Z || (n mod 4 =? 2)%Z && Z.odd q then (q + 1)%Z else q.
(** asy_reader.py:253-255, 267: f"{x * 6.25:.0f}" and f"{y * -6.25:.0f}"; 0 * -6.25 is -0.0. *)
Definition fmt_x (x : Z) : str := show_int (near4 (25 * x)).
Definition fmt_y (y : Z) : str := if (y =? 0)%Z then s2l "-0" else show_int (near4 (- 25 * y)).
Definition cut_pt (p : Z * Z) : str := pt (show_int (cut_x (fst p))) (show_int (cut_y (snd p))).
(** asy_reader.py:194-201 *)
Definition line_tag (l : seg * str) : option tag :=
  let '(x1, y1, x2, y2, _) := l in
  tag_from ([s2l "line"; cut_pt (x1, y1); cut_pt (x2, y2)] ++ map s2l ["0"; "0"; "0x1000000"; "-1"; "-1"]).
(** asy_reader.py:225-235: int((x3 - center) / radius * 6.25) with radius = abs(x2 - x1) / 2. *)
Definition by_radius (d num : Z) : Z := Z.quot num (4 * d).
Definition arc_tag (p1 p2 p3 p4 : Z * Z) : option tag :=
  let cx := Z.div (fst p1 + fst p2) 2 in
  let cy := Z.div (snd p1 + snd p2) 2 in
  let d := Z.abs (fst p2 - fst p1) in
  if (d =? 0)%Z then None                                                      (* ZeroDivisionError *)
  else let p q := pt (show_int (by_radius d (50 * (fst q - cx)))) (show_int (by_radius d (- 50 * (snd q - cy)))) in
       tag_from ([s2l "arc3p"; cut_pt (cx, cy); p p3; p p4] ++ map s2l ["0"; "0"; "0xff0000"; "-1"; "-1"]).
(** asy_reader.py:203-249 *)
Definition shape_tag (s : drawn) : option tag :=
  let '(n, ps, _) := s in
  if str_eqb n (s2l "RECTANGLE") then
    match ps with
    | p1 :: p2 :: _ => tag_from ([s2l "rect"; cut_pt p1; cut_pt p2] ++ map s2l ["0"; "0"; "0"; "0x4000000"; "0x1000000"; "-1"; "0"; "-1"])
    | _ => None
    end
  else if str_eqb n (s2l "ARC") then match ps with p1 :: p2 :: p3 :: p4 :: _ => arc_tag p1 p2 p3 p4 | _ => None end
  else if str_eqb n (s2l "CIRCLE") then
    match ps with
    | p1 :: p2 :: _ => tag_from ([s2l "ellipse"; cut_pt p1; cut_pt p2] ++ map s2l ["0"; "0"; "0"; "0x1000000"; "0x1000000"; "-1"; "-1"])
    | _ => None
    end
  else None.
(** asy_reader.py:251-257; None for a window without argument: IndexError. *)
Fixpoint window_tags (ws : list text) (args : list str) : option (list tag) :=
  match ws with
  | [] => Some []
  | w :: r =>
      match args with
      | [] => None
      | a :: args' =>
          match tag_from ([s2l "text"; pt (fmt_x (t_x w)) (fmt_y (t_y w))] ++ map s2l ["1"; "7"; "0"; "0x1000000"; "-1"; "-1"] ++ [DQ :: a ++ [DQ]]), window_tags r args' with
          | Some t, Some l => Some (t :: l)
          | _, _ => None
          end
      end
  end.
(** asy_reader.py:261-265; None: ValueError, two "=" in an attribute. *)
Fixpoint pin_dict (l : list str) (d : list (str * str)) : option (list (str * str)) :=
  match l with
  | [] => Some d
  | p :: r => if mem_c "="%char p then match split_on "=" p with [k; v] => pin_dict r (dset k v d) | _ => None end else pin_dict r d
  end.
(** asy_reader.py:259-269 *)
Definition pin_tag (p : text) : option tag :=
  match pin_dict (split_on ";" (t_text p)) [] with
  | None => None
  | Some d => match dget (s2l "PinName") d with
              | None => None                                                   (* KeyError *)
              | Some n => tag_from ([s2l "pin"; pt (fmt_x (t_x p)) (fmt_y (t_y p)); s2l "(0,0)"] ++ map s2l ["1"; "0"; "0"; "0x1000000"; "-1"] ++ [DQ :: n ++ [DQ]])
              end
  end.
(** asy_reader.py:187-271 [to_qsch] *)
Definition to_qsch (args : list str) (s : asy) : option tag :=
  match dget (s2l "Prefix") (y_attrs s), dget (s2l "Description") (y_attrs s) with
  | Some (c :: pre), Some d =>
      match map_opt line_tag (y_lines s), map_opt shape_tag (y_shapes s), window_tags (y_windows s) args, map_opt pin_tag (y_pins s) with
      | Some l, Some sh, Some w, Some p =>
          Some (Tag [SYMBOL; [c]] ([Tag [s2l "type:"; c :: pre] []; Tag [s2l "description:"; d] []; Tag [s2l "shorted pins:"; s2l "false"] []] ++ l ++ sh ++ w ++ p))
      | _, _, _, _ => None
      end
  | _, _ => None
  end.

(** ** The conversion of a schematic *)
Section Convert.
(** asc_to_qsch.py:97-113: the text of the symbol file that is found for a symbol; None: there is none. *)
Variable library : str -> option str.
(** asc_to_qsch.py:92-118: the tag of the component's symbol and the stock afterwards. *)
Definition symbol_for (c : AscModel.comp) (stock : list (str * tag)) : option (option tag * list (str * tag)) :=
  match dget (c_sym c) stock with
  | Some t => Some (Some t, stock)
  | None =>
      match library (c_sym c) with
      | None => Some (None, stock)
      | Some file =>
          match read_asy file, match dget (s2l "Value") (c_attrs c) with Some (AStr v) => Some v | None => Some (s2l "<val>") | Some _ => None end with
          | Some s, Some v => option_map (fun t => (Some t, dset (c_sym c) t stock)) (to_qsch [c_ref c; v] s)
          | _, _ => None
          end
      end
  end.
(** asc_to_qsch.py:191-198 *)
Definition turned (r : Z) : Z :=
  if (r =? 90)%Z then 270%Z else if (r =? 270)%Z then 90%Z else if (r =? 450)%Z then 630%Z else if (r =? 630)%Z then 450%Z else r.
(** qsch_editor.py:1334-1341 *)
Definition component_tag (c : AscModel.comp) (s : option tag) : option tag :=
  option_map (fun t => Tag (toks t) (kids t ++ match s with Some u => [u] | None => [] end))
    (tag_from [s2l "component"; pt (show_int (c_x c)) (show_int (c_y c)); show_int (Z.div (turned (c_rot c)) 45); s2l "0"]).
Fixpoint component_tags (l : list (str * AscModel.comp)) (stock : list (str * tag)) : option (list tag) :=
  match l with
  | [] => Some []
  | (_, c) :: r =>
      match symbol_for c stock with
      | None => None
      | Some (s, stock') =>
          match component_tag c s, component_tags r stock' with Some t, Some ts => Some (t :: ts) | _, _ => None end
      end
  end.
(** qsch_editor.py:1343-1347; the numbers of the attributes: 53-60 *)
Definition label_tag (l : Z * Z * str) : option tag :=
  let '(x, y, s) := l in
  match tag_from (map s2l ["net"; "(0,0)"; "1"; "13"; "0"; """0"""]) with
  | Some t => match set_attr 5 (AText s) t with Some t1 => set_attr 1 (APair [x; y]) t1 | None => None end
  | None => None
  end.
Definition two_points (ts : list string) (p q : Z * Z) : option tag :=
  match tag_from (map s2l ts) with
  | Some t => match set_attr 1 (APair [fst p; snd p]) t with Some t1 => set_attr 2 (APair [fst q; snd q]) t1 | None => None end
  | None => None
  end.
(** qsch_editor.py:1349-1354 *)
Definition wire_tag (w : seg) : option tag := let '(x1, y1, x2, y2) := w in two_points ["wire"; "(0,0)"; "(0,0)"; """0"""] (x1, y1) (x2, y2).
(** qsch_editor.py:1356-1368 *)
Definition sheet_line (l : seg * str) : option tag :=
  let '(x1, y1, x2, y2, _) := l in two_points ["line"; "(2000,1300)"; "(3150,-100)"; "0"; "2"; "0xff0000"; "-1"; "-1"] (x1, y1) (x2, y2).
(** qsch_editor.py:1370-1417.  Simplification: a schematic with arcs is not modelled (None). *)
Definition sheet_shape (s : drawn) : option tag :=
  let '(n, ps, _) := s in
  match ps with
  | p :: q :: _ =>
      if str_eqb n (s2l "RECTANGLE") then two_points ["rect"; "(1850,1550)"; "(3650,-400)"; "0"; "0"; "2"; "0xff0000"; "0x1000000"; "-1"; "0"; "-1"] p q
      else if str_eqb n (s2l "CIRCLE") then two_points ["ellipse"; "(2100,1150)"; "(2650,150)"; "0"; "0"; "2"; "0xff0000"; "0x1000000"; "-1"; "-1"] p q
      else None
  | _ => None
  end.
(** qsch_editor.py:1419-1423 *)
Definition directive_tag (t : text) : option tag :=
  match tag_from (map s2l ["text"; "(0,0)"; "1"; "7"; "0"; "0x1000000"; "-1"; "-1"; """text"""]) with
  | Some u => match set_attr 8 (AText (QUAL ++ t_text t)) u with Some u1 => set_attr 1 (APair [t_x t; t_y t]) u1 | None => None end
  | None => None
  end.
(** asc_to_qsch.py:61-206 [convert_asc_to_qsch] of a loaded schematic, with qsch_editor.py:1324-1423: the tag of the new schematic.  The scaling
    is that of asc_to_qsch_data.xml:8-9. *)
Definition convert (a : asc) : option tag :=
  let a := scale cut_x cut_y a in
  match component_tags (a_comps a) [], map_opt label_tag (a_labels a), map_opt wire_tag (a_wires a), map_opt sheet_line (a_lines a),
        map_opt sheet_shape (a_shapes a), map_opt directive_tag (a_dirs a) with
  | Some c, Some l, Some w, Some d, Some s, Some t => Some (Tag [s2l "schematic"] (c ++ l ++ w ++ d ++ s ++ t))
  | _, _, _, _, _, _ => None
  end.
End Convert.
(** The text of the converted file, from the text of the schematic. *)
Definition convert_file (sub : str -> str -> option bool) (library : str -> option str) (file : str) : option str :=
  match AscModel.load sub file with Some a => option_map file_text (convert library a) | None => None end.
