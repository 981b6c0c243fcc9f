(** Model of the netlist of a QSPICE schematic: spicelib/editor/qsch_editor.py:171-175 ([decap]), 609-803 ([write_spice_to_file],
    [save_netlist]), 846-877 ([_find_pin_position], [_find_net_at_position]) and 892-983 (the nets in [_parse_qsch_stream]).
    Characters are the bytes of the file (cp1252).  None: an exception.  Simplifications: the place of a pin, which the code computes with
    floating point sines, is given by a function; so are the text of a library embedded in a symbol (lines 672-677) and the path of a
    library (lines 779-790); the label of a net must be a text even where no pin is; letter case is that of ASCII letters. *)
From Coq Require Import String Ascii List Bool Arith ZArith.
From Verif Require Import PyStr EngModel StepsModel Regex ParModel QTagModel QEdModel.
Import ListNotations.
Local Open Scope string_scope. Local Open Scope nat_scope. Local Open Scope list_scope.

Notation pos := (Z * Z)%type (only parsing).
Definition pos_eqb (p q : pos) : bool := (fst p =? fst q)%Z && (snd p =? snd q)%Z.
Definition NET := s2l "net". Definition WIRE := s2l "wire". Definition PIN := s2l "pin".
Definition YEN : ascii := ascii_of_nat 165.     (* ¥ *)
Definition ACUTE : ascii := ascii_of_nat 180.   (* ´ *)
Definition BULLET : ascii := ascii_of_nat 149.  (* • *)
Definition OSLASH : ascii := ascii_of_nat 216.  (* Ø *)
Definition CROSS : ascii := ascii_of_nat 215.   (* × *)
Definition ATILDE : ascii := ascii_of_nat 195.  (* Ã *)
Definition EURO : ascii := ascii_of_nat 128.    (* € *)
Definition POUND : ascii := ascii_of_nat 163.   (* £ *)

Fixpoint map_opt {A B} (f : A -> option B) (l : list A) : option (list B) :=
  match l with [] => Some [] | x :: r => match f x, map_opt f r with Some y, Some r' => Some (y :: r') | _, _ => None end end.
(** [x, y = tag.get_attr(i)] *)
Definition pair_attr (i : nat) (t : tag) : option pos := match get_attr i t with Some (APair [x; y]) => Some (x, y) | _ => None end.
(** qsch_editor.py:909-915: the labels *)
Definition label_of (t : tag) : option (pos * str) :=
  match pair_attr 1 t, as_text (get_attr 5 t) with Some p, Some n => Some (p, n) | _, _ => None end.
(** qsch_editor.py:917-930: the wires *)
Definition wire_of (t : tag) : option (pos * pos * str) :=
  match pair_attr 1 t, pair_attr 2 t, as_text (get_attr 3 t) with Some p, Some q, Some n => Some (p, q, n) | _, _, _ => None end.
(** qsch_editor.py:922-929: the highest number of a net N## *)
Definition net_number (n : str) : option Z := match n with c :: r => if aeqb c "N" then py_int r else None | [] => None end.
Definition highest (names : list str) : Z :=
  fold_left (fun h n => match net_number n with Some k => if (h <? k)%Z then k else h | None => h end) names 0%Z.
(** qsch_editor.py:870, 875 *)
Definition ground (n : str) : str := if str_eqb n (s2l "GND") then s2l "0" else n.
(** qsch_editor.py:865-877 [_find_net_at_position] *)
Definition net_at (labels : list (pos * str)) (wires : list (pos * pos * str)) (p : pos) : option str :=
  match find (fun l => pos_eqb (fst l) p) labels with
  | Some (_, n) => Some (ground n)
  | None => match find (fun w => pos_eqb (fst (fst w)) p || pos_eqb (snd (fst w)) p) wires with
            | Some (_, _, n) => Some (ground n)
            | None => None
            end
  end.
(** f'N{n:02d}' *)
Definition net_name (n : Z) : str := "N"%char :: (if (n <? 10)%Z then "0"%char :: show_int n else show_int n).

(** qsch_editor.py:905-907: the variables of the loop *)
Record loose := { l_high : Z; l_beh : nat; l_pins : list (pos * str) }.
Definition at_place (p : pos) (d : list (pos * str)) : option str := option_map snd (find (fun e => pos_eqb (fst e) p) d).
(** qsch_editor.py:959-980: the net of one pin; [special]: refdes[0] in ('¥', 'Ã', '€', '£'); [marked]: lines 964-967 *)
Definition pin_net (labels : list (pos * str)) (wires : list (pos * pos * str)) (special : bool) (pin : pos * bool) (st : loose) : str * loose :=
  match (if special && snd pin then Some [YEN] else net_at labels wires (fst pin)) with
  | Some n => (n, st)
  | None =>
      match at_place (fst pin) (l_pins st) with
      | Some n => (n, st)
      | None =>
          if special
          then let n := YEN :: dec (l_beh st) in (n, {| l_high := l_high st; l_beh := S (l_beh st); l_pins := l_pins st ++ [(fst pin, n)] |})
          else let n := net_name (l_high st + 1) in (n, {| l_high := l_high st + 1; l_beh := l_beh st; l_pins := l_pins st ++ [(fst pin, n)] |})
      end
  end.
Fixpoint pin_nets (labels : list (pos * str)) (wires : list (pos * pos * str)) (special : bool) (pins : list (pos * bool)) (st : loose) : list str * loose :=
  match pins with
  | [] => ([], st)
  | p :: r => let (n, st1) := pin_net labels wires special p st in let (l, st2) := pin_nets labels wires special r st1 in (n :: l, st2)
  end.
(** The nets of all components, in the order of the file: [true] for components with refdes[0] in ('¥', 'Ã', '€', '£'). *)
Fixpoint all_nets (labels : list (pos * str)) (wires : list (pos * pos * str)) (comps : list (bool * list (pos * bool))) (st : loose) : list (list str) :=
  match comps with
  | [] => []
  | (s, pins) :: r => let (l, st1) := pin_nets labels wires s pins st in l :: all_nets labels wires r st1
  end.

Section Load.
Variable pin_place : pos -> Z -> pos -> option pos.    (* _find_pin_position, lines 846-863: position, orientation, pin *)
(** qsch_editor.py:964-966 *)
Definition marked (t : tag) : bool := match get_attr 9 t with Some (AText y) => str_eqb y [YEN] | _ => false end.
(** qsch_editor.py:960, 964-966: the place of a pin, and whether its tenth token is "¥" *)
Definition pin_of (p : pos) (o : Z) (t : tag) : option (pos * bool) :=
  match pair_attr 1 t with
  | None => None
  | Some q => match pin_place p o q with
              | None => None
              | Some xy => Some (xy, marked t)
              end
  end.
(** qsch_editor.py:935-958: what is read of a component tag: reference, value, enabled, pins.  None also for an empty reference. *)
Definition comp_of (t : tag) : option (str * str * bool * list (pos * bool)) :=
  match ref_value t, pair_attr 1 t, get_attr 2 t, get_attr 3 t, symbol_of t with
  | Some (c :: ref, v), Some p, Some (AInt o), Some e, Some s =>
      option_map (fun pins => (c :: ref, v, match e with AInt 0 => true | _ => false end, pins)) (map_opt (pin_of p o) (get_items PIN s))
  | _, _, _, _, _ => None
  end.
Definition is_special (ref : str) : bool := match ref with c :: _ => mem_c c [YEN; ATILDE; EURO; POUND] | [] => false end.
(** qsch_editor.py:903-983: the nets of the components of a schematic *)
Definition component_nets (t : tag) : option (list (str * list str)) :=
  match map_opt label_of (get_items NET t), map_opt wire_of (get_items WIRE t), map_opt comp_of (get_items COMPONENT t) with
  | Some labels, Some wires, Some comps =>
      Some (combine (map (fun c => fst (fst (fst c))) comps)
              (all_nets labels wires (map (fun c => (is_special (fst (fst (fst c))), snd c)) comps)
                 {| l_high := highest (map snd wires); l_beh := 0; l_pins := [] |}))
  | _, _, _ => None
  end.
End Load.

(** ** The lines of the netlist *)
Definition gP := 0. Definition gQ := 1.
(** qsch_editor.py:171-175 [decap]: re.sub of (\w+)=<(.∗)> by \1=\2 *)
Definition decap_re : re := seqs [Grp gP word1; lit "="; lit "<"; Grp gQ (Star true (Chr (fun c => negb (aeqb c NLc)))); lit ">"].
Fixpoint put_back (p : nat) (ms : list (nat * nat * caps)) (s : str) : str :=
  match ms with
  | [] => skipn p s
  | (b, e, c) :: r =>
      slice s (p, b) ++ match cap gP c, cap gQ c with Some x, Some y => slice s x ++ s2l "=" ++ slice s y | _, _ => [] end ++ put_back e r s
  end.
Definition decap (s : str) : str := put_back 0 (finditer decap_re s) s.

(** A component as write_spice_to_file sees it: its tag, nodes, attribute 'enabled', value and the editor of its sub-circuit. *)
Inductive sheet := Sheet (parts : list part) (texts : list tag)
with part := Part (ref : str) (item : tag) (ports : list str) (enabled : bool) (value : str) (sub : option sheet).

(** tag.get_text(label) without a default; None: IndexError *)
Definition get_text1 (label : str) (t : tag) : option str :=
  match get_items (label ++ [COLON]) t with [a] => Some (match toks a with _ :: x :: _ => x | _ => [] end) | _ => None end.
(** qsch_editor.py:634-644: type and symbol; None also for an empty type *)
Definition type_of (s : tag) (value : str) : option (str * str) :=
  match (if 1 <? length (toks s)
         then match get_text_attr 1 s, get_text1 (s2l "type") s with Some a, Some b => Some (b, a) | _, _ => None end
         else match get_text (s2l "type") (s2l "X") s with
              | c :: _ => if aeqb c OSLASH then Some ([OSLASH], value) else Some (s2l "X", s2l "X")
              | [] => Some (s2l "X", s2l "X")
              end) with
  | Some ([], _) => None
  | r => r
  end.
(** qsch_editor.py:646-647 *)
Definition netlist_name (typ ref : str) : str :=
  match typ, ref with c :: _, d :: _ => if aeqb c d then ref else c :: ACUTE :: ref | _, _ => ref end.
(** qsch_editor.py:655-667 *)
Definition filled (typ : str) (ports : list str) : list str :=
  let upto n := ports ++ repeat [YEN] (n - length ports) in
  if str_eqb typ [YEN] || str_eqb typ [ATILDE] then upto 16 else if str_eqb typ [EURO] then upto 32 else if str_eqb typ [POUND] then upto 64 else ports.
(** qsch_editor.py:649-653 *)
Fixpoint param_text (l : list tag) : option str :=
  match l with
  | [] => Some []
  | t :: r => match get_text_attr 8 t, param_text r with Some a, Some b => Some (BLANK :: decap a ++ b) | _, _ => None end
  end.
Definition blanks (l : list str) : str := join_blank l.
(** qsch_editor.py:741-756: the groups of the pins of a Verilog module *)
Definition verilog_ports (dirs : list string) (ports configs : list str) : str :=
  strip (flat_map (fun pc : str * str =>
     match split_on "," (snd pc) with
     | [d; ty] => if existsb (fun x => str_eqb (lower d) (s2l x)) dirs then BLANK :: fst pc ++ ACUTE :: ty else []
     | _ => []
     end) (combine ports configs)).
(** qsch_editor.py:683-763: the line for a component; [] for none; None: IndexError *)
Definition element_line (verilog : str -> option (list str)) (name typ symbol model params : str) (ports : list str) : option (list str) :=
  let nets := blanks ports in
  let line l := Some [blanks (name :: l) ++ params] in
  if str_eqb typ (s2l "X") then line [nets; model]
  else if str_eqb typ (s2l "QP") || str_eqb typ (s2l "QN") then
    if existsb (fun x => str_eqb symbol (s2l x)) ["NPNS"; "PNPS"; "LPNP"]
    then match nth_error ports 3 with
         | None => None
         | Some p => line [blanks (firstn 3 ports ++ (s2l "[" ++ p ++ s2l "]") :: skipn 4 ports); model; if is_sub (s2l "PNP") symbol then s2l "PNP" else s2l "NPN"]
         end
    else line [nets; s2l "[0]"; model; symbol]
  else if str_eqb typ (s2l "MN") || str_eqb typ (s2l "MP") then
    let symbol := if str_eqb symbol (s2l "NMOSB") || str_eqb symbol (s2l "PMOSB") then firstn 4 symbol else symbol in
    match ports with
    | [_; _; p] => line [nets; p; model; symbol]
    | _ => line [nets; model; symbol]
    end
  else if str_eqb typ (s2l "T") then line [nets; decap model]
  else if str_eqb typ (s2l "JN") || str_eqb typ (s2l "JP") then line [nets; model; if startswith (s2l "Pwr") symbol then skipn 3 symbol else symbol]
  else if str_eqb typ [CROSS] then line [LT :: nets ++ [GT]; model]
  else if str_eqb typ (s2l "ZP") || str_eqb typ (s2l "ZN") then line [nets; model; symbol]
  else if str_eqb typ [OSLASH] then
    match verilog (if mem_c ACUTE name then skipn 2 name else name) with
    | None => Some []
    | Some cfg =>
        if length cfg <? length ports then Some []
        else let group dirs := LT :: verilog_ports dirs ports cfg ++ [GT] in
             line [group ["in"; "input"]; group ["out"; "output"]; group ["common"; "inout"]; []; symbol]
    end
  else line [nets; model].

(** qsch_editor.py:770-777: the texts *)
Fixpoint text_lines (l : list tag) : option (list str) :=
  match l with
  | [] => Some []
  | t :: r => match text_of t, comment_of t, text_lines r with
              | Some s, Some c, Some d => Some ((if c then [] else map strip (split_bsn (unqual s))) ++ d)
              | _, _, _ => None
              end
  end.

Section Write.
Variable embed : str -> str -> list str.          (* lines 672-677: the lines for a library text in the symbol of the component named *)
Variable lib_path : str -> str.                   (* lines 779-790: the path written for a library *)
Variable verilog : str -> option (list str).      (* verilog_config *)
(** What one component contributes: its lines, its library, its model with the nodes of the sub-circuit. *)
Record share := { s_lines : list str; s_lib : option str; s_sub : option (str * str) }.
Definition nothing : share := {| s_lines := []; s_lib := None; s_sub := None |}.
(** qsch_editor.py:690-697: the nodes of the sub-circuit; None: TypeError or IndexError *)
Definition sub_ports (s : tag) : option str := option_map blanks (map_opt (fun p => as_text (get_attr 8 p)) (get_items PIN s)).
(** qsch_editor.py:625-763 *)
Definition share_of (has_sub : bool) (ref : str) (item : tag) (ports : list str) (enabled : bool) (value : str) : option share :=
  match get_items SYMBOL item with
  | [s] =>
      if negb enabled then Some nothing
      else
      match type_of s value, get_items TEXT s with
      | Some (typ, symbol), _ :: m :: more =>
          let name := netlist_name typ ref in
          match get_text_attr 8 m, param_text more with
          | Some model, Some params =>
              let lib := get_text (s2l "library file") [] s in
              let inner := startswith (s2l "|") lib in
              let model := if inner then name ++ BULLET :: model else model in
              match element_line verilog name typ symbol model params (filled typ ports) with
              | None => None
              | Some line =>
                  let sub := if str_eqb typ (s2l "X") && has_sub then option_map (fun p => Some (model, p)) (sub_ports s) else Some None in
                  match sub with
                  | None => None
                  | Some sub => Some {| s_lines := (if inner then embed name lib else []) ++ line;
                                        s_lib := if inner then None else match lib with [] => None | _ => Some lib end; s_sub := sub |}
                  end
              end
          | _, _ => None
          end
      | _, _ => None
      end
  | _ => Some nothing
  end.
Fixpoint add_new (l : list str) (seen : list str) : list str :=
  match l with [] => [] | x :: r => if existsb (str_eqb x) seen then add_new r seen else x :: add_new r (x :: seen) end.
Fixpoint libs (l : list share) : list str := match l with [] => [] | s :: r => match s_lib s with Some x => x :: libs r | None => libs r end end.
(** qsch_editor.py:765-770: the definitions, each model once, with the lines of its schematic; None: it failed *)
Fixpoint definitions (l : list (share * option (list str))) (seen : list str) : option (list str) :=
  match l with
  | [] => Some []
  | (s, body) :: r =>
      match s_sub s with
      | Some (model, ports) =>
          if existsb (str_eqb model) seen then definitions r seen
          else match body, definitions r (model :: seen) with
               | Some b, Some d => Some ([[]; s2l ".subckt " ++ model ++ BLANK :: ports] ++ b ++ [s2l ".ends " ++ model; []] ++ d)
               | _, _ => None
               end
      | None => definitions r seen
      end
  end.
(** qsch_editor.py:609-790 [write_spice_to_file]: the lines written.  The schematic of a sub-circuit is written without verilog_config. *)
Definition assemble (parts : list (option share)) (bodies : list (option (list str))) (texts : list tag) : option (list str) :=
  match map_opt (fun x => x) parts with
  | None => None
  | Some ss =>
      match definitions (combine ss bodies) [], text_lines texts with
      | Some d, Some t => Some (flat_map s_lines ss ++ d ++ t ++ map (fun l => s2l ".lib " ++ lib_path l) (add_new (libs ss) []))
      | _, _ => None
      end
  end.
End Write.
Section Netlist.
Variable embed : str -> str -> list str.
Variable lib_path : str -> str.
Fixpoint write_sheet (verilog : str -> option (list str)) (s : sheet) : option (list str) :=
  match s with
  | Sheet parts texts =>
      assemble lib_path
        (map (fun p => match p with Part ref item ports enabled value sub => share_of embed verilog (match sub with Some _ => true | None => false end) ref item ports enabled value end) parts)
        ((fix go l := match l with
                      | [] => []
                      | Part _ _ _ _ _ (Some b) :: r => write_sheet (fun _ => None) b :: go r
                      | Part _ _ _ _ _ None :: r => None :: go r
                      end) parts)
        texts
  end.
(** qsch_editor.py:830-835 [save_netlist]: the lines of the file; [path]: that of the schematic *)
Definition netlist (path : str) (verilog : str -> option (list str)) (s : sheet) : option (list str) :=
  option_map (fun l => (s2l "* " ++ path) :: l ++ [s2l ".end"]) (write_sheet verilog s).
End Netlist.
