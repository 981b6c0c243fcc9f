(** What the lines of the netlist of a QSPICE schematic are to be. *)
From Coq Require Import String Ascii List Bool Arith ZArith.
From Verif Require Import PyStr Regex QTagModel QNetModel QNetSpec.
Import ListNotations.
Local Open Scope string_scope. Local Open Scope nat_scope. Local Open Scope list_scope.

Definition acute : ascii := ascii_of_nat 180.    (* ´ *)
Definition bullet : ascii := ascii_of_nat 149.   (* • *)
Definition sign (n : nat) : str := [ascii_of_nat n].
Definition second (t : tag) : str := match toks t with _ :: x :: _ => x | _ => [] end.
(** The name of a component in the netlist begins with the sign of its type. *)
Definition known_as (typ ref name : str) : Prop :=
  exists c r d r', typ = c :: r /\ ref = d :: r' /\ (c = d /\ name = ref \/ c <> d /\ name = c :: acute :: ref).
Definition verilog_module (s : tag) : Prop := exists a r, children "type:" s = [a] /\ second a = ascii_of_nat 216 :: r.
(** Type and symbol: given in the symbol, or a sub-circuit, or a Verilog module (Ø). *)
Definition kind (s : tag) (value typ symbol : str) : Prop :=
  (2 <= length (toks s) /\ get_text_attr 1 s = Some symbol /\ exists a, children "type:" s = [a] /\ typ = second a /\ typ <> []) \/
  (length (toks s) <= 1 /\ (verilog_module s /\ typ = sign 216 /\ symbol = value \/ ~ verilog_module s /\ typ = s2l "X" /\ symbol = s2l "X")).
(** Some types have a fixed number of nodes. *)
Definition nodes_needed (typ : str) : nat :=
  if str_eqb typ (sign 165) || str_eqb typ (sign 195) then 16 else if str_eqb typ (sign 128) then 32 else if str_eqb typ (sign 163) then 64 else 0.
Definition all_nodes (typ : str) (nodes : list str) : list str := nodes ++ repeat [unused] (nodes_needed typ - length nodes).
Definition other_kinds : list str := map s2l ["QP"; "QN"; "MN"; "MP"; "T"; "JN"; "JP"; "ZP"; "ZN"] ++ [sign 215; sign 216].
(** The words of the line: name, nodes, value; transistors and some others with what SPICE needs besides. *)
Inductive device (name model symbol : str) (nodes : list str) : str -> list str -> Prop :=
| D_plain typ : ~ In typ other_kinds -> device name model symbol nodes typ (name :: nodes ++ [model])
| D_bipolar typ : In typ (map s2l ["QP"; "QN"]) -> ~ In symbol (map s2l ["NPNS"; "PNPS"; "LPNP"]) -> device name model symbol nodes typ (name :: nodes ++ [s2l "[0]"; model; symbol])
| D_substrate typ c b e s r : In typ (map s2l ["QP"; "QN"]) -> nodes = c :: b :: e :: s :: r ->
    forall pol, (symbol = s2l "NPNS" /\ pol = s2l "NPN" \/ In symbol (map s2l ["PNPS"; "LPNP"]) /\ pol = s2l "PNP") ->
    device name model symbol nodes typ (name :: c :: b :: e :: (s2l "[" ++ s ++ s2l "]") :: r ++ [model; pol])
| D_mos typ pol : In typ (map s2l ["MN"; "MP"]) -> (symbol = pol /\ ~ In symbol (map s2l ["NMOSB"; "PMOSB"]) \/ symbol = s2l "NMOSB" /\ pol = s2l "NMOS" \/ symbol = s2l "PMOSB" /\ pol = s2l "PMOS") ->
    (forall d g s, nodes <> [d; g; s]) -> device name model symbol nodes typ (name :: nodes ++ [model; pol])
| D_mos3 typ pol d g s : In typ (map s2l ["MN"; "MP"]) -> (symbol = pol /\ ~ In symbol (map s2l ["NMOSB"; "PMOSB"]) \/ symbol = s2l "NMOSB" /\ pol = s2l "NMOS" \/ symbol = s2l "PMOSB" /\ pol = s2l "PMOS") ->
    nodes = [d; g; s] -> device name model symbol nodes typ [name; d; g; s; s; model; pol]
| D_line : device name model symbol nodes (s2l "T") (name :: nodes ++ [decap model])
| D_jfet typ : In typ (map s2l ["JN"; "JP"]) -> (forall r, symbol <> s2l "Pwr" ++ r) -> device name model symbol nodes typ (name :: nodes ++ [model; symbol])
| D_power typ pol : In typ (map s2l ["JN"; "JP"]) -> symbol = s2l "Pwr" ++ pol -> device name model symbol nodes typ (name :: nodes ++ [model; pol])
| D_mesfet typ : In typ (map s2l ["ZP"; "ZN"]) -> device name model symbol nodes typ (name :: nodes ++ [model; symbol])
| D_cross : device name model symbol nodes (sign 215) [name; LT :: join_blank nodes ++ [GT]; model].
(** The library named in a symbol; a text that begins with a bar is the library itself. *)
Definition library (s : tag) : str := match children "library file:" s with [a] => second a | _ => [] end.
Definition own_library (s : tag) : Prop := exists r, library s = "|"%char :: r.
(** The lines for one component: none if it is disabled; else one, after its own library, if it has one.  Verilog modules aside. *)
Definition lines_of (embed : str -> str -> list str) (p : part) (block : list str) : Prop :=
  let '(Part ref item ports enabled value sub) := p in
  (enabled = false \/ length (children "symbol" item) <> 1) /\ block = [] \/
  enabled = true /\ exists s t1 t2 more typ symbol model name extra,
    children "symbol" item = [s] /\ kind s value typ symbol /\ children "text" s = t1 :: t2 :: more /\ get_text_attr 8 t2 = Some model /\
    Forall2 (fun t x => get_text_attr 8 t = Some x) more extra /\ (ref = [] \/ known_as typ ref name) /\
    (ports <> [] -> ref <> [] -> typ <> sign 216 -> exists words head model', device name model' symbol (all_nodes typ ports) typ words /\
       block = head ++ [join_blank words ++ flat_map (fun x => " "%char :: decap x) extra] /\
       (own_library s /\ head = embed name (library s) /\ model' = name ++ bullet :: model \/ ~ own_library s /\ head = [] /\ model' = model)).

(** ** Definitions of sub-circuits *)
(** The definition of a sub-circuit: its name, nodes and the lines of its schematic. *)
Definition definition_lines (d : str * str * list str) : list str :=
  let '(model, nodes, body) := d in [[]; s2l ".subckt " ++ model ++ " "%char :: nodes] ++ body ++ [s2l ".ends " ++ model; []].
(** The component is written as an instance of the sub-circuit [model], whose pins are [nodes]. *)
Definition instance_of (p : part) (model nodes : str) (body : sheet) : Prop :=
  let '(Part ref item ports enabled value sub) := p in
  enabled = true /\ sub = Some body /\ exists s t1 t2 more symbol m name names, children "symbol" item = [s] /\ kind s value (s2l "X") symbol /\ children "text" s = t1 :: t2 :: more /\ get_text_attr 8 t2 = Some m /\
    (ref = [] \/ known_as (s2l "X") ref name) /\ (own_library s /\ (ref <> [] -> model = name ++ bullet :: m) \/ ~ own_library s /\ model = m) /\
    Forall2 (fun p n => get_attr 8 p = Some (AText n)) (children "pin" s) names /\ nodes = join_blank names.
(** The component needs the library [l]. *)
Definition needs (p : part) (l : str) : Prop :=
  let '(Part ref item ports enabled value sub) := p in
  enabled = true /\ exists s, children "symbol" item = [s] /\ library s = l /\ l <> [] /\ ~ own_library s.
(** The text is a comment. *)
Definition is_comment (t : tag) : Prop := get_attr 4 t = Some (AInt 1).

(** ** The file *)
(** The sign of a directive (three bytes) in front of a text is not written; a line break is written \n in the schematic. *)
Definition mark : list ascii := map ascii_of_nat [239; 187; 191].
Definition break : str := s2l "\n".
Fixpoint joined (l : list str) : str := match l with [] => [] | [x] => x | x :: r => x ++ break ++ joined r end.
Definition text_lines_of (t : tag) (block : list str) : Prop :=
  is_comment t /\ block = [] \/
  ~ is_comment t /\ exists front pieces, get_attr 8 t = Some (AText (front ++ joined pieces)) /\ (forall c, In c front -> In c mark) /\ (forall c r, joined pieces = c :: r -> ~ In c mark) /\
    pieces <> [] /\ (forall x a b, In x pieces -> x <> a ++ break ++ b) /\ block = map strip pieces.
(** Title, components, sub-circuits, texts, libraries, end. *)
Definition file_of (path : str) (blocks : list (list str)) (defs : list (str * str * list str)) (texts : list (list str)) (libraries : list str) : list str :=
  (s2l "* " ++ path) :: concat blocks ++ flat_map definition_lines defs ++ concat texts ++ map (fun l => s2l ".lib " ++ l) libraries ++ [s2l ".end"].
Definition ref_of (p : part) : str := let '(Part ref _ _ _ _ _) := p in ref.
(** The lines of a component: its own library, if any, and a line that begins with its name, if any. *)
Definition named_lines (embed : str -> str -> list str) (p : part) (name : str) (block : list str) : Prop :=
  let '(Part ref item _ _ _ _) := p in
  (name = ref \/ exists c, name = c :: acute :: ref) /\
  exists head body, block = head ++ body /\ (body = [] \/ exists tail, body = [name ++ " "%char :: tail]) /\
    (head = [] \/ exists s, children "symbol" item = [s] /\ own_library s /\ head = embed name (library s)).
Definition with_sub (p : part) (b : sheet) : part := let '(Part ref item ports enabled value _) := p in Part ref item ports enabled value (Some b).
Definition word_char (c : ascii) : bool := Regex.is_word c.
