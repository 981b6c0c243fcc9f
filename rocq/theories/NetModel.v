(** Model of netlists: spicelib/editor/spice_subcircuit.py (get_line_command, SpiceCircuit, ControlEditor, IncludeFile),
    spice_file.py (SpiceFile), spice_editor.py (SpiceEditor) and spice_subcircuit_instance.py (SpiceCircuitInstance).
    A netlist is a list of items.  The statements are those [separate_lines] gives (SepModel).
    Simplifications:
    - the attributes of a component are parsed lazily and cached by the code; here an item holds its line and, only when it
      was edited, its attributes, since a cached parse is the parse of the line;
    - reading the value of a component of an instance makes an unmodified copy of the definition; it is made here by the first edit;
    - include files and libraries come from an environment: the items of an include file, and the definition a library search finds;
    - characters above 255 are not represented. *)
From Coq Require Import String Ascii List Bool Arith ZArith.
From Verif Require Import PyStr EngModel Regex SepModel PTokModel CompModel UpdatesModel.
Import ListNotations.
Local Open Scope string_scope.
Local Open Scope nat_scope.
Local Open Scope list_scope.

Definition NLs : str := ["010"%char].

(** What the entries of [SpiceCircuit.netlist] are: plain text (comments), Primitive, ControlEditor, IncludeFile (with the
    netlist of its editor), SpiceComponent, SpiceCircuitInstance (with shadow_subcircuit and its _modified mark), SpiceCircuit. *)
Inductive item :=
| IText (s : str)
| IPrim (s : str)
| ICtrl (s : str)
| IInc (s : str) (content : option (list item))
| IComp (obj : str) (e : option attrs)
| IInst (obj : str) (e : option attrs) (shadow : option (bool * list item))
| ISub (l : list item).

(** str.upper on one Latin-1 character, for the characters whose upper case is a single Latin-1 character *)
Definition upper1 (c : ascii) : ascii :=
  let n := code c in if (224 <=? n) && (n <=? 254) && negb (n =? 247) then ascii_of_nat (n - 32) else upper_c c.
Definition is_blank (c : ascii) : bool := aeqb c " " || aeqb c "009".
Definition word_end (c : ascii) : bool := is_blank c || is_nl c.
Fixpoint take_word (s : str) : str :=
  match s with [] => [] | c :: r => if word_end c then [] else c :: take_word r end.
Definition valid_prefix (c : ascii) : bool := match regex_of c with Some _ => true | None => false end.
(** spice_subcircuit.py:40-78 [get_line_command] on a text; None: SyntaxError *)
Fixpoint line_command (s : str) : option str :=
  match s with
  | [] => None
  | c :: r =>
      if is_blank c then line_command r
      else let u := upper1 c in
           if valid_prefix u then Some [u]
           else if aeqb c "+" then Some (s2l "+")
           else if mem_c c (s2l "#;*") || is_nl c then Some (s2l "*")
           else if aeqb c "." then Some (upper (take_word s))
           else None
  end.

(** spice_subcircuit.py:199-201: appending a "+" line to the last entry; None: TypeError or AssertionError *)
Definition append_to (line : str) (acc : list item) : option (list item) :=
  match acc with
  | [] => None
  | IText s :: r => Some (IText (s ++ line) :: r)
  | IPrim s :: r => Some (IPrim (s ++ line) :: r)
  | ICtrl s :: r => Some (ICtrl (s ++ line) :: r)
  | IInc s c :: r => Some (IInc (s ++ line) c :: r)
  | IComp s e :: r => Some (IComp (s ++ line) e :: r)
  | IInst s e h :: r => Some (IInst (s ++ line) e h :: r)
  | ISub _ :: _ => None
  end.

Definition outermost (acc : list item) (stk : list (list item)) : list item := last stk acc.
(** spice_subcircuit.py:170-220 [_add_lines] and 1051-1060 [ControlEditor._add_lines].  The recursive calls on sub-circuits are a
    stack: [acc] is the netlist under construction (last entry first), [stk] those of the enclosing circuits, [ctl] the text of the
    control section being read.  Result: finished, netlist of the outermost circuit, lines not consumed; None: an exception. *)
Fixpoint add_lines (inc : str -> option (list item)) (acc : list item) (stk : list (list item)) (ctl : option str) (lines : list str)
  : option (bool * list item * list str) :=
  match lines with
  | [] => Some (false, rev (outermost acc stk), [])
  | l :: rest =>
      match ctl with
      | Some obj =>
          let obj' := obj ++ rstrip l ++ NLs in
          if startswith (s2l ".ENDC") (upper (strip l)) then add_lines inc (ICtrl obj' :: acc) stk None rest
          else add_lines inc acc stk (Some obj') rest
      | None =>
          match line_command l with
          | None => None
          | Some cmd =>
              if str_eqb cmd (s2l ".SUBCKT") then add_lines inc [IPrim l] (acc :: stk) None rest
              else if str_eqb cmd (s2l ".CONTROL") then add_lines inc acc stk (Some (rstrip l ++ NLs)) rest
              else if startswith (s2l ".INC") cmd then add_lines inc (IInc l (inc l) :: acc) stk None rest
              else if str_eqb cmd (s2l "+") then
                match append_to l acc with Some acc' => add_lines inc acc' stk None rest | None => None end
              else if str_eqb cmd (s2l "X") then add_lines inc (IInst l None None :: acc) stk None rest
              else if (match cmd with [c] => valid_prefix c | _ => false end) then add_lines inc (IComp l None :: acc) stk None rest
              else if str_eqb cmd (s2l "*") then add_lines inc (IText l :: acc) stk None rest
              else if startswith (s2l ".END") cmd then
                match stk with
                | [] => Some (true, rev (IPrim l :: acc), rest)
                | acc' :: stk' => add_lines inc (ISub (rev (IPrim l :: acc)) :: acc') stk' None rest
                end
              else add_lines inc (IPrim l :: acc) stk None rest
          end
      end
  end.
(** spice_file.py:184-192: after the end only comments are kept; None: SyntaxError of get_line_command *)
Fixpoint after_end (lines : list str) : option (list item) :=
  match lines with
  | [] => Some []
  | l :: r =>
      match line_command l, after_end r with
      | Some cmd, Some k => Some (if str_eqb cmd (s2l "*") then IText l :: k else k)
      | _, _ => None
      end
  end.
(** spice_file.py:161-197 and spice_editor.py:84-132 [reset_netlist]: a netlist without .END is a SyntaxError unless it is an include file.
    [separate_lines] is a generator, but every line is consumed in the end. *)
Definition load_lines (inc : str -> option (list item)) (include_file : bool) (lines : list str) : option (list item) :=
  match add_lines inc [] [] None lines with
  | Some (finished, l, rest) =>
      match after_end rest with
      | Some k => if finished || include_file then Some (l ++ k) else None
      | None => None
      end
  | None => None
  end.
Definition load_text (inc : str -> option (list item)) (include_file : bool) (text : str) : option (list item) :=
  match separate_lines text with Some lines => load_lines inc include_file lines | None => None end.

(** The attributes a component has now (primitives.py:101-111): those set, or those of its line; None: an exception *)
Definition attrs_now (obj : str) (e : option attrs) : option attrs := match e with Some a => Some a | None => parse_line obj end.
(** spice_components.py:389-397 [write_lines] of a component with a line *)
Definition write_comp (obj : str) (e : option attrs) : option str :=
  match attrs_now obj e with Some a => rewrite obj a | None => None end.

Fixpoint concat_opt (l : list (option str)) : option str :=
  match l with
  | [] => Some []
  | None :: _ => None
  | Some s :: r => match concat_opt r with Some t => Some (s ++ t) | None => None end
  end.
(** spice_subcircuit.py:237-243: a directive is written without outer blanks; .END, .ENDS, .ENDC after the modified sub-circuits *)
Definition write_prim (s : str) (mods : option str) : option str :=
  if startswith (s2l ".END") (upper s) then option_map (fun m => m ++ strip s ++ NLs) mods else Some (strip s ++ NLs).
(** spice_subcircuit.py:222-245 [write_lines], 1018-1031 [modified_subcircuits]; [x] is the text written in place of the item and that
    of its modified copy, if any *)
Definition assemble (l : list (item * (option str * option str))) : option str :=
  concat_opt (map (fun x => match fst x with IPrim s => write_prim s (concat_opt (map (fun y => snd (snd y)) l)) | _ => fst (snd x) end) l).
Fixpoint texts (it : item) : option str * option str :=
  match it with
  | IText s => (Some s, Some [])
  | IPrim s => (Some (strip s ++ NLs), Some [])
  | ICtrl s => (Some s, Some [])
  | IInc s None => (None, Some [])                                        (* RuntimeError, lines 229-232 *)
  | IInc s (Some l) => (assemble (map (fun i => (i, texts i)) l), Some [])
  | IComp o e => (write_comp o e, Some [])
  | IInst o e h => (write_comp o e,
                    match h with Some (true, l) => assemble (map (fun i => (i, texts i)) l) | _ => Some [] end)
  | ISub l => (assemble (map (fun i => (i, texts i)) l), Some [])
  end.
Definition write_items (l : list item) : option str := assemble (map (fun i => (i, texts i)) l).

(** spice_utils.py:57 [subckt_regex] *)
Definition subckt_re : re := seqs [Chr not_nl; ilit (s2l "SUBCKT"); sp1; Grp 0 (Plus (Chr (fun c => is_word c || aeqb c ".")))].
(** the text [name] and [setname] look at (lines 401-405); None: TypeError, the entry is a SpiceCircuit *)
Definition obj_of (it : item) : option str :=
  match it with
  | IText s | IPrim s | ICtrl s | IInc s _ | IComp s _ | IInst s _ _ => Some s
  | ISub _ => None
  end.
(** spice_subcircuit.py:390-407 [name]; [fname] is the name of the netlist file *)
Fixpoint name_of (fname : str) (l : list item) : option str :=
  match l with
  | [] => Some fname
  | it :: r =>
      match obj_of it with
      | None => None
      | Some s => match re_match subckt_re s with
                  | Some (_, c) => match group 0 s c with Some n => Some n | None => None end
                  | None => name_of fname r
                  end
      end
  end.
(** spice_subcircuit.py:408-450 [setname] of a non-empty netlist: both loops; None: an exception *)
Fixpoint set_ends (name : str) (l : list item) : option (list item) :=
  match l with
  | [] => None
  | it :: r =>
      let next := option_map (cons it) (set_ends name r) in
      let prim s mk := match line_command s with
                       | None => None
                       | Some cmd => if str_eqb cmd (s2l ".ENDS") then Some (mk (s2l ".ENDS " ++ name ++ NLs) :: r) else next
                       end in
      match it with
      | IPrim s => prim s IPrim
      | ICtrl s => prim s ICtrl
      | IInc s c => prim s (fun t => IInc t c)
      | IComp s e => prim s (fun t => IComp t e)
      | IInst s e h => prim s (fun t => IInst t e h)
      | IText _ | ISub _ => next
      end
  end.
Fixpoint set_name (name : str) (l : list item) : option (list item) :=
  match l with
  | [] => None
  | it :: r =>
      match obj_of it with
      | None => None
      | Some s =>
          match re_match subckt_re s with
          | Some (_, c) =>
              match cap 0 c with
              | Some (a, b) =>
                  match insert_section s (Z.of_nat a) (Z.of_nat b) name with
                  | Some s' => set_ends name (IText (s' ++ NLs) :: r)
                  | None => None
                  end
              | None => None
              end
          | None => option_map (cons it) (set_name name r)
          end
      end
  end.
(** spice_subcircuit.py:363-388 [clone], primitives.py:311-318 [Component.clone] (a copy of an instance has no copy of its own) *)
Definition mark1 : str := s2l "***** SpiceEditor Manipulated this sub-circuit ****" ++ NLs.
Definition mark2 : str := s2l "***** ENDS SpiceEditor ****" ++ NLs.
Fixpoint clone_item (it : item) : item :=
  match it with
  | IText s => IText s
  | IPrim s | ICtrl s | IInc s _ => IPrim s
  | IComp o e => IComp o e
  | IInst o e _ => IInst o e None
  | ISub l => ISub (IText mark1 :: map clone_item l ++ [IText mark2])
  end.
Definition clone (l : list item) (name : str) : option (list item) :=
  set_name name (IText mark1 :: map clone_item l ++ [IText mark2]).

(** The environment: file name, include files, definitions found in libraries (spice_subcircuit.py:944-1016). *)
Record env := { e_name : str; e_inc : str -> option (list item); e_lib : str -> option (list item) }.
(** spice_subcircuit.py:316-338 [get_subcircuit_named]: the lists of the circuit and of those that enclose it; None: an exception,
    Some None: not found *)
Fixpoint def_in (fname : str) (name : str) (it : item) : option (option (list item)) :=
  match it with
  | ISub l => match name_of fname l with
              | None => None
              | Some n => Some (if str_eqb n name then Some l else None)
              end
  | IInc _ (Some l) =>
      (fix go (l : list item) : option (option (list item)) :=
         match l with
         | [] => Some None
         | i :: r => match def_in fname name i with Some None => go r | x => x end
         end) l
  | _ => Some None
  end.
Fixpoint def_among (fname name : str) (l : list item) : option (option (list item)) :=
  match l with
  | [] => Some None
  | i :: r => match def_in fname name i with Some None => def_among fname name r | x => x end
  end.
Fixpoint def_named (en : env) (name : str) (chain : list (list item)) : option (option (list item)) :=
  match chain with
  | [] => Some (e_lib en name)
  | l :: r => match def_among (e_name en) name l with Some None => def_named en name r | x => x end
  end.

(** base_subcircuit.py:46-62, updates.py: permissions and the log *)
Inductive permission := Deny | Initializing | Inform.
Record logged := { g_name : str; g_value : uval; g_type : utype }.
Definition log1 (log : list update) (g : logged) : list update := add_update log (l2s (g_name g)) (g_value g) (g_type g).
Definition txt (s : str) : uval := VStr (l2s s).
Record editor := { n_items : list item; n_log : list update; n_perm : permission }.

(** spice_subcircuit.py:452-493 [get_component] without divider: the position of the entry; None: an exception *)
Inductive found := NotFound | At (i : nat).
Definition shift (f : found) : found := match f with At i => At (S i) | NotFound => NotFound end.
Fixpoint find_ref (fname ref : str) (l : list item) : option found :=
  let test r name := match name with
                     | None => None
                     | Some n => if str_eqb (upper n) ref then Some (At 0) else option_map shift (find_ref fname ref r)
                     end in
  match l with
  | [] => Some NotFound
  | it :: r =>
      match it with
      | ISub b => test r (name_of fname b)
      | IComp o e | IInst o e _ => test r (option_map a_ref (attrs_now o e))
      | _ => option_map shift (find_ref fname ref r)
      end
  end.
(** [str.split(':', 1)] repeatedly: the parts of a hierarchical reference (lines 464-475) *)
Fixpoint split_ref (s : str) : list str :=
  match s with
  | [] => [[]]
  | c :: r => if aeqb c ":" then [] :: split_ref r
              else match split_ref r with h :: t => (c :: h) :: t | [] => [[c]] end
  end.

(** An operation on the circuit that holds a component: new netlist and the calls of end_update it made; None: an exception *)
Definition op := list (list item) -> list item -> option (list item * list logged).
Definition set_item (l : list item) (i : nat) (x : item) : list item := firstn i l ++ x :: skipn (S i) l.
(** spice_components.py:431-438 [set_value]; spice_subcircuit_instance.py:69-73 for an instance; lines 632-665 [set_component_value] *)
Definition with_val (a : attrs) (v : str) : attrs := {| a_ref := a_ref a; a_ports := a_ports a; a_val := Some v; a_par := a_par a |}.
Definition op_value (fname ref v : str) : op := fun _ l =>
  match find_ref fname ref l with
  | Some (At i) =>
      match nth_error l i with
      | Some (IComp o e) =>
          match attrs_now o e with
          | Some a => Some (set_item l i (IComp o (Some (with_val a v))), [{| g_name := a_ref a; g_value := txt v; g_type := UpUpdateComponentValue |}])
          | None => None
          end
      | Some (IInst o e _) =>
          match attrs_now o e with
          | Some a => Some (set_item l i (IInst o (Some (with_val a v)) None), [{| g_name := a_ref a; g_value := txt v; g_type := UpUpdateComponentValue |}])
          | None => None
          end
      | _ => None
      end
  | _ => None
  end.
(** spice_components.py:445-459 [set_parameter], primitives.py:268-281 *)
Definition pdel (d : pdict) (k : str) : pdict := filter (fun kv => negb (str_eqb (fst kv) k)) d.
Definition with_par (a : attrs) (k : str) (v : option str) : attrs :=
  let d := match a_par a with Some d => d | None => [] end in
  {| a_ref := a_ref a; a_ports := a_ports a; a_val := a_val a; a_par := Some (match v with Some t => pset d k (One t) | None => pdel d k end) |}.
Definition par_type (a : attrs) (k : str) (v : option str) : utype :=
  match v with
  | None => UpDeleteComponentParameter
  | Some _ => match pget (match a_par a with Some d => d | None => [] end) k with
              | None => UpAddComponentParameter | Some _ => UpUpdateComponentParameter end
  end.
Definition oval (v : option str) : uval := match v with Some t => txt t | None => VNone end.
Definition op_param (fname ref k : str) (v : option str) : op := fun _ l =>
  let logs a := [{| g_name := a_ref a ++ ":"%char :: k; g_value := oval v; g_type := par_type a k v |}] in
  match find_ref fname ref l with
  | Some (At i) =>
      match nth_error l i with
      | Some (IComp o e) =>
          match attrs_now o e with Some a => Some (set_item l i (IComp o (Some (with_par a k v))), logs a) | None => None end
      | Some (IInst o e h) =>
          match attrs_now o e with Some a => Some (set_item l i (IInst o (Some (with_par a k v)) h), logs a) | None => None end
      | _ => None
      end
  | _ => None
  end.

(** spice_subcircuit_instance.py:51-66 [subcircuit]: the name under which the definition is looked up is the *value*, which is a number
    when the text reads as one (primitives.py:232-240), and then never found *)
Definition lookup_def (en : env) (chain : list (list item)) (value : str) : option (list item) :=
  match scan_eng value with
  | Some _ => None
  | None => match def_named en value chain with Some (Some d) => Some d | _ => None end
  end.
Definition shadow_of (en : env) (chain : list (list item)) (a : attrs) (h : option (bool * list item)) : option (bool * list item) :=
  match h with
  | Some mb => Some mb
  | None =>
      match a_val a with
      | None => None
      | Some v => match lookup_def en chain v with
                  | Some d => match clone d (v ++ "_"%char :: a_ref a) with Some b => Some (false, b) | None => None end
                  | None => None
                  end
      end
  end.
Definition prefixed (ref : str) (g : logged) : logged := {| g_name := ref ++ ":"%char :: g_name g; g_value := g_value g; g_type := g_type g |}.
(** A hierarchical edit (lines 464-475; spice_subcircuit_instance.py:83-101 [begin_update], [end_update]): the copy of the definition is
    edited; the first time the instance is renamed.  [chain]: the enclosing circuits, innermost first.  [pm]: the permission. *)
Fixpoint edit_path (en : env) (pm : permission) (path : list str) (f : op) (chain : list (list item)) (l : list item)
  : option (list item * list logged) :=
  match path with
  | [] => f chain l
  | x :: p =>
      match x with
      | c :: _ =>
          if negb (aeqb c "X") then None
          else
            match find_ref (e_name en) x l with
            | Some (At i) =>
                match nth_error l i with
                | Some (ISub b) =>
                    match edit_path en pm p f (l :: chain) b with
                    | Some (b', logs) => Some (set_item l i (ISub b'), logs)
                    | None => None
                    end
                | Some (IInst o e h) =>
                    match attrs_now o e with
                    | None => None
                    | Some a =>
                        match shadow_of en (l :: chain) a h with
                        | None => None
                        | Some (m, b) =>
                            match edit_path en pm p f (l :: chain) b with
                            | None => None
                            | Some (b', logs) =>
                                match pm with
                                | Inform =>
                                    if m then Some (set_item l i (IInst o e (Some (true, b'))), map (prefixed (a_ref a)) logs)
                                    else match name_of (e_name en) b with
                                         | None => None
                                         | Some n =>
                                             let old := match a_val a with Some v => v | None => [] end in
                                             Some (set_item l i (IInst o (Some (with_val a n)) (Some (true, b'))),
                                                   {| g_name := s2l "CLONE(" ++ old ++ s2l ")"; g_value := txt old; g_type := UpCloneSubcircuit |}
                                                   :: {| g_name := a_ref a; g_value := txt n; g_type := UpUpdateComponentValue |}
                                                   :: map (prefixed (a_ref a)) logs)
                                         end
                                | _ => Some (set_item l i (IInst o e (Some (m, b'))), [])
                                end
                            end
                        end
                    end
                | _ => None
                end
            | _ => None
            end
      | [] => None
      end
  end.
(** An edit through the editor: denied edits raise; others are logged when the permission is Inform. *)
Definition run_edit (en : env) (ed : editor) (path : list str) (f : op) : option editor :=
  match n_perm ed with
  | Deny => None
  | pm => match edit_path en pm path f [] (n_items ed) with
          | Some (l, logs) =>
              Some {| n_items := l; n_log := match pm with Inform => fold_left log1 logs (n_log ed) | _ => n_log ed end; n_perm := n_perm ed |}
          | None => None
          end
  end.
(** the reference as given: in upper case, the parts before the last are the path *)
Definition ref_path (reference : str) : list str := removelast (split_ref (upper reference)).
Definition ref_last (reference : str) : str := last (split_ref (upper reference)) [].
(** spice_subcircuit.py:632-665 *)
Definition set_component_value (en : env) (reference v : str) (ed : editor) : option editor :=
  run_edit en ed (ref_path reference) (op_value (e_name en) (ref_last reference) v).
(** spice_subcircuit.py:570-574, one keyword *)
Definition set_component_parameter (en : env) (reference k : str) (v : option str) (ed : editor) : option editor :=
  run_edit en ed (ref_path reference) (op_param (e_name en) (ref_last reference) k v).

(** Reading: the entry a reference denotes (the copies of definitions are not kept, see above) *)
Fixpoint get_path (en : env) (path : list str) (ref : str) (chain : list (list item)) (l : list item) : option item :=
  match path with
  | [] => match find_ref (e_name en) ref l with Some (At i) => nth_error l i | _ => None end
  | x :: p =>
      match x with
      | c :: _ =>
          if negb (aeqb c "X") then None
          else match find_ref (e_name en) x l with
               | Some (At i) =>
                   match nth_error l i with
                   | Some (ISub b) => get_path en p ref (l :: chain) b
                   | Some (IInst o e h) =>
                       match attrs_now o e with
                       | None => None
                       | Some a => match shadow_of en (l :: chain) a h with
                                   | None => None
                                   | Some (_, b) => get_path en p ref (l :: chain) b
                                   end
                       end
                   | _ => None
                   end
               | _ => None
               end
      | [] => None
      end
  end.
Definition get_component (en : env) (reference : str) (l : list item) : option item := get_path en (ref_path reference) (ref_last reference) [] l.
Definition comp_attrs (it : item) : option attrs :=
  match it with IComp o e | IInst o e _ => attrs_now o e | _ => None end.
(** spice_subcircuit.py:711-718 [get_component_value]; None: an exception *)
Definition get_component_value (en : env) (reference : str) (l : list item) : option str :=
  match get_component en reference l with
  | Some it => match comp_attrs it with Some a => a_val a | None => None end
  | None => None
  end.
(** spice_subcircuit.py:709-721 *)
Definition get_component_nodes (en : env) (reference : str) (l : list item) : option (list str) :=
  match get_component en reference l with Some it => option_map a_ports (comp_attrs it) | None => None end.
(** spice_subcircuit.py:734-760 [get_components]; [prefixes] already expanded *)
Fixpoint get_components (prefixes : ascii -> bool) (l : list item) : option (list str) :=
  match l with
  | [] => Some []
  | it :: r =>
      match it with
      | IComp o e | IInst o e _ =>
          match attrs_now o e with
          | None => None
          | Some a => option_map (fun k => if (match a_ref a with c :: _ => prefixes c | [] => false end) then a_ref a :: k else k)
                                 (get_components prefixes r)
          end
      | _ => get_components prefixes r
      end
  end.
