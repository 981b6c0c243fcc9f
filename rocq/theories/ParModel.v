(** Model of the parameters of a netlist: spicelib/editor/spice_subcircuit.py:247-300 ([_get_parameter_named],
    [get_all_parameter_names]), 572-650 ([get_parameter], [set_parameter]) and base_editor.py:39-40 ([PARAM_REGEX]).
    Simplifications: the result of get_parameter is the text of the value ([try_value], which makes a number of it, is not part of
    this model); a value given as a number is the text [format_eng] makes of it (EngModel); letter case is that of ASCII letters. *)
From Coq Require Import String Ascii List Bool Arith ZArith.
From Verif Require Import PyStr EngModel Regex SepModel PTokModel CompModel UpdatesModel NetModel EditModel.
Import ListNotations.
Local Open Scope string_scope.
Local Open Scope nat_scope.
Local Open Scope list_scope.

(** group numbers of [PARAM_REGEX] *)
Definition gNAME := 0. Definition gVALUE := 1. Definition gCB := 2. Definition gST := 3.
Definition DQ : ascii := """"%char.
(** the class [\d\.\+\-Ee] and the class [a-zA-Z%] *)
Definition num_c (c : ascii) : bool := is_digit c || mem_c c (s2l ".+-Ee").
Definition unit_c (c : ascii) : bool := alpha c || aeqb c "%".
(** base_editor.py:39-40 [PARAM_REGEX], with re.IGNORECASE; [name]: the pattern of the name *)
Definition pvalue_re : re :=
  Grp gVALUE (Seq (Opt (Grp gCB (lit "{")))
    (Cond gCB (Seq (Star true (Chr (fun c => negb (aeqb c "}")))) (lit "}"))
       (Seq (Opt (Grp gST (lit DQ)))
          (Cond gST (Seq (Star true (Chr (fun c => negb (aeqb c DQ)))) (lit DQ))
             (Seq (Plus (Chr num_c)) (Star true (Chr unit_c))))))).
Definition setting_re (name : re) : re :=
  Seq (Grp gNAME name) (Seq sp0 (Seq (Chr (fun c => aeqb c "=" || aeqb c " ")) (Seq sp0 pvalue_re))).
Definition any_name : re := word1.
(** pattern.finditer: the matches from position [p] on, where the text is [s]; no match is empty.  [fuel]: the characters left *)
Fixpoint find_all (fuel : nat) (r : re) (p : nat) (s : str) : list (nat * nat * caps) :=
  match search_from r p s with
  | None => []
  | Some (b, e, c) => (b, e, c) :: match fuel with 0 => [] | S f => find_all f r e (skipn (e - p) s) end
  end.
Definition finditer (r : re) (s : str) : list (nat * nat * caps) := find_all (length s) r 0 s.
(** re.sub(pattern, '', s): the text between the matches *)
Fixpoint cut_out (p : nat) (ms : list (nat * nat * caps)) (s : str) : str :=
  match ms with
  | [] => skipn p s
  | (b, e, _) :: r => slice s (p, b) ++ cut_out e r s
  end.
Definition sub_empty (r : re) (s : str) : str := cut_out 0 (finditer r s) s.

(** lines 274-278: the first match on a line whose name is the one sought *)
Definition match_name (line name : str) (x : nat * nat * caps) : bool :=
  match group gNAME line (snd x) with Some n => str_eqb (upper n) (upper name) | None => false end.
Definition line_match (line name : str) : option caps := option_map snd (find (match_name line name) (finditer (setting_re any_name) line)).
(** What [_get_parameter_named] finds: the line, the groups, and the netlist when the entry is replaced *)
Record hit := { h_line : str; h_caps : caps; h_prim : bool; h_put : item -> list item }.
(** lines 272-278 on one entry; None: SyntaxError of get_line_command *)
Definition own_match (name line : str) : option (option caps) :=
  match line_command line with
  | None => None
  | Some cmd => Some (if str_eqb cmd (s2l ".PARAM") then line_match line name else None)
  end.
(** spice_subcircuit.py:247-280 [_get_parameter_named]; None: an exception, Some None: not found *)
Section Named.
Variable name : str.
Fixpoint named_in (it : item) : option (option (str * caps * bool * (item -> item))) :=
  let own line prim := match own_match name line with
                       | None => None
                       | Some None => Some None
                       | Some (Some c) => Some (Some (line, c, prim, fun x => x))
                       end in
  match it with
  | ISub _ | ICtrl _ => Some None
  | IInc s c =>
      match (match c with
             | None => Some None
             | Some l =>
                 (fix go (l : list item) : option (option (str * caps * bool * (item -> list item))) :=
                    match l with
                    | [] => Some None
                    | x :: r => match named_in x with
                                | None => None
                                | Some (Some (ln, cp, b, put)) => Some (Some (ln, cp, b, fun y => put y :: r))
                                | Some None => match go r with
                                               | None => None
                                               | Some None => Some None
                                               | Some (Some (ln, cp, b, put)) => Some (Some (ln, cp, b, fun y => x :: put y))
                                               end
                                end
                    end) l
             end) with
      | None => None
      | Some (Some (ln, cp, b, put)) => Some (Some (ln, cp, b, fun y => IInc s (Some (put y))))
      | Some None => option_map (fun _ => None) (line_command s)
      end
  | IText s => own s false
  | IPrim s | IComp s _ | IInst s _ _ => own s true
  end.
Fixpoint named (l : list item) : option (option hit) :=
  match l with
  | [] => Some None
  | x :: r => match named_in x with
              | None => None
              | Some (Some (ln, cp, b, put)) => Some (Some {| h_line := ln; h_caps := cp; h_prim := b; h_put := fun y => put y :: r |})
              | Some None => match named r with
                             | None => None
                             | Some None => Some None
                             | Some (Some h) => Some (Some {| h_line := h_line h; h_caps := h_caps h; h_prim := h_prim h; h_put := fun y => x :: h_put h y |})
                             end
              end
  end.
End Named.

(** spice_subcircuit.py:572-587 [get_parameter]; None: an exception (not found, or SyntaxError) *)
Definition get_parameter (name : str) (l : list item) : option str :=
  match named name l with Some (Some h) => group gVALUE (h_line h) (h_caps h) | _ => None end.

(** sorted() of texts: by character codes *)
Fixpoint str_le (a b : str) : bool :=
  match a, b with
  | [], _ => true
  | _ :: _, [] => false
  | x :: a', y :: b' => if code x <? code y then true else if code y <? code x then false else str_le a' b'
  end.
Fixpoint insert_sorted (x : str) (l : list str) : list str :=
  match l with [] => [x] | y :: r => if str_le x y then x :: l else y :: insert_sorted x r end.
Fixpoint sort_texts (l : list str) : list str := match l with [] => [] | x :: r => insert_sorted x (sort_texts r) end.
(** lines 290-297: the names on a line *)
Definition line_names (line : str) : list str :=
  map (fun x => match group gNAME line (snd x) with Some n => upper n | None => [] end) (finditer (setting_re any_name) line).
(** spice_subcircuit.py:282-300 [get_all_parameter_names]; None: an exception.  The names of an include file come sorted. *)
Fixpoint names_in (it : item) : option (list str) :=
  let own line := option_map (fun cmd => if str_eqb cmd (s2l ".PARAM") then line_names line else []) (line_command line) in
  match it with
  | ISub _ | ICtrl _ => Some []
  | IInc s c =>
      match (match c with
             | None => Some []
             | Some l => option_map sort_texts
                 ((fix go (l : list item) : option (list str) :=
                    match l with
                    | [] => Some []
                    | x :: r => match names_in x, go r with Some a, Some b => Some (a ++ b) | _, _ => None end
                    end) l)
             end) with
      | None => None
      | Some a => option_map (fun _ => a) (line_command s)
      end
  | IText s | IPrim s | IComp s _ | IInst s _ _ => own s
  end.
Fixpoint all_names (l : list item) : option (list str) :=
  match l with
  | [] => Some []
  | x :: r => match names_in x, all_names r with Some a, Some b => Some (a ++ b) | _, _ => None end
  end.
Definition get_all_parameter_names (l : list item) : option (list str) := option_map sort_texts (all_names l).

Definition removed_line : str := s2l "* SpiceEditor removed empty .PARAM line".
(** one call of end_update whose value may be None *)
Definition note_par (ed : editor) (l : list item) (name : str) (v : uval) (t : utype) : editor :=
  {| n_items := l;
     n_log := match n_perm ed with Inform => log1 (n_log ed) {| g_name := name; g_value := v; g_type := t |} | _ => n_log ed end;
     n_perm := n_perm ed |}.
(** spice_subcircuit.py:589-650 [set_parameter]; [value] None is Python's None; the name is made of word characters, so that it is
    its own pattern; None: an exception *)
Definition set_parameter (name : str) (value : option str) (ed : editor) : option editor :=
  match n_perm ed with
  | Deny => None
  | _ =>
      match named name (n_items ed) with
      | None => None
      | Some (Some h) =>
          match value with
          | None =>
              let line' := sub_empty (setting_re (ilit name)) (h_line h) in
              let it := match finditer (setting_re any_name) line' with [] => IText (removed_line ++ NLs) | _ => IPrim line' end in
              Some (note_par ed (if h_prim h then h_put h it else n_items ed) name VNone UpDeleteParameter)
          | Some v =>
              match cap gVALUE (h_caps h) with
              | None => None
              | Some (b, e) =>
                  match insert_section (h_line h) (Z.of_nat b) (Z.of_nat e) v with
                  | None => None
                  | Some l => Some (note_par ed (if h_prim h then h_put h (IPrim (l ++ NLs)) else n_items ed) name (txt v) UpUpdateParameter)
                  end
              end
          end
      | Some None =>
          let v := match value with Some v => v | None => s2l "None" end in
          Some (note_par ed (insert_item (n_items ed) (length (n_items ed) - 2) (IPrim (s2l ".PARAM " ++ name ++ s2l "=" ++ v ++ s2l "  ; Batch instruction" ++ NLs)))
                  name (match value with Some v => txt v | None => VNone end) UpAddParameter)
      end
  end.
