(** Specification for instances of sub-circuits: private copies of definitions, and what a netlist means; independent of the model. *)
From Coq Require Import String Ascii List Bool Arith.
From Verif Require Import PyStr Regex PTokSpec CompSpec CompProps UpdatesModel NetSpec EditSpec.
Import ListNotations.
Local Open Scope string_scope.
Local Open Scope nat_scope.
Local Open Scope list_scope.

(** A definition: the ".subckt name ports" line, its statements and the ".ends" line; its name, and the line with another name. *)
Record def := { f_head : str; f_body : list stmt; f_tail : str }.
Fixpoint keep (f : ascii -> bool) (s : str) : str := match s with [] => [] | c :: r => if f c then c :: keep f r else [] end.
Fixpoint skip (f : ascii -> bool) (s : str) : str := match s with [] => [] | c :: r => if f c then skip f r else s end.
Definition head_gap (h : str) : str := keep is_space (skipn 7 h).
Definition head_name (h : str) : str := keep name_char (skip is_space (skipn 7 h)).
Definition head_rest (h : str) : str := skip name_char (skip is_space (skipn 7 h)).
Definition head_renamed (h n : str) : str := firstn 7 h ++ head_gap h ++ n ++ head_rest h.
Definition named (d : def) : Prop := circuit_name (f_head d) (head_name (f_head d)).
(** the statements of a definition that is copied: no definitions, control sections or include statements in it *)
Definition flat_stmt (s : stmt) : Prop := match s with Note _ | Directive _ | Part _ => stmt_ok good_names s | _ => False end.
Definition def_ok (d : def) : Prop :=
  named d /\ (exists b, head_gap (f_head d) = b ++ [" "%char]) /\ (exists r, head_rest (f_head d) = " "%char :: r) /\ strip (f_head d) = f_head d /\
  Forall flat_stmt (f_body d) /\ first_word (s2l ".ENDS") (f_tail d).

(** The definitions of a list of statements, those of included files too, in order; a name denotes the first one so called, or else
    that of the library. *)
Fixpoint defs_of (s : stmt) : list def :=
  match s with
  | Circuit h b t => [{| f_head := h; f_body := b; f_tail := t |}]
  | Include _ b => concat (map defs_of b)
  | _ => []
  end.
Definition defs (l : list stmt) : list def := concat (map defs_of l).
Definition def_in (l : list stmt) (v : str) : option def := find (fun d => str_eqb (head_name (f_head d)) v) (defs l).
Definition defined (lib : str -> option def) (l : list stmt) (v : str) : option def := match def_in l v with Some d => Some d | None => lib v end.

(** A netlist with private copies: an instance may own a copy (its name, its ".subckt" line, its statements). *)
Inductive node := Node (s : stmt) (own : option (str * str * list node)).
Definition top (n : node) : stmt := match n with Node s _ => s end.
Definition plain (s : stmt) : node := Node s None.
Fixpoint on_node (ref : str) (f : comp -> option (str * str * list node) -> node) (l : list node) : list node :=
  match l with
  | [] => []
  | n :: r => match n with
              | Node (Part c) o => if str_eqb (designator c) (upper ref) then f c o :: r else n :: on_node ref f r
              | _ => n :: on_node ref f r
              end
  end.
Fixpoint node_named (ref : str) (l : list node) : option (comp * option (str * str * list node)) :=
  match l with
  | [] => None
  | Node (Part c) o :: r => if str_eqb (designator c) (upper ref) then Some (c, o) else node_named ref r
  | _ :: r => node_named ref r
  end.
Definition copy_name (c : comp) : str := c_val c ++ "_"%char :: designator c.

Section Changes.
Variable D : str -> option def.                    (* what each name denotes *)
(** the statements inside an instance: those of its copy, or else of the definition *)
Definition contents (c : comp) (o : option (str * str * list node)) : option (list node) :=
  match o with Some (_, _, k) => Some k | None => option_map (fun d => map plain (f_body d)) (D (c_val c)) end.
(** the component that a path of instances and a designator denote *)
Fixpoint denoted (path : list str) (ref : str) (l : list node) : option comp :=
  match path with
  | [] => option_map fst (node_named ref l)
  | x :: p => match node_named x l with
              | Some (c, o) => if aeqb (c_kind c) "X" then match contents c o with Some k => denoted p ref k | None => None end else None
              | None => None
              end
  end.
(** An edit inside an instance: the first one gives it a copy of the definition, which from then on is edited in its place. *)
Fixpoint change (path : list str) (e : edit) (l : list node) : list node :=
  match path with
  | [] => on_node (edit_ref e) (fun c o => Node (Part (edit_comp e c)) (match e with SetValue _ _ => None | _ => o end)) l
  | x :: p => on_node x (fun c o => match o with
                                    | Some (n, h, k) => Node (Part c) (Some (n, h, change p e k))
                                    | None => match D (c_val c) with
                                              | Some d => Node (Part (with_value c (copy_name c)))
                                                               (Some (copy_name c, head_renamed (f_head d) (copy_name c), change p e (map plain (f_body d))))
                                              | None => Node (Part c) None
                                              end
                                    end) l
  end.
(** What is recorded for an edit: the full designator (and the name of the parameter), the value, the kind of edit; before it, the
    first time, the copy and the new name of the instance. *)
Definition entry_of (e : edit) (c : comp) : str * option str * utype :=
  let has k := existsb (fun bp => str_eqb (word_text (p_name (snd bp))) k) (c_pars c) in
  match e with
  | SetValue _ v => (designator c, Some v, UpUpdateComponentValue)
  | SetParam _ k w => (designator c ++ ":"%char :: k, Some (word_text w), if has k then UpUpdateComponentParameter else UpAddComponentParameter)
  | DropParam _ k => (designator c ++ ":"%char :: k, None, UpDeleteComponentParameter)
  end.
Definition inside (c : comp) (r : str * option str * utype) : str * option str * utype :=
  match r with (n, v, t) => (designator c ++ ":"%char :: n, v, t) end.
Fixpoint records (path : list str) (e : edit) (l : list node) : list (str * option str * utype) :=
  match path with
  | [] => match node_named (edit_ref e) l with Some (c, _) => [entry_of e c] | None => [] end
  | x :: p => match node_named x l with
              | Some (c, Some (_, _, k)) => map (inside c) (records p e k)
              | Some (c, None) => match D (c_val c) with
                                  | Some d => (s2l "CLONE(" ++ c_val c ++ s2l ")", Some (c_val c), UpCloneSubcircuit)
                                              :: (designator c, Some (copy_name c), UpUpdateComponentValue)
                                              :: map (inside c) (records p e (map plain (f_body d)))
                                  | None => []
                                  end
              | None => []
              end
  end.
Fixpoint all_records (es : list (list str * edit)) (l : list node) : list (str * option str * utype) :=
  match es with [] => [] | pe :: r => records (fst pe) (snd pe) l ++ all_records r (change (fst pe) (snd pe) l) end.
Definition changes (es : list (list str * edit)) (l : list node) : list node := fold_left (fun l pe => change (fst pe) (snd pe) l) es l.

(** The path leads from the netlist [l] to the contents [k] of an instance: the names on it are instances; an instance without a copy is
    in the library's own layout and its definition can be copied; its name is not a number. *)
Definition not_number (v : str) : Prop := match v with c :: _ => ~ In c (s2l "0123456789.+-") | [] => False end.
Inductive opens : list str -> list node -> list node -> Prop :=
| O_here : forall l, opens [] l l
| O_copy : forall x p l c n h k k', ~ In ":"%char x -> no_definition_named x (map top l) -> node_named x l = Some (c, Some (n, h, k)) ->
    c_kind c = "X"%char -> opens p k k' -> opens (x :: p) l k'
| O_def : forall x p l c d k', ~ In ":"%char x -> no_definition_named x (map top l) -> node_named x l = Some (c, None) ->
    c_kind c = "X"%char -> canonical c -> not_number (c_val c) -> D (c_val c) = Some d -> def_ok d -> opens p (map plain (f_body d)) k' -> opens (x :: p) l k'.
Definition change_ok (path : list str) (e : edit) (l : list node) : Prop :=
  exists k, opens path l k /\ edit_ok e (map top k) /\ no_definition_named (edit_ref e) (map top k).
Fixpoint changes_ok (es : list (list str * edit)) (l : list node) : Prop :=
  match es with [] => True | pe :: r => change_ok (fst pe) (snd pe) l /\ changes_ok r (change (fst pe) (snd pe) l) end.
End Changes.

(** The names from the netlist to a component, in upper case; one component inside another; a component but for its value. *)
Definition prefix (a b : list str) : Prop := exists t, b = a ++ t.
Definition same_but_value (c c' : comp) : Prop := c' = with_value c (c_val c').
Definition spelled (p : list str) (r : str) : list str := map upper (p ++ [r]).

(** The reference for a path: "X1:X2:R1" *)
Fixpoint full_ref (path : list str) (ref : str) : str := match path with [] => ref | x :: p => x ++ ":"%char :: full_ref p ref end.

(** The statements that are written: the copies, between two comments, stand before the end of the circuit that holds the instance. *)
Definition mark_begin : str := s2l "***** SpiceEditor Manipulated this sub-circuit ****".
Definition mark_end : str := s2l "***** ENDS SpiceEditor ****".
Fixpoint copies (n : node) : list stmt :=
  match n with
  | Node _ (Some (nm, h, k)) => [Note mark_begin; Circuit h (map top k ++ concat (map copies k)) (s2l ".ENDS " ++ nm); Note mark_end]
  | Node _ None => []
  end.
Definition flat (d : doc) (l : list node) : list stmt :=
  map top (firstn (length (d_body d)) l) ++ concat (map copies l) ++ map top (skipn (length (d_body d)) l).
Inductive kept : stmt -> list stmt -> Prop :=
| K_stmt : forall s w, saved_stmt s w -> kept s w
| K_copy : forall h b t b', keeps b b' -> kept (Circuit h b t) [Circuit h b' t]
with keeps : list stmt -> list stmt -> Prop :=
| K_nil : keeps [] []
| K_cons : forall s w l r, kept s w -> keeps l r -> keeps (s :: l) (w ++ r).

(** What a netlist means: an instance denotes the definition of that name in the innermost enclosing circuit that has one, or else in
    the library, and that definition is read in the place where it stands.  [scopes]: the circuit and those that enclose it. *)
Fixpoint resolve (lib : str -> option def) (v : str) (scopes : list (list stmt)) : option (list stmt * list (list stmt)) :=
  match scopes with
  | [] => None
  | l :: r => match def_in l v with
              | Some d => Some (f_body d, scopes)
              | None => match r with
                        | [] => option_map (fun d => (f_body d, scopes)) (lib v)
                        | _ => resolve lib v r
                        end
              end
  end.
Fixpoint elaborated (lib : str -> option def) (path : list str) (ref : str) (scopes : list (list stmt)) : option comp :=
  match scopes with
  | [] => None
  | l :: _ =>
      match path with
      | [] => part_named ref l
      | x :: p => match part_named x l with
                  | Some c => if aeqb (c_kind c) "X" then match resolve lib (c_val c) scopes with
                                                          | Some (b, sc) => elaborated lib p ref (b :: sc)
                                                          | None => None
                                                          end
                              else None
                  | None => None
                  end
      end
  end.
(** Names that no copy takes from anything else: no definition and no instance uses the name of a possible copy, and two instances of
    one circuit have different ones. *)
Definition instances (l : list stmt) : list comp := concat (map (fun s => match s with Part c => if aeqb (c_kind c) "X" then [c] else [] | _ => [] end) l).
Definition circuits (D : str -> option def) (l : list stmt) (b : list stmt) : Prop := b = l \/ exists v d, D v = Some d /\ b = f_body d.
Definition fresh (D : str -> option def) (l : list stmt) : Prop :=
  (forall b c, circuits D l b -> In c (instances b) -> D (copy_name c) = None /\ forall b' c', circuits D l b' -> In c' (instances b') -> c_val c' <> copy_name c) /\
  forall b, circuits D l b -> NoDup (map copy_name (instances b)).
(** A library that has the definitions [lib]: each can be read, and holds no definitions. *)
Definition library_ok (lib : str -> option def) : Prop :=
  forall v d, lib v = Some d -> head_name (f_head d) = v /\ Forall flat_stmt (f_body d) /\ stmt_ok good_names (Circuit (f_head d) (f_body d) (f_tail d)).
