(** Model of the parameters of a component in a QSPICE schematic: spicelib/editor/qsch_editor.py:417-528 ([QschComponent.get_parameters],
    [set_parameter], [set_parameters]), 353-375 ([QschTag.get_xy_for_new_text]), 1051-1066 ([QschEditor.get_all_parameter_names]), and
    1167-1187, which pass on to them.
    The component is its symbol tag.  A tag object is a number; the store tells its tokens and children, so a tag that was removed from
    the symbol can still be changed.  None: an exception.  Simplifications: as in QEdModel; a value is given as text (a number is the
    text format_eng makes of it); the keys of keyword arguments are texts, so the branch for numbers (463-476) cannot be reached. *)
From Coq Require Import String Ascii List Bool Arith ZArith.
From Verif Require Import PyStr EngModel StepsModel Regex UpdatesModel ParModel QTagModel QEdModel.
Import ListNotations.
Local Open Scope string_scope. Local Open Scope nat_scope. Local Open Scope list_scope.

Record sym := Sym {
  y_toks : list str; y_store : nat -> tag; y_items : list nat; y_next : nat;
  y_ref : str;                  (* self.reference *)
  y_log : list update;          (* parent.netlist_updates *)
  y_canvas : bool;              (* parent.canvas_updated *)
  y_perm : perm }.
Definition sym_tag (y : sym) : tag := Tag (y_toks y) (map (y_store y) (y_items y)).
(** A symbol as it is after reading the file. *)
Definition open_sym (ref : str) (t : tag) : sym :=
  Sym (toks t) (fun i => nth i (kids t) (Tag [] [])) (seq 0 (length (kids t))) (length (kids t)) ref [] false Inform.
Definition text_ids (y : sym) : list nat := filter (fun i => head_is TEXT (y_store y i)) (y_items y).

(** The dictionary of [get_parameters]: names and numbers as keys; an existing key keeps its place. *)
Inductive pkey := PName (s : str) | PNum (n : nat).
Definition pkey_eqb (a b : pkey) : bool :=
  match a, b with PName s, PName t => str_eqb s t | PNum m, PNum n => m =? n | _, _ => false end.
Fixpoint pset (k : pkey) (v : str) (d : list (pkey * str)) : list (pkey * str) :=
  match d with [] => [(k, v)] | (k', x) :: r => if pkey_eqb k' k then (k', v) :: r else (k', x) :: pset k v r end.
Definition pget (k : pkey) (d : list (pkey * str)) : option str := option_map snd (find (fun e => pkey_eqb (fst e) k) d).

Definition any_setting : re := setting_re any_name.
(** qsch_editor.py:432-434: the settings of one line. *)
Fixpoint put_matches (s : str) (ms : list (nat * nat * caps)) (d : list (pkey * str)) : option (list (pkey * str)) :=
  match ms with
  | [] => Some d
  | (_, _, c) :: r =>
      match group gNAME s c, group gVALUE s c with
      | Some n, Some v => put_matches s r (pset (PName n) v d)
      | _, _ => None
      end
  end.
(** qsch_editor.py:430-436; the "else" of the inner loop is always taken. *)
Fixpoint get_lines (i : nat) (l : list tag) (d : list (pkey * str)) : option (list (pkey * str)) :=
  match l with
  | [] => Some d
  | t :: r =>
      match text_of t with
      | None => None
      | Some s => match put_matches s (finditer any_setting s) d with None => None | Some d' => get_lines (S i) r (pset (PNum i) s d') end
      end
  end.
(** qsch_editor.py:417-438 [get_parameters] *)
Definition get_parameters (y : sym) : option (list (pkey * str)) :=
  get_lines 2 (skipn 2 (map (y_store y) (text_ids y))) [].

(** qsch_editor.py:482-483: the first setting of the name in the line. *)
Definition line_hit (key s : str) : option (nat * nat * caps) :=
  find (fun x => match group gNAME s (snd x) with Some n => str_eqb n key | None => false end) (finditer any_setting s).
(** qsch_editor.py:479-507: looking through the texts taken at the start; None: an exception. *)
Fixpoint find_setting (store : nat -> tag) (key : str) (ids : list nat) : option (option (nat * str * (nat * nat * caps))) :=
  match ids with
  | [] => Some None
  | i :: r =>
      match text_of (store i) with
      | None => None
      | Some s => match line_hit key s with Some x => Some (Some (i, s, x)) | None => find_setting store key r end
      end
  end.
(** qsch_editor.py:353-375 [get_xy_for_new_text]; None: an exception. *)
Fixpoint positions (l : list tag) : option (list (Z * Z)) :=
  match l with
  | [] => Some []
  | t :: r => if head_is TEXT t
              then match pair_of (get_attr 1 t), positions r with Some p, Some q => Some (p :: q) | _, _ => None end
              else positions r
  end.
Definition xy_for_new (l : list tag) : option (Z * Z) :=
  match positions l with
  | None => None
  | Some [] => Some (0, 0)%Z
  | Some ((x, y) :: r) => Some (fold_left Z.min (map fst r) x, fold_left Z.max (map snd r) y + 150)%Z
  end.
(** qsch_editor.py:510-512: the tag that is parsed for a new parameter. *)
Definition new_param_text (x y : Z) (s : str) : str :=
  LT :: s2l "text (" ++ show_int x ++ s2l "," ++ show_int y ++ s2l ") 0.5 0 0 0x1000000 -1 -1 " ++ DQ :: s ++ [DQ; GT].
(** qsch_editor.py:514-520: where it goes; [last]: last_text so far. *)
Fixpoint place (store : nat -> tag) (i last : nat) (l : list nat) : nat :=
  match l with
  | [] => last
  | x :: r => if head_is (s2l "pin") (store x) then i
              else if head_is TEXT (store x) then place store (S i) (S i) r else place store (S i) last r
  end.
(** qsch_editor.py:521-524 *)
Definition insert_at (n x : nat) (l : list nat) : list nat := if n <? length l then firstn n l ++ x :: skipn n l else l ++ [x].

Definition with_y (y : sym) (store : nat -> tag) (items : list nat) (next : nat) : sym :=
  Sym (y_toks y) store items next (y_ref y) (y_log y) (y_canvas y) (y_perm y).
Definition put_y (y : sym) (i : nat) (t : tag) : sym := with_y y (fun j => if j =? i then t else y_store y j) (y_items y) (y_next y).
(** base_schematic.py:418-421 [end_update] *)
Definition note (y : sym) (key : str) (v : uval) (ty : utype) : sym :=
  Sym (y_toks y) (y_store y) (y_items y) (y_next y) (y_ref y)
    (add_update (y_log y) (l2s (y_ref y ++ s2l ":" ++ key)) v ty) true (y_perm y).
(** symbol.items.remove(text): None: ValueError, the tag is no longer there. *)
Fixpoint drop_id (i : nat) (l : list nat) : option (list nat) :=
  match l with [] => None | x :: r => if x =? i then Some r else option_map (cons x) (drop_id i r) end.

(** qsch_editor.py:477-528: one keyword argument; [ids]: the texts from the value on, taken at the start. *)
Definition set_one (ids : list nat) (key : str) (value : option str) (y : sym) : option sym :=
  match find_setting (y_store y) key ids with
  | None => None
  | Some (Some (i, s, (b, e, c))) =>
      match value with
      | None =>
          if e - b =? length s
          then option_map (fun l => note (with_y y (y_store y) l (y_next y)) key VNone UpDeleteComponentParameter) (drop_id i (y_items y))
          else option_map (fun t => note (put_y y i t) key VNone UpDeleteComponentParameter)
                 (set_attr 8 (AText (firstn b s ++ skipn e s)) (y_store y i))
      | Some v =>
          match cap gVALUE c with
          | None => None
          | Some (vb, ve) =>
              option_map (fun t => note (put_y y i t) key (VStr (l2s v)) UpUpdateComponentParameter)
                (set_attr 8 (AText (firstn vb s ++ v ++ skipn ve s)) (y_store y i))
          end
      end
  | Some None =>
      match value with
      | None => Some y
      | Some v =>
          match xy_for_new (map (y_store y) (y_items y)) with
          | None => None
          | Some (px, py) =>
              match parse (new_param_text px py (key ++ s2l "=" ++ v)) with
              | None => None
              | Some (t, _) =>
                  let n := y_next y in
                  let y' := with_y y (fun j => if j =? n then t else y_store y j)
                              (insert_at (place (y_store y) 0 0 (y_items y)) n (y_items y)) (S n) in
                  Some (note y' key (VStr (l2s v)) UpAddComponentParameter)
              end
          end
      end
  end.
Fixpoint set_each (ids : list nat) (kw : list (str * option str)) (y : sym) : option sym :=
  match kw with
  | [] => Some y
  | (k, v) :: r => match set_one ids k v y with None => None | Some y' => set_each ids r y' end
  end.
(** qsch_editor.py:443-528 [set_parameters] *)
Definition set_parameters (kw : list (str * option str)) (y : sym) : option sym :=
  match y_perm y with
  | Deny => None
  | Inform => set_each (skipn 1 (text_ids y)) kw y
  end.
(** qsch_editor.py:440-441 [set_parameter] *)
Definition set_parameter (k : str) (v : option str) (y : sym) : option sym := set_parameters [(k, v)] y.
Fixpoint set_calls (l : list (list (str * option str))) (y : sym) : option sym :=
  match l with [] => Some y | kw :: r => match set_parameters kw y with None => None | Some y' => set_calls r y' end end.

(** qsch_editor.py:1051-1066 [get_all_parameter_names] of the schematic: the names set in the directives, in upper case, sorted;
    None: an exception. *)
Fixpoint directive_names (store : nat -> tag) (l : list nat) : option (list str) :=
  match l with
  | [] => Some []
  | i :: r =>
      if head_is TEXT (store i)
      then match comment_of (store i) with
           | None => None
           | Some true => directive_names store r
           | Some false => match text_of (store i), directive_names store r with
                           | Some s, Some rest => Some ((if param_line s then line_names (unqual s) else []) ++ rest)
                           | _, _ => None
                           end
           end
      else directive_names store r
  end.
Definition get_all_parameter_names (ed : qed) : option (list str) := option_map sort_texts (directive_names (q_store ed) (q_items ed)).
