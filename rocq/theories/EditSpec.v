(** Specification for edits of a netlist: what each edit does to the list of its statements; independent of the model. *)
From Coq Require Import String Ascii List Bool Arith QArith.
From Verif Require Import PyStr EngModel Regex PTokModel PTokSpec CompSpec CompProps NetSpec.
Import ListNotations.
Local Open Scope string_scope.
Local Open Scope nat_scope.
Local Open Scope list_scope.

(** the statements of a document in order, the end and the comments after it included *)
Definition statements (d : doc) : list stmt := d_body d ++ Directive (d_end d) :: map Note (d_after d).

Definition designator (c : comp) : str := upper (c_kind c :: c_name c).
Definition is_part (ref : str) (s : stmt) : bool := match s with Part c => str_eqb (designator c) (upper ref) | _ => false end.
(** The statement of the component a reference denotes, in any letter case: the first one.  [f] changes it. *)
Fixpoint on_part (ref : str) (f : comp -> list stmt) (l : list stmt) : list stmt :=
  match l with
  | [] => []
  | s :: r => match s with
              | Part c => if str_eqb (designator c) (upper ref) then f c ++ r else s :: on_part ref f r
              | _ => s :: on_part ref f r
              end
  end.
Fixpoint part_named (ref : str) (l : list stmt) : option comp :=
  match l with
  | [] => None
  | Part c :: r => if str_eqb (designator c) (upper ref) then Some c else part_named ref r
  | _ :: r => part_named ref r
  end.
Definition designators (l : list stmt) : list str := concat (map (fun s => match s with Part c => [designator c] | _ => [] end) l).

(** Setting the value (CompProps.with_value) and setting or removing a parameter of a component *)
Definition par_name (bp : str * param) : str := word_text (p_name (snd bp)).
Fixpoint set_par (l : list (str * param)) (k : str) (w : word) : list (str * param) :=
  match l with
  | [] => [([" "%char], {| p_name := [Plain k]; p_b1 := []; p_b2 := []; p_value := w; p_more := [] |})]
  | bp :: r => if str_eqb (par_name bp) k
               then (fst bp, {| p_name := p_name (snd bp); p_b1 := p_b1 (snd bp); p_b2 := p_b2 (snd bp); p_value := w; p_more := [] |}) :: r
               else bp :: set_par r k w
  end.
Definition with_pars (c : comp) (p : list (str * param)) : comp :=
  {| c_kind := c_kind c; c_name := c_name c; c_nodes := c_nodes c; c_gap := c_gap c; c_val := c_val c; c_pars := p; c_end := c_end c; c_note := c_note c |}.
Inductive edit := SetValue (ref v : str) | SetParam (ref k : str) (w : word) | DropParam (ref k : str).
Definition edit_ref (e : edit) : str := match e with SetValue r _ | SetParam r _ _ | DropParam r _ => r end.
Definition edit_comp (e : edit) (c : comp) : comp :=
  match e with
  | SetValue _ v => with_value c v
  | SetParam _ k w => with_pars c (set_par (c_pars c) k w)
  | DropParam _ k => with_pars c (filter (fun bp => negb (str_eqb (par_name bp) k)) (c_pars c))
  end.
Definition apply_edit (e : edit) (l : list stmt) : list stmt := on_part (edit_ref e) (fun c => [Part (edit_comp e c)]) l.
(** An edit the netlist admits: the component exists, its statement is in the library's own layout and the new one is a statement, which
    keeps at least one parameter if there were any (see C65), and has none if it is an instance without any. *)
Definition edit_ok (e : edit) (l : list stmt) : Prop :=
  ~ In ":"%char (edit_ref e) /\
  exists c, part_named (edit_ref e) l = Some c /\ canonical c /\ part_ok good_names (edit_comp e c) /\ canonical (edit_comp e c) /\
    (c_pars (edit_comp e c) = [] -> c_pars c = []) /\ (c_kind c = "X"%char -> c_pars c = [] -> c_pars (edit_comp e c) = []) /\
    match e with DropParam _ _ => c_pars (edit_comp e c) <> [] | _ => True end.
Fixpoint edits_ok (es : list edit) (l : list stmt) : Prop :=
  match es with [] => True | e :: r => edit_ok e l /\ edits_ok r (apply_edit e l) end.
Definition apply_edits (es : list edit) (l : list stmt) : list stmt := fold_left (fun l e => apply_edit e l) es l.

(** Sub-circuit definitions: ".SUBCKT name" at the start of the line.  A definition named like a component hides it (C71). *)
Definition name_char (c : ascii) : bool := is_word c || aeqb c ".".
Definition circuit_name (h n : str) : Prop :=
  exists kw b r, h = "."%char :: kw ++ b ++ n ++ r /\ upper kw = s2l "SUBCKT" /\ blank b /\ b <> [] /\ n <> [] /\ forallb name_char n = true /\
    match r with [] => True | c :: _ => name_char c = false end.
Definition no_definition_named (ref : str) (l : list stmt) : Prop :=
  forall h b t, In (Circuit h b t) l -> exists n, circuit_name h n /\ upper n <> upper ref.

(** What is written for a list of statements: blanks aside the same statements (NetSpec), where a component whose parameters all
    denote what they did may keep the text of its parameters. *)
Definition same_word (x y : str) : Prop := x = y \/ exists p q, scan_eng x = Some p /\ scan_eng y = Some q /\ (p == q)%Q.
Definition same_value (a b : pval) : Prop :=
  match a, b with
  | One x, One y => same_word x y
  | Many l, Many m => Forall2 same_word l m
  | Flag, Flag => True
  | _, _ => False
  end.
Definition dict_get (d : pdict) (k : str) : option pval := option_map snd (find (fun kv => str_eqb (fst kv) k) d).
Definition same_pars (p q : list (str * param)) : Prop :=
  (forall k, In k (map par_name p) <-> In k (map par_name q)) /\
  forall k a b, dict_get (params_of p) k = Some a -> dict_get (params_of q) k = Some b -> same_value a b.
Definition saved_part (c c' : comp) : Prop := exists p, same_pars (c_pars c) p /\ same_part (with_pars c p) c'.
Inductive saved_stmt : stmt -> list stmt -> Prop :=
| V_part : forall c c', saved_part c c' -> saved_stmt (Part c) [Part c']
| V_other : forall s w, (forall c, s <> Part c) -> same_stmt s w -> saved_stmt s w.
Definition saved (l l' : list stmt) : Prop := exists ws, Forall2 saved_stmt l ws /\ l' = concat ws.
