(** What the parameters of an LTspice schematic promise. *)
From Coq Require Import String Ascii List Bool Arith ZArith.
From Verif Require Import PyStr ParSpec QTagModel AscSpec.
Import ListNotations.
Local Open Scope string_scope. Local Open Scope nat_scope. Local Open Scope list_scope.

(** Each directive that is a .PARAM line is a well-formed one (ParSpec). *)
Definition par_items (l : list item) : Prop := forall t, In (Note t) l -> n_comment t = false ->
  ~ is_param_line (n_text t) \/ exists p, n_text t = pline_text p /\ pline_ok p /\ l_lead p = [].
(** The first setting of a name in the directives of the file. *)
Definition first_setting (n : str) (l : list item) (v : option str) : Prop :=
  (exists p t q x a e b, l = p ++ Note t :: q /\ n_comment t = false /\ n_text t = pline_text x /\ pline_ok x /\ l_lead x = [] /\
     l_pars x = a ++ e :: b /\ upper (e_par e) = upper n /\ v = Some (e_val e) /\ (forall e', In e' a -> upper (e_par e') <> upper n) /\
     forall t' x', In (Note t') p -> n_comment t' = false -> n_text t' = pline_text x' -> pline_ok x' -> l_lead x' = [] -> forall e', In e' (l_pars x') -> upper (e_par e') <> upper n)
  \/ v = None /\ forall t' x', In (Note t') l -> n_comment t' = false -> n_text t' = pline_text x' -> pline_ok x' -> l_lead x' = [] -> forall e', In e' (l_pars x') -> upper (e_par e') <> upper n.
(** Settings, one after the other, and what they make of the values. *)
Definition setting : Type := str * str.
Definition setting_ok (k : setting) : Prop :=
  par_name_ok (fst k) /\ par_value (snd k) /\ match fst k with c :: _ => begins_value c = false | [] => True end.
Fixpoint settings (l : list setting) (f : str -> option str) : str -> option str :=
  match l with [] => f | (n, v) :: r => settings r (fun x => if str_eqb (upper x) (upper n) then Some v else f x) end.

(** ** What edits keep *)
(** No two simulation commands are active. *)
Definition one_sim (l : list item) : Prop := forall p i q j r, l = p ++ i :: q ++ j :: r -> active_sim i -> active_sim j -> False.
Definition comments (l : list item) : list note := flat_map (fun i => match i with Note t => if n_comment t then [t] else [] | _ => [] end) l.
(** Wires, flags and drawings: all but symbols and texts. *)
Definition untouched (i : item) : bool := match i with Symbol _ | Note _ => false | _ => true end.

(** ** Parameters of components: settings in the attributes SpiceLine and SpiceLine2 *)
Definition setting_text (d : list setting) : str := join_blank (map (fun e => fst e ++ s2l "=" ++ snd e) d).
Definition spice_names : list str := map s2l ["Value"; "Value2"; "SpiceModel"; "SpiceLine"; "SpiceLine2"].
(** The attribute [k] of the symbol is there when it has settings, and is the text of them. *)
Definition line_of (s : symbol) (k : str) (d : list setting) : Prop :=
  value_of s k = match d with [] => None | _ => Some (setting_text d) end /\ NoDup (map fst d) /\
  forall e, In e d -> par_name_ok (fst e) /\ par_value (snd e) /\ ~ In (fst e) spice_names.
Definition has_setting (k : str) (d : list setting) : bool := existsb (fun e => str_eqb (fst e) k) d.
Definition put_setting (k v : str) (d : list setting) : list setting :=
  if has_setting k d then map (fun e => if str_eqb (fst e) k then (k, v) else e) d else d ++ [(k, v)].
Definition new_attr (k v : str) (s : symbol) : symbol :=
  {| s_name := s_name s; s_x := s_x s; s_y := s_y s; s_rot := s_rot s; s_wins := s_wins s; s_ref := s_ref s; s_attrs := s_attrs s ++ [(k, v)] |}.
(** Where a parameter is put: where it is, or behind the settings of SpiceLine. *)
Definition put_par (d1 d2 : list setting) (k v : str) (s : symbol) : symbol :=
  if has_setting k d1 then put_attr (s2l "SpiceLine") (setting_text (put_setting k v d1)) s
  else if has_setting k d2 then put_attr (s2l "SpiceLine2") (setting_text (put_setting k v d2)) s
  else match d1 with
       | [] => new_attr (s2l "SpiceLine") (setting_text [(k, v)]) s
       | _ => put_attr (s2l "SpiceLine") (setting_text (put_setting k v d1)) s
       end.
Definition setting_of (k : str) (d : list setting) : option str := option_map snd (find (fun e => str_eqb (fst e) k) d).
