(** Vocabulary for C210-C215: the texts of a QSPICE component and what setting its parameters does to them. *)
From Coq Require Import String Ascii List Bool Arith ZArith.
From Verif Require Import PyStr ParSpec QTagModel QTagSpec QEdModel QEdSpec QCmpModel.
Import ListNotations.
Local Open Scope string_scope. Local Open Scope nat_scope. Local Open Scope list_scope.

(** A parameter line of a component: a text without settings (no "=" and no blank), or "name=value name=value ..." with blanks around. *)
Inductive ctext := Free (s : str) | Pars (l : list entry) (tail : str).
Definition ctext_str (x : ctext) : str := match x with Free s => s | Pars l t => concat (map entry_text l) ++ t end.
Definition plain_text (s : str) : Prop := ~ In "="%char s /\ ~ In " "%char s.
(** No quotes inside a text: the file format has no way to write them. *)
Definition cvalue (v : str) : Prop := par_value v /\ good_text v.
Definition cname (n : str) : Prop := par_name_ok n /\ startswith (s2l "0x") n = false.
Definition centry_ok (e : entry) : Prop :=
  ParSpec.spaces (e_sep e) /\ cname (e_par e) /\ ParSpec.spaces (e_b1 e) /\ ParSpec.spaces (e_b2 e) /\ cvalue (e_val e).
Definition ctext_ok (x : ctext) : Prop :=
  match x with
  | Free s => plain_text s
  | Pars l t => Forall centry_ok l /\ Forall (fun e => e_sep e <> []) (tl l) /\ ParSpec.spaces t
  end.
Definition entries_of (x : ctext) : list entry := match x with Free _ => [] | Pars l _ => l end.
Definition settings_of (xs : list ctext) : list (str * str) := map (fun e => (e_par e, e_val e)) (flat_map entries_of xs).

(** The texts of a symbol, in the order of the file. *)
Definition texts_are (y : sym) (l : list str) : Prop := map (fun i => text_of (y_store y i)) (text_ids y) = map Some l.
(** Objects of the symbol: its tags are numbered apart; the texts have a position and stand before the pins. *)
Definition sym_ok (y : sym) : Prop :=
  NoDup (y_items y) /\ (forall i, In i (y_items y) -> i < y_next y) /\
  (forall i, In i (text_ids y) -> exists p q, get_attr 1 (y_store y i) = Some (APair [p; q])) /\
  (forall a i b, y_items y = a ++ i :: b -> head_is (s2l "pin") (y_store y i) = true -> forall j, In j b -> head_is TEXT (y_store y j) = false).
(** The symbol can be written and read back (C45). *)
Definition sym_writable (y : sym) : Prop := Forall (fun i => proper (y_store y i) /\ ~ in_tag CR (y_store y i)) (y_items y).

(** What the calls ask for: the last value given to the name, if there is one. *)
Definition asked (n : str) (kw : list (str * option str)) : option (option str) :=
  option_map snd (find (fun e => str_eqb (fst e) n) kw).
Fixpoint after_calls (n : str) (calls : list (list (str * option str))) (before : option str) : option str :=
  match calls with
  | [] => before
  | kw :: r => after_calls n r (match asked n kw with Some v => v | None => before end)
  end.
(** Keyword arguments: names different from each other, good names and values. *)
Definition call_ok (kw : list (str * option str)) : Prop :=
  NoDup (map fst kw) /\ Forall (fun e => cname (fst e) /\ match snd e with Some v => cvalue v | None => True end) kw.
(** The value of a name in a list of settings. *)
Definition value_in (n : str) (l : list (str * str)) : option str := option_map snd (find (fun e => str_eqb (fst e) n) l).
(** The drawing and the pins of the symbol: its tags that are no texts, in their order. *)
Definition others (y : sym) : list tag := map (y_store y) (filter (fun i => negb (head_is TEXT (y_store y i))) (y_items y)).
(** The symbol a user has read from a file: a reference, a value, and parameter texts in which each name is set once. *)
Definition described (y : sym) (r v : str) (xs : list ctext) : Prop :=
  sym_ok y /\ sym_writable y /\ texts_are y (r :: v :: map ctext_str xs) /\ Forall ctext_ok xs /\ NoDup (map fst (settings_of xs)).
(** The names set in the .PARAM directives of a schematic whose directives are well-formed (QParSpec), in upper case. *)
Definition sets_name (ed : qed) (n : str) : Prop :=
  exists i p e, In i (q_items ed) /\ head_is (s2l "text") (q_store ed i) = true /\ comment_of (q_store ed i) = Some false /\
    text_of (q_store ed i) = Some (QUAL ++ pline_text p) /\ pline_ok p /\ l_lead p = [] /\ In e (l_pars p) /\ upper (e_par e) = n.
