(** What editing a QSPICE schematic promises. *)
From Coq Require Import String Ascii List Bool Arith ZArith.
From Verif Require Import PyStr StepsModel QTagModel QTagSpec QEdModel.
Import ListNotations.
Local Open Scope string_scope. Local Open Scope nat_scope. Local Open Scope list_scope.

(** Texts that can be written and read again: no quote, no ": " (C93), no carriage return. *)
Definition good_text (s : str) : Prop := ~ In DQ s /\ no_colon s /\ ~ In CR s.
(** Values of parameters: no quote, colon or carriage return, and not beginning with a blank. *)
Definition good_value (v : str) : Prop := ~ In DQ v /\ ~ In COLON v /\ ~ In CR v /\ exists c r, v = c :: r /\ c <> BLANK.

(** The components of a schematic: reference, tag and value of its component tags, in their order. *)
Fixpoint comp_list (store : nat -> tag) (items : list nat) : option (list (str * comp)) :=
  match items with
  | [] => Some []
  | i :: r => if head_is (s2l "component") (store i)
              then match ref_value (store i), comp_list store r with Some (a, v), Some d => Some ((a, Comp i v) :: d) | _, _ => None end
              else comp_list store r
  end.
(** The editor is in step with its schematic: its components are those of the schematic, with distinct references. *)
Definition sound (ed : qed) : Prop :=
  comp_list (q_store ed) (q_items ed) = Some (q_comps ed) /\ NoDup (map fst (q_comps ed)) /\ NoDup (q_items ed) /\ (forall i, In i (q_items ed) -> i < q_next ed).

(** A schematic as it is written and read: a tree of proper tags (QTagSpec) below "schematic". *)
Definition writable (ed : qed) : Prop := q_head ed = [s2l "schematic"] /\ Forall (fun i => proper (q_store ed i) /\ ~ in_tag CR (q_store ed i)) (q_items ed).

(** Edits. *)
Inductive edit := SetValue (ref v : str) | SetParam (name v : str) | AddInstr (s : str) | RemInstr (s : str).
Definition apply (e : edit) (ed : qed) : option qed :=
  match e with
  | SetValue ref v => set_component_value ref v ed
  | SetParam n v => set_parameter n v ed
  | AddInstr s => add_instruction s ed
  | RemInstr s => option_map fst (remove_instruction s ed)
  end.
Fixpoint apply_all (es : list edit) (ed : qed) : option qed :=
  match es with [] => Some ed | e :: r => match apply e ed with Some ed' => apply_all r ed' | None => None end end.
(** A directive of the schematic, no comment. *)
Definition directive (ed : qed) (s : str) : Prop :=
  exists i, In i (q_items ed) /\ head_is (s2l "text") (q_store ed i) = true /\ comment_of (q_store ed i) = Some false /\ text_of (q_store ed i) = Some s.
(** The first word of the text is one of the simulation commands of which there is only one. *)
Definition sim_command (s : str) : Prop :=
  exists b w r, s = b ++ w ++ r /\ (forall c, In c b -> is_space c = true) /\ (forall c, In c w -> is_space c = false) /\
    match r with c :: _ => is_space c = true | [] => True end /\ In (upper w) (map s2l [".AC"; ".DC"; ".TRAN"; ".NOISE"; ".TF"]).
(** The texts of the edits can be written; a simulation command is only added where there is one already (else C95). *)
Definition edit_ok (e : edit) (ed : qed) : Prop :=
  match e with
  | SetValue ref v => good_text v /\ startswith (s2l "0x") v = false
  | SetParam n v => good_value v /\ ~ In DQ n /\ ~ In COLON n /\ ~ In CR n
  | AddInstr s => good_text (strip s) /\ (sim_command (strip s) -> exists x, directive ed x /\ sim_command (unqual x))
  | RemInstr _ => True
  end.
Fixpoint edits_ok (es : list edit) (ed : qed) : Prop :=
  match es with [] => True | e :: r => edit_ok e ed /\ forall ed', apply e ed = Some ed' -> edits_ok r ed' end.
(** What can be asked of an editor. *)
Definition same_answers (a b : qed) : Prop :=
  get_components a = get_components b /\ (forall ref, get_component_value ref a = get_component_value ref b) /\
  (forall n, get_parameter n a = get_parameter n b) /\ netlist_elements a = netlist_elements b /\ netlist_directives a = netlist_directives b.
(** The content of the file after writing [w]. *)
Definition stored (path old : str) (w : option (str * str)) : str := match w with Some (p, s) => if str_eqb p path then s else old | None => old end.
(** An editor opened on a file with that content. *)
Definition open_file (path content : str) : option qed := match read_file content with Some t => load path t | None => None end.
(** A simulation command of the schematic. *)
Definition sim_at (ed : qed) (i : nat) (s : str) : Prop :=
  In i (q_items ed) /\ head_is (s2l "text") (q_store ed i) = true /\ comment_of (q_store ed i) = Some false /\ text_of (q_store ed i) = Some s /\ sim_command (unqual s).
