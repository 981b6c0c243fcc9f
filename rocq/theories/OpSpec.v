(** Vocabulary for C167-C169: operating points of semiconductor devices. *)
From Coq Require Import String Ascii List Bool Arith.
From Verif Require Import PyStr StepsModel.
Import ListNotations.
Local Open Scope string_scope. Local Open Scope nat_scope. Local Open Scope list_scope.

(** Fields separated by white space: each with the space before it. *)
Definition row := list (str * str).
Definition row_line (first : str) (r : row) : str := first ++ concat (map (fun gf => fst gf ++ snd gf) r) ++ ["010"%char].
Definition fields (r : row) : list str := map snd r.
(** A group of devices: empty lines, the line of names, and a line for each quantity: its name, and whether a colon follows. *)
Record group := Group { g_empty : list str; g_names : row; g_quantities : list (str * bool * row) }.
Definition group_lines (g : group) : list str :=
  g_empty g ++ row_line (s2l "Name:") (g_names g) :: map (fun q : str * bool * row => row_line (fst (fst q) ++ (if snd (fst q) then s2l ":" else [])) (snd q)) (g_quantities g).
(** A kind of devices: empty lines, the title, groups. *)
Record kind := Kind { k_empty : list str; k_before : str; k_title : str; k_after : str; k_groups : list group }.
Definition kind_lines (k : kind) : list str :=
  k_empty k ++ (k_before k ++ s2l "--- " ++ k_title k ++ s2l " ---" ++ k_after k ++ ["010"%char]) :: flat_map group_lines (k_groups k).

Definition spaces_only (s : str) : Prop := Forall (fun c => is_space c = true) s.
Definition field (s : str) : Prop := s <> [] /\ Forall (fun c => is_space c = false) s.
Definition row_ok (r : row) : Prop := Forall (fun gf => fst gf <> [] /\ spaces_only (fst gf) /\ field (snd gf)) r.
(** Every quantity has a value for every device; the name of a quantity is followed by a colon, except Gmb. *)
Definition group_ok (g : group) : Prop :=
  Forall spaces_only (g_empty g) /\ g_names g <> [] /\ row_ok (g_names g) /\ NoDup (fields (g_names g)) /\ NoDup (map (fun q => fst (fst q)) (g_quantities g)) /\
  Forall (fun q => let '(name, colon, r) := q in field name /\ name <> s2l "Name" /\ hd_error name <> Some "-"%char /\ (forall n, name <> n ++ s2l ":") /\
    (colon = true \/ name = s2l "Gmb") /\ row_ok r /\ length r = length (g_names g)) (g_quantities g).
Definition kind_ok (k : kind) : Prop :=
  Forall spaces_only (k_empty k) /\ spaces_only (k_before k) /\ spaces_only (k_after k) /\ ~ In "010"%char (k_title k) /\
  Forall group_ok (k_groups k) /\ NoDup (flat_map (fun g => fields (g_names g)) (k_groups k)).

(** The dictionary: for each device the value of each quantity. *)
Definition group_table {V} (conv : str -> V) (g : group) : list (str * list (str * V)) :=
  map (fun i => (nth i (fields (g_names g)) [], map (fun q => (fst (fst q), conv (nth i (fields (snd q)) []))) (g_quantities g))) (seq 0 (length (g_names g))).
Definition kind_table {V} (conv : str -> V) (k : kind) : str * list (str * list (str * V)) := (lower (k_title k), flat_map (group_table conv) (k_groups k)).
Definition heading : str := s2l "Semiconductor Device Operating Points:".
