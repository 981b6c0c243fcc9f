(** What the netlist of a QSPICE schematic is to say. *)
From Coq Require Import String Ascii List Bool Arith ZArith.
From Verif Require Import PyStr QTagModel.
Import ListNotations.
Local Open Scope string_scope. Local Open Scope nat_scope. Local Open Scope list_scope.

Notation place := (Z * Z)%type (only parsing).
(** The children of a tag that begin with a word. *)
Definition children (word : string) (t : tag) : list tag := filter (fun k => match toks k with x :: _ => str_eqb x (s2l word) | [] => false end) (kids t).
(** Labels, wires with their two ends, and pins. *)
Definition is_label (t : tag) (l : place * str) : Prop := get_attr 1 t = Some (APair [fst (fst l); snd (fst l)]) /\ get_attr 5 t = Some (AText (snd l)).
Definition is_wire (t : tag) (w : place * place * str) : Prop :=
  let '((x, y), (x', y'), n) := w in get_attr 1 t = Some (APair [x; y]) /\ get_attr 2 t = Some (APair [x'; y']) /\ get_attr 3 t = Some (AText n).
(** The net GND is node 0. *)
Definition node (n : str) : str := if str_eqb n (s2l "GND") then s2l "0" else n.
(** Something is drawn at the place: a label or an end of a wire. *)
Definition touched (labels : list (place * str)) (wires : list (place * place * str)) (p : place) : Prop :=
  (exists n, In (p, n) labels) \/ exists q n, In (p, q, n) wires \/ In (q, p, n) wires.
(** The first label at the place names the net, or else the first wire that ends there. *)
Inductive named (labels : list (place * str)) (wires : list (place * place * str)) (p : place) : str -> Prop :=
| By_label n a b : labels = a ++ (p, n) :: b -> (forall m, ~ In (p, m) a) -> named labels wires p (node n)
| By_wire q r n a b : (forall m, ~ In (p, m) labels) -> wires = a ++ (q, r, n) :: b -> q = p \/ r = p ->
    (forall q' r' m, In (q', r', m) a -> q' <> p /\ r' <> p) -> named labels wires p (node n).
(** The yen sign stands for an unused pin. *)
Definition unused : ascii := ascii_of_nat 165.
(** The nodes of the components, from the labels, the wires and the places of the pins; a pin may be marked as unused in components of a special
    kind.  [f] gives the nodes of the places where nothing is drawn. *)
Definition nodes_ok (labels : list (place * str)) (wires : list (place * place * str)) (f : place -> str)
    (comp : bool * list (place * bool)) (nodes : list str) : Prop :=
  Forall2 (fun pin n => if fst comp && snd pin then n = [unused]
                        else named labels wires (fst pin) n \/ ~ touched labels wires (fst pin) /\ n = f (fst pin)) (snd comp) nodes.
Definition open_place (labels : list (place * str)) (wires : list (place * place * str)) (comps : list (bool * list (place * bool))) (p : place) : Prop :=
  ~ touched labels wires p /\ exists s pins, In (s, pins) comps /\ exists b, In (p, b) pins /\ s && b = false.

(** ** What is drawn *)
Definition special_signs : list ascii := map ascii_of_nat [165; 195; 128; 163].   (* ¥ Ã € £ *)
(** [at_place position orientation pin] is the place of a pin of a component. *)
Definition is_pin (at_place : place -> Z -> place -> option place) (p : place) (o : Z) (t : tag) (pin : place * bool) : Prop :=
  (exists q, get_attr 1 t = Some (APair [fst q; snd q]) /\ at_place p o q = Some (fst pin)) /\ (snd pin = true <-> get_attr 9 t = Some (AText [unused])).
Definition is_component (at_place : place -> Z -> place -> option place) (t : tag) (c : str * bool * list (place * bool)) : Prop :=
  exists s rest a more p o, children "symbol" t = s :: rest /\ children "text" s = a :: more /\ get_attr 8 a = Some (AText (fst (fst c))) /\
    get_attr 1 t = Some (APair [fst p; snd p]) /\ get_attr 2 t = Some (AInt o) /\ Forall2 (is_pin at_place p o) (children "pin" s) (snd c) /\
    (snd (fst c) = true <-> exists x r, fst (fst c) = x :: r /\ In x special_signs).
Definition drawn (at_place : place -> Z -> place -> option place) (t : tag)
    (labels : list (place * str)) (wires : list (place * place * str)) (comps : list (str * bool * list (place * bool))) : Prop :=
  Forall2 is_label (children "net" t) labels /\ Forall2 is_wire (children "wire" t) wires /\ Forall2 (is_component at_place) (children "component" t) comps.
Definition refs (comps : list (str * bool * list (place * bool))) : list str := map (fun c => fst (fst c)) comps.
Definition pins (comps : list (str * bool * list (place * bool))) : list (bool * list (place * bool)) := map (fun c => (snd (fst c), snd c)) comps.
(** Names of the form N1, N02, ... *)
Definition numbered (n : str) : Prop := exists r k, n = "N"%char :: r /\ py_int r = Some k.
