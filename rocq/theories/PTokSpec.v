(** Specification for the parameters written on a component line. *)
From Coq Require Import String Ascii List Bool Arith.
From Verif Require Import PyStr.
Import ListNotations.
Local Open Scope string_scope.
Local Open Scope list_scope.

(** A piece of a value: plain text, text in braces, text in quotes. *)
Inductive piece := Plain (t : str) | Braces (t : str) | Quoted (q : ascii) (t : str).
Definition in_text (p : piece) : str :=
  match p with Plain t => t | Braces t => "{"%char :: t ++ ["}"%char] | Quoted q t => q :: t ++ [q] end.
Definition special : str := s2l "{}'" ++ ["034"%char].
Definition piece_ok (p : piece) : Prop :=
  match p with
  | Plain t => t <> [] /\ forall c, In c t -> ~ In c special /\ c <> ","%char /\ c <> "="%char /\ is_space c = false
  | Braces t => forall c, In c t -> ~ In c special
  | Quoted q t => In q ["034"; "039"]%char /\ forall c, In c t -> c <> q /\ c <> "{"%char /\ c <> "}"%char
  end.
(** A value: one or more adjacent pieces, such as {a b}*2 or "x = 1". *)
Definition word := list piece.
Definition word_text (w : word) : str := concat (map in_text w).
Definition word_ok (w : word) : Prop := w <> [] /\ Forall piece_ok w.
Definition blank (s : str) : Prop := forallb is_space s = true.

(** One parameter: a name, blanks, an equal sign, blanks, a value, and possibly further values after commas. *)
Record param := { p_name : word; p_b1 : str; p_b2 : str; p_value : word; p_more : list (str * word) }.
Definition param_text (p : param) : str :=
  word_text (p_name p) ++ p_b1 p ++ "="%char :: p_b2 p ++ word_text (p_value p)
  ++ concat (map (fun bw => ","%char :: fst bw ++ word_text (snd bw)) (p_more p)).
Definition param_ok (p : param) : Prop :=
  word_ok (p_name p) /\ blank (p_b1 p) /\ blank (p_b2 p) /\ word_ok (p_value p) /\
  Forall (fun bw => blank (fst bw) /\ word_ok (snd bw)) (p_more p).
(** the line: every parameter is preceded by at least one blank *)
Definition line_text (l : list (str * param)) (tail : str) : str :=
  concat (map (fun bp => fst bp ++ param_text (snd bp)) l) ++ tail.
Definition line_ok (l : list (str * param)) (tail : str) : Prop :=
  Forall (fun bp => blank (fst bp) /\ fst bp <> [] /\ param_ok (snd bp)) l /\ blank tail.
(** what the line means *)
Definition meaning (p : param) : str * list str :=
  (word_text (p_name p), word_text (p_value p) :: map (fun bw => word_text (snd bw)) (p_more p)).
