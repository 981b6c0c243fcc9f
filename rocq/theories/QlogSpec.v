(** Vocabulary for C161-C164: Qspice logs and .meas files. *)
From Coq Require Import String Ascii List Bool Arith.
From Verif Require Import PyStr StepsModel StepsSpec LogModel LogSpec.
Import ListNotations.
Local Open Scope string_scope. Local Open Scope nat_scope. Local Open Scope list_scope.

(** A log: lines such as "2 of 4 steps:  .step vin=10 r1=1000", and other lines. *)
Inductive qline := QStep (pad : str) (n total : nat) (gap : str) (items : list (str * str)) | QOther (l : str).
Definition qline_text (x : qline) : str :=
  match x with
  | QStep pad n total gap items => pad ++ dec n ++ s2l " of " ++ dec total ++ s2l " steps:" ++ gap ++ s2l ".step " ++ items_text items ++ ["010"%char]
  | QOther l => l
  end.
Definition mentions (w l : str) : Prop := exists a b, l = a ++ w ++ b.
Definition qline_ok (x : qline) : Prop :=
  match x with
  | QStep pad _ _ gap items => forallb is_space pad = true /\ gap <> [] /\ forallb is_space gap = true /\
      Forall (fun kv => plain (fst kv) /\ plain (snd kv) /\ cell (fst kv) /\ cell (snd kv)) items
  | QOther l => ~ mentions (s2l "steps:") l
  end.
Definition numbers (log : list qline) : list nat := flat_map (fun x => match x with QStep _ n _ _ _ => [n] | QOther _ => [] end) log.
Definition settings (log : list qline) : list (str * str) := flat_map (fun x => match x with QStep _ _ _ _ items => items | QOther _ => [] end) log.
(** The values given to [k], in order. *)
Definition given (k : str) (log : list qline) : list str := map snd (filter (fun kv => str_eqb (lower (fst kv)) (lower k)) (settings log)).

(** A measurement: ".meas tran vmax max v(out):" or ".meas vmax max v(out):", then a line of values for each run. *)
Inductive qhead := Typed (kind name rest : str) | Untyped (name word rest : str).
Record qmeasure := QMeasure { qm_head : qhead; qm_rows : list (list piece) }.
Definition qm_name (m : qmeasure) : str := match qm_head m with Typed _ n _ => n | Untyped n _ _ => n end.
Definition head_text (h : qhead) : str :=
  match h with
  | Typed k n r => s2l ".meas " ++ k ++ s2l " " ++ n ++ s2l " " ++ r ++ ["010"%char]
  | Untyped n w r => s2l ".meas " ++ n ++ s2l " " ++ w ++ s2l " " ++ r ++ ["010"%char]
  end.
Definition row_text (r : list piece) : str := line_text r ++ ["010"%char].
Definition qmeasure_lines (m : qmeasure) : list str := head_text (qm_head m) :: map row_text (qm_rows m).
(** Letters, digits and underscores. *)
Definition name_text (s : str) : Prop := s <> [] /\ forall c, In c s -> is_digit c = true \/ is_upper c = true \/ is_lower c = true \/ c = "_"%char.
Definition kinds : list str := [s2l "tran"; s2l "ac"; s2l "dc"; s2l "op"].
Definition head_ok (h : qhead) : Prop :=
  match h with
  | Typed k n r => In k kinds /\ name_text n /\ ~ In "010"%char r
  | Untyped n w r => name_text n /\ ~ In n kinds /\ name_text w /\ ~ In "010"%char r
  end.
(** [w] values in every row. *)
Definition qmeasure_ok (w : nat) (m : qmeasure) : Prop :=
  head_ok (qm_head m) /\
  Forall (fun r => line_ok r /\ r <> [] /\ ~ (exists t, row_text r = s2l ".meas " ++ t) /\ length (line_values (fun s => s) r) = w) (qm_rows m).

(** The names of the columns: v, v_1, v_2, ...; in a stepped simulation the first column is the number of the step. *)
Definition numbered (name : str) (j : nat) : str := match j with 0 => name | _ => name ++ s2l "_" ++ dec j end.
(** Column [j] of measurement [m] is [col]. *)
Definition column_is {V} (conv : str -> V) (m : qmeasure) (j : nat) (col : list (val V)) : Prop :=
  Forall2 (fun r x => nth_error (line_values conv r) j = Some x) (qm_rows m) col.
(** The names, in lower case, that the values of a measurement of [w] values are stored under. *)
Definition qtitles (stepped : bool) (wm : nat * qmeasure) : list str :=
  match qm_rows (snd wm) with [] => [] | _ => map (fun j => lower (numbered (qm_name (snd wm)) j)) (seq 0 (fst wm - if stepped then 1 else 0)) end.
