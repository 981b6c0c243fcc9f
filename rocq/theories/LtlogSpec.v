(** Vocabulary for C171-C176: logs of LTspice. *)
From Coq Require Import String Ascii List Bool Arith.
From Verif Require Import PyStr StepsModel StepsSpec LogModel LogSpec LtlogModel.
Import ListNotations.
Local Open Scope string_scope. Local Open Scope nat_scope. Local Open Scope list_scope.

(** * Measurements of a simulation without steps *)
(** What follows the value: nothing, an interval (two words, two limits), a point (one word, one limit). *)
Inductive mtail := NoTail | Interval (from_ a to_ b : str) | Point (at_ a : str).
Definition tail_text (t : mtail) : str :=
  match t with
  | NoTail => []
  | Interval f a w b => s2l " " ++ f ++ s2l " " ++ a ++ s2l " " ++ w ++ s2l " " ++ b
  | Point w a => s2l " " ++ w ++ s2l " " ++ a
  end.
(** The expression, with the space before it. *)
Record measure := Measure { e_name : str; e_expr : option (str * str); e_value : str; e_tail : mtail }.
Definition measure_text (x : measure) : str :=
  e_name x ++ (match e_expr x with Some (gap, e) => s2l ":" ++ gap ++ e | None => [] end) ++ s2l "=" ++ e_value x ++ tail_text (e_tail x) ++ [NLC].

(** Letters, digits and "_" of the name; the value is a number, a complex number or a formula; a limit is a number. *)
Definition name_like (c : ascii) : bool := Regex.is_word c.
Definition value_like (c : ascii) : bool := name_like c || existsb (aeqb c) (s2l "()*+,-./" ++ ["176"%char]).
Definition limit_like (c : ascii) : bool := is_digit c || existsb (aeqb c) (s2l ".eE+-").
Definition all_of (f : ascii -> bool) (s : str) : Prop := s <> [] /\ forallb f s = true.
Definition tail_ok (t : mtail) : Prop :=
  match t with
  | NoTail => True
  | Interval f a w b => upper f = s2l "FROM" /\ all_of limit_like a /\ upper w = s2l "TO" /\ all_of limit_like b
  | Point w a => upper w = s2l "AT" /\ all_of limit_like a
  end.
Definition measure_ok (x : measure) : Prop :=
  all_of name_like (e_name x) /\ startswith (s2l "Harmonic") (e_name x) = false /\
  match e_expr x with
  | Some (gap, e) => e_name x <> s2l "Measurement" /\ all_of is_space gap /\ ~ In NLC gap /\ ~ In NLC e /\ match e with c :: _ => is_space c = false | [] => True end
  | None => True
  end /\ all_of value_like (e_value x) /\ tail_ok (e_tail x).
(** The columns: the value under the name, the limits under the name with _FROM and _TO or _at, each of one value. *)
Definition measure_cells (x : measure) : list (str * str) :=
  (e_name x, e_value x) ::
  match e_tail x with
  | NoTail => []
  | Interval _ a _ b => [(e_name x ++ s2l "_FROM", a); (e_name x ++ s2l "_TO", b)]
  | Point _ a => [(e_name x ++ s2l "_at", a)]
  end.

(** * Fourier analyses *)
(** A row of the table: fields, each with the space before it; degree signs after the phases. *)
Record hrow := HRow { r_gaps : str * str * str * str * str * str; r_number : str; r_freq : str; r_comp : str; r_norm : str; r_phase : str; r_nphase : str; r_end : str }.
Definition hrow_text (r : hrow) : str :=
  let '(g0, g1, g2, g3, g4, g5) := r_gaps r in
  g0 ++ r_number r ++ g1 ++ r_freq r ++ g2 ++ r_comp r ++ g3 ++ r_norm r ++ g4 ++ r_phase r ++ ["176"%char] ++ g5 ++ r_nphase r ++ ["176"%char] ++ r_end r ++ [NLC].
(** A line of a distortion: what is before the number, the digits before and after the point, the rest. *)
Record pct := Pct { p_before : str; p_int : str; p_frac : str; p_after : str }.
Definition pct_number (p : pct) : str := p_int p ++ s2l "." ++ p_frac p.
Definition pct_text (title : string) (p : pct) : str := s2l title ++ p_before p ++ pct_number p ++ p_after p ++ [NLC].
Record block := Block { b_periods : str; b_signal : str; b_dc : str; b_empty : list str; b_title : str; b_units : str; b_rows : list hrow; b_phd : option pct; b_thd : option pct }.
Definition opt_line {A} (f : A -> str) (o : option A) : list str := match o with Some x => [f x] | None => [] end.
Definition block_lines (b : block) : list str :=
  [s2l "N-Period=" ++ b_periods b ++ [NLC]; s2l "Fourier components of " ++ b_signal b ++ [NLC]; s2l "DC component:" ++ b_dc b ++ [NLC]] ++ b_empty b ++
  [s2l "Harmonic" ++ b_title b; b_units b] ++ map hrow_text (b_rows b) ++ opt_line (pct_text "Partial Harmonic Distortion:") (b_phd b) ++ opt_line (pct_text "Total Harmonic Distortion:") (b_thd b) ++ [[NLC]].

Section Values.
Context {F N : Type} (tofloat : str -> option F) (toint : str -> option N) (fl : str -> F) (it : str -> N).
Definition word (s : str) : Prop := s <> [] /\ Forall (fun c => is_space c = false) s.
Definition blank (s : str) : Prop := Forall (fun c => is_space c = true) s /\ ~ In NLC s /\ ~ In "013"%char s.
Definition number (s : str) : Prop := word s /\ tofloat s = Some (fl s).
Definition hrow_ok (r : hrow) : Prop :=
  let '(g0, g1, g2, g3, g4, g5) := r_gaps r in
  blank g0 /\ Forall (fun g => g <> [] /\ blank g) [g1; g2; g3; g4; g5] /\ blank (r_end r) /\
  word (r_number r) /\ toint (r_number r) = Some (it (r_number r)) /\ Forall number [r_freq r; r_comp r; r_norm r; r_phase r; r_nphase r] /\
  Forall (fun s => forall u, s <> u ++ ["176"%char]) [r_phase r; r_nphase r] /\ hd_error (r_number r) <> Some "T"%char /\ hd_error (r_number r) <> Some "P"%char.
Definition hrow_value (r : hrow) : harmonic := Harmonic (it (r_number r)) (fl (r_freq r)) (fl (r_comp r)) (fl (r_norm r)) (fl (r_phase r)) (fl (r_nphase r)).
Definition pct_ok (p : pct) : Prop :=
  Forall (fun c => is_digit c = false) (p_before p) /\ all_of is_digit (p_int p) /\ all_of is_digit (p_frac p) /\
  match p_after p with c :: _ => is_digit c = false | [] => True end /\ ~ In NLC (p_before p ++ p_after p) /\ ~ In "013"%char (p_before p ++ p_after p) /\
  tofloat (pct_number p) = Some (fl (pct_number p)).
(** The signal: no blank in it, as in V(out). *)
Definition block_ok (b : block) : Prop :=
  (b_periods b = s2l "all" \/ number (b_periods b)) /\ ~ In "="%char (b_periods b) /\ word (b_signal b) /\ number (b_dc b) /\ ~ In ":"%char (b_dc b) /\
  Forall (fun l => Forall (fun c => is_space c = true) l) (b_empty b) /\ Forall hrow_ok (b_rows b) /\ match b_phd b with Some p => pct_ok p | None => True end /\ match b_thd b with Some p => pct_ok p | None => True end.
(** The analysis; [steps]: the number of steps before it. *)
Definition block_value (steps : nat) (b : block) : fourier :=
  Fourier (Some (b_signal b)) (if str_eqb (b_periods b) (s2l "all") then AllPeriods else Periods (fl (b_periods b))) (Some (fl (b_dc b)))
    (option_map (fun p => fl (pct_number p)) (b_phd b)) (option_map (fun p => fl (pct_number p)) (b_thd b)) (map hrow_value (b_rows b))
    (match steps with 0 => None | S k => Some k end).

(** * A log: measurements, analyses, steps and other lines *)
Inductive item := Meas (x : measure) | Analysis (b : block) | Step (settings : list (str * str)) | Text (l : str).
Definition item_lines (i : item) : list str :=
  match i with Meas x => [measure_text x] | Analysis b => block_lines b | Step l => [step_text l] | Text l => [l] end.
Definition keywords : list str := map s2l ["N-Period"; "Fourier components of"; "DC component:"; "Harmonic"; ".step"; "Measurement:"].
(** Measurements in lines of their own only occur without steps; with them, any other line may occur. *)
Fixpoint log_ok (stepped : bool) (log : list item) : Prop :=
  match log with
  | [] => True
  | Meas x :: log' => stepped = false /\ measure_ok x /\ log_ok stepped log'
  | Analysis b :: log' => block_ok b /\ log_ok stepped log'
  | Step l :: log' => l <> [] /\ Forall (fun kv => plain (fst kv) /\ plain (snd kv) /\ cell (fst kv) /\ cell (snd kv)) l /\ log_ok true log'
  | Text l :: log' => Forall (fun k => startswith k l = false) keywords /\ (stepped = true \/ ~ In "="%char l) /\ log_ok stepped log'
  end.
Definition log_steps (log : list item) : list (list (str * str)) := flat_map (fun i => match i with Step l => [l] | _ => [] end) log.
Definition log_cells (log : list item) : list (str * str) := flat_map (fun i => match i with Meas x => measure_cells x | _ => [] end) log.
(** The analyses with the number of the steps before each, in order. *)
Fixpoint log_analyses (steps : nat) (log : list item) : list fourier :=
  match log with
  | [] => []
  | Analysis b :: log' => block_value steps b :: log_analyses steps log'
  | Step _ :: log' => log_analyses (S steps) log'
  | _ :: log' => log_analyses steps log'
  end.
(** The values given to a step variable. *)
Definition given (k : str) (log : list item) : list str := map snd (filter (fun kv => str_eqb (lower (fst kv)) (lower k)) (concat (log_steps log))).
End Values.
