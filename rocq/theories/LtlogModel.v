(** Model of the first loop of LTSpiceLogReader (spicelib/log/ltsteps.py:294-464): measurements of simulations without steps, Fourier
    analyses, steps.  The tables of stepped simulations (second loop) are [read_tables] of LogModel.  Not modelled: opening the file and
    its encoding; a file is the list of its lines, each with its line feed.  try_convert_value, float() and int() are arbitrary functions. *)
From Coq Require Import String Ascii List Bool Arith.
From Verif Require Import PyStr Regex StepsModel LogModel CompModel QlogModel.
Import ListNotations.
Local Open Scope string_scope. Local Open Scope nat_scope. Local Open Scope list_scope.

(** ltsteps.py:314, the classes: the characters of the value, of the limits *)
Definition value_char (c : ascii) : bool := is_word c || ((40 <=? code c) && (code c <=? 47)) || (code c =? 176).
Definition limit_char (c : ascii) : bool := is_digit c || mem_c c (s2l ".Ee+-").
Definition ilits (t : string) : list re := map ichar (s2l t).
Definition interval_re : re := seqs (ilits " FROM " ++ [Grp 3 (Star true (Chr limit_char))] ++ ilits " TO " ++ [Grp 4 (Star true (Chr limit_char))]).
Definition point_re : re := seqs (ilits " at " ++ [Grp 5 (Star true (Chr limit_char))]).
(** ltsteps.py:312-315: the regular expression of a measurement (re.IGNORECASE): 1 name, 2 value, 3 from, 4 to, 5 at *)
Definition mline_re : re :=
  seqs [Grp 1 word1; Opt (seqs [lit ":"; sp1; dots]); lit "="; Grp 2 (Plus (Chr value_char)); Opt (Alt interval_re point_re)].

(** ltsteps.py:354, 357: one or more digits, a character, one or more digits *)
Definition percent_re : re := seqs [digits1; Chr not_nl; digits1].

Section Reader.
Context {V F N : Type} (conv : str -> V) (tofloat : str -> option F) (toint : str -> option N).

(** ltsteps.py:221-240 [HarmonicData] *)
Record harmonic := Harmonic { h_number : N; h_frequency : F; h_component : F; h_normalized : F; h_phase : F; h_nphase : F }.
(** ltsteps.py:331-335: -1 for "all", the number, or the 0 the variable is initialised with *)
Inductive periods := AllPeriods | Periods (f : F) | NoPeriods.
(** ltsteps.py:243-251 [FourierData]; the step is self.step_count - 1: None for -1; dc_component None: the initial 0 *)
Record fourier := Fourier { f_signal : option str; f_periods : periods; f_dc : option F; f_phd : option F; f_thd : option F;
                            f_harmonics : list harmonic; f_step : option nat }.

Definition degree : ascii := "176"%char.
(** ltsteps.py:231-240 [HarmonicData.from_line]; None: IndexError or ValueError *)
Definition from_line (line : str) : option harmonic :=
  match words line with
  | t0 :: t1 :: t2 :: t3 :: t4 :: t5 :: _ =>
      match toint t0, tofloat t1, tofloat t2, tofloat t3, tofloat (rstrip_if (aeqb degree) t4), tofloat (rstrip_if (aeqb degree) t5) with
      | Some n, Some a, Some b, Some c, Some d, Some e => Some (Harmonic n a b c d e)
      | _, _, _, _, _, _ => None
      end
  | _ => None
  end.

(** Where the loop is: 325 (the main loop), 346 (the line after "Harmonic"), 350-362 (in the table: phd, thd, harmonics) *)
Inductive mode := Main | Skip | Table (phd thd : option F) (rows : list harmonic).
Record lstate := LState { l_mode : mode; l_signal : option str; l_periods : periods; l_dc : option F;
                          l_steps : columns V; l_count : nat; l_data : columns V; l_measures : nat; l_fourier : list (option str * list fourier) }.

Definition opt_eqb (a b : option str) : bool :=
  match a, b with Some x, Some y => str_eqb x y | None, None => true | _, _ => false end.
(** ltsteps.py:365-368: self.fourier[signal].append(..) or = [..] *)
Fixpoint fadd (k : option str) (x : fourier) (d : list (option str * list fourier)) : list (option str * list fourier) :=
  match d with
  | [] => [(k, [x])]
  | (j, l) :: d' => if opt_eqb k j then (j, l ++ [x]) :: d' else (j, l) :: fadd k x d'
  end.
(** ltsteps.py:364-368 *)
Definition end_table (phd thd : option F) (rows : list harmonic) (st : lstate) : lstate :=
  let f := Fourier (l_signal st) (l_periods st) (l_dc st) phd thd rows (match l_count st with 0 => None | S k => Some k end) in
  LState Main (l_signal st) (l_periods st) (l_dc st) (l_steps st) (l_count st) (l_data st) (l_measures st) (fadd (l_signal st) f (l_fourier st)).

(** ltsteps.py:401-410: titles and texts of a measurement *)
Definition mline_items (name value : str) (from to at_ : option str) : list (str * str) :=
  match from with
  | Some (x :: f) => [(name, value); (name ++ s2l "_FROM", x :: f); (name ++ s2l "_TO", match to with Some t => t | None => [] end)]
  | _ => match at_ with
         | Some (x :: a) => [(name, value); (name ++ s2l "_at", x :: a)]
         | _ => [(name, value)]
         end
  end.
(** ltsteps.py:397-414 *)
Definition measure_line (line : str) (st : lstate) : lstate :=
  match l_count st with
  | S _ => st
  | 0 => match re_match mline_re line with
         | None => st
         | Some (_, c) =>
             match group 1 line c, group 2 line c with
             | Some name, Some value =>
                 LState (l_mode st) (l_signal st) (l_periods st) (l_dc st) (l_steps st) (l_count st)
                   (fold_left (fun d kv => dset (lower (fst kv)) [conv (snd kv)] d) (mline_items name value (group 3 line c) (group 4 line c) (group 5 line c)) (l_data st))
                   (S (l_measures st)) (l_fourier st)
             | _, _ => st
             end
         end
  end.

(** the last piece of text.split(sep) for a separator of several characters *)
Fixpoint after_last (sep : str) (s : str) (cur : str) (skip : nat) : str :=
  match s with
  | [] => cur
  | c :: s' =>
      match skip with
      | S k => after_last sep s' cur k
      | 0 => if startswith sep s then after_last sep s' [] (length sep - 1) else after_last sep s' (cur ++ [c]) 0
      end
  end.
Definition last_piece (sep s : str) : str := after_last sep s [] 0.
Definition last_split (c : ascii) (s : str) : str := last (split_on c s) [].

(** ltsteps.py:354, 357; None: AttributeError or ValueError *)
Definition percent (line : str) : option F :=
  match re_search percent_re line with
  | Some (b, e, _) => tofloat (Regex.slice line (b, e))
  | None => None
  end.

(** ltsteps.py:350-362, a line of the table of harmonics; None: an exception *)
Definition table_line (l : str) (phd thd : option F) (rows : list harmonic) (st : lstate) : option lstate :=
  let line := strip_if is_nl l in
  let with_mode m := LState m (l_signal st) (l_periods st) (l_dc st) (l_steps st) (l_count st) (l_data st) (l_measures st) (l_fourier st) in
  if startswith (s2l "Total Harmonic") line then option_map (fun x => with_mode (Table phd (Some x) rows)) (percent line)
  else if startswith (s2l "Partial Harmonic") line then option_map (fun x => with_mode (Table (Some x) thd rows)) (percent line)
  else match line with
       | [] => Some (end_table phd thd rows st)
       | _ => option_map (fun h => with_mode (Table phd thd (rows ++ [h]))) (from_line line)
       end.

(** ltsteps.py:372-388: are there assignments in the ".step" line *)
Definition valid_step (toks : list str) : bool := existsb (mem_c "=") toks.

(** ltsteps.py:326-414, one line in the main loop, not a "Measurement:" line; None: an exception *)
Definition main_line (l : str) (st : lstate) : option lstate :=
  let with_mode m := LState m (l_signal st) (l_periods st) (l_dc st) (l_steps st) (l_count st) (l_data st) (l_measures st) (l_fourier st) in
  if str_eqb (strip l) [] then Some (measure_line l st)
  else if startswith (s2l "N-Period") l then
    let t := strip (last_split "=" (strip_if is_nl l)) in
    match (if str_eqb t (s2l "all") then Some AllPeriods else option_map Periods (tofloat t)) with
    | Some p => Some (measure_line l (LState (l_mode st) (l_signal st) p (l_dc st) (l_steps st) (l_count st) (l_data st) (l_measures st) (l_fourier st)))
    | None => None
    end
  else if startswith (s2l "Fourier components of") l then
    let line := strip_if is_nl l in
    Some (measure_line line (LState (l_mode st) (Some (strip (last_piece (s2l " of ") line))) (l_periods st) (l_dc st) (l_steps st) (l_count st) (l_data st) (l_measures st) (l_fourier st)))
  else if startswith (s2l "DC component:") l then
    let line := strip_if is_nl l in
    match tofloat (strip (last_split ":" line)) with
    | Some d => Some (measure_line line (LState (l_mode st) (l_signal st) (l_periods st) (Some d) (l_steps st) (l_count st) (l_data st) (l_measures st) (l_fourier st)))
    | None => None
    end
  else if startswith (s2l "Harmonic") l then Some (with_mode Skip)
  else if startswith (s2l ".step") l then
    let toks := tl (split_on " " (strip_if is_nl l)) in
    match add_items conv toks (l_steps st) with
    | Some s => Some (measure_line l (LState (l_mode st) (l_signal st) (l_periods st) (l_dc st) s (if valid_step toks then S (l_count st) else l_count st) (l_data st) (l_measures st) (l_fourier st)))
    | None => None
    end
  else Some (measure_line l st).

(** ltsteps.py:325-415, the first loop, with the inner loop 350-362.  After the table of harmonics the line is empty, the regular expression of
    line 398 does not match it.  At the end of the file readline gives "", which ends a table.  The result: the state and the lines left. *)
Fixpoint first_loop (ls : list str) (st : lstate) : option (lstate * list str) :=
  match ls with
  | [] => Some (match l_mode st with Main => st | Skip => end_table None None [] st | Table p t r => end_table p t r st end, [])
  | l :: ls' =>
      match l_mode st with
      | Skip => first_loop ls' (LState (Table None None []) (l_signal st) (l_periods st) (l_dc st) (l_steps st) (l_count st) (l_data st) (l_measures st) (l_fourier st))
      | Table p t r => match table_line l p t r st with Some st' => first_loop ls' st' | None => None end
      | Main =>
          if startswith (s2l "Measurement:") l then Some (st, l :: ls')   (* 390: no earlier case applies to such a line *)
          else match main_line l st with Some st' => first_loop ls' st' | None => None end
      end
  end.

Record ltlog := LtLog { t_steps : columns V; t_count : nat; t_data : columns V; t_fourier : list (option str * list fourier) }.
(** ltsteps.py:294-464 with logfile_data.py:152-165: step_set is the steps from another file; None: an exception.
    measure_count is not in the result. *)
Definition read_ltlog (read_measures : bool) (step_set : columns V) (is_int : str -> bool) (ls : list str) : option ltlog :=
  match first_loop ls (LState Main None NoPeriods None step_set (length step_set) [] 0 []) with
  | None => None
  | Some (st, rest) =>
      match (if read_measures then read_tables conv is_int rest (l_data st) else Some (l_data st)) with
      | Some d => Some (LtLog (l_steps st) (l_count st) d (l_fourier st))
      | None => None
      end
  end.
End Reader.
