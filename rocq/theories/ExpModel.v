(** Model of the readers of waveforms exported as text with step information (spicelib/log/ltsteps.py:99-153, 178-218).
    Not modelled: encodings and opening the files; a file is the list of its lines, each with its line feed.  try_convert_value is an
    arbitrary function [conv]; [raw] is the Python str object of a text. *)
From Coq Require Import String Ascii List Bool Arith.
From Verif Require Import PyStr Regex StepsModel LogModel CompModel QlogModel.
Import ListNotations.
Local Open Scope string_scope. Local Open Scope nat_scope. Local Open Scope list_scope.

(** ltsteps.py:129, 190: the characters of the assignments *)
Definition step_char (c : ascii) : bool := is_word c || mem_c c (s2l "=. -").
(** ltsteps.py:129, 190: "Step Information: ", (assignments), spaces, "(", "Run" or what [w] says, ": ", (digits), "/", digits, ")" and the line feed *)
Definition info_re (w : re) : re :=
  seqs (lits "Step Information: " ++ [Grp 1 (Plus (Chr step_char)); Plus (Chr (fun c => aeqb c " ")); lit "("; w] ++ lits ": " ++
        [Grp 2 (Star true (Chr is_digit)); lit "/"; Star true (Chr is_digit); lit ")"; lit NLc]).
Definition tabular_re : re := info_re (Alt (seqs (lits "Run")) (seqs (lits "Step"))).   (* ltsteps.py:129 *)
Definition export_re : re := info_re (seqs (lits "Run")).                              (* ltsteps.py:190 *)

(** ltsteps.py:134, 195 match.groups() *)
Definition step_info (r : re) (line : str) : option (str * str) :=
  match re_match r line with
  | None => None
  | Some (_, c) => match group 1 line c, group 2 line c with Some a, Some b => Some (a, b) | _, _ => None end
  end.

(** * reformat_LTSpice_export *)
Fixpoint map_some {A B} (f : A -> option B) (l : list A) : option (list B) :=
  match l with
  | [] => Some []
  | x :: l' => match f x, map_some f l' with Some y, Some r => Some (y :: r) | _, _ => None end
  end.
(** ltsteps.py:137: param.split('=')[1]; None: IndexError *)
Definition after_eq (param : str) : option str := match split_on "=" param with _ :: v :: _ => Some v | _ => None end.
(** ltsteps.py:143: param.split('=')[0] *)
Definition before_eq (param : str) : str := match split_on "=" param with k :: _ => k | [] => [] end.
Definition TABc : ascii := "009".
Definition tabs (l : list str) : str := join [TABc] l.

(** go_header, run_no, param_values, the text written *)
Record tstate := TState { t_header : bool; t_run : str; t_values : str; t_out : str }.
(** ltsteps.py:130-150, one line; [headers] is the first line of the file; None: IndexError *)
Definition tab_line (headers : str) (line : str) (st : tstate) : option tstate :=
  if startswith (s2l "Step Information:") line then
    match step_info tabular_re line with
    | None => Some st
    | Some (step, run) =>
        match map_some after_eq (words step) with
        | None => None
        | Some params =>
            let out := if t_header st
                       then t_out st ++ s2l "Run" ++ [TABc] ++ tabs (map before_eq (words step)) ++ [TABc] ++ headers
                       else t_out st in
            Some (TState false run (tabs params) out)
        end
    end
  else Some (TState (t_header st) (t_run st) (t_values st) (t_out st ++ t_run st ++ [TABc] ++ t_values st ++ [TABc] ++ line)).
Fixpoint tab_lines (headers : str) (ls : list str) (st : tstate) : option tstate :=
  match ls with
  | [] => Some st
  | l :: ls' => match tab_line headers l st with Some st' => tab_lines headers ls' st' | None => None end
  end.
(** ltsteps.py:99-153 [reformat_LTSpice_export]: the text of the tabular file; None: IndexError *)
Definition reformat (file : list str) : option str :=
  match file with
  | [] => Some []
  | h :: ls => option_map t_out (tab_lines h ls (TState true (s2l "0") [] []))
  end.

(** * LTSpiceExport *)
Section Export.
Context {V : Type} (conv : str -> V) (raw : str -> V).

(** ltsteps.py:197-199: key, value = param.split('='); None: ValueError *)
Fixpoint set_current (params : list str) (cur : list (str * V)) : option (list (str * V)) :=
  match params with
  | [] => Some cur
  | p :: ps => match split_on "=" p with
               | [k; v] => set_current ps (dset k (conv v) cur)
               | _ => None
               end
  end.
(** ltsteps.py:203-207: an empty list for every key *)
Definition empty_lists (keys : list str) (d : columns V) : columns V := fold_left (fun d k => dset (lower k) [] d) keys d.
(** ltsteps.py:212-213; None: KeyError *)
Fixpoint append_current (cur : list (str * V)) (d : columns V) : option (columns V) :=
  match cur with
  | [] => Some d
  | (k, v) :: cur' => match dget (lower k) d with Some l => append_current cur' (dset (lower k) (l ++ [v]) d) | None => None end
  end.
(** go_header, curr_dic, dataset *)
Record estate := EState { e_header : bool; e_cur : list (str * V); e_data : columns V }.
(** ltsteps.py:191-216, one line; None: an exception *)
Definition exp_line (headers : list str) (line : str) (st : estate) : option estate :=
  if startswith (s2l "Step Information:") line then
    match step_info export_re line with
    | None => Some st
    | Some (step, run) =>
        match set_current (words step) (dset (s2l "runno") (raw run) (e_cur st)) with
        | None => None
        | Some cur =>
            let d := if e_header st then empty_lists (map fst cur) (empty_lists headers (e_data st)) else e_data st in
            Some (EState false cur d)
        end
    end
  else match append_current (e_cur st) (e_data st) with
       | None => None
       | Some d => match append_values conv headers (split_on TABc line) d with
                   | Some d' => Some (EState (e_header st) (e_cur st) d')
                   | None => None
                   end
       end.
Fixpoint exp_lines (headers : list str) (ls : list str) (st : estate) : option estate :=
  match ls with
  | [] => Some st
  | l :: ls' => match exp_line headers l st with Some st' => exp_lines headers ls' st' | None => None end
  end.
(** ltsteps.py:178-218 [LTSpiceExport]: dataset; None: an exception *)
Definition read_export (file : list str) : option (columns V) :=
  match file with
  | [] => Some []
  | h :: ls => option_map e_data (exp_lines (split_on TABc h) ls (EState true [] []))
  end.
End Export.
