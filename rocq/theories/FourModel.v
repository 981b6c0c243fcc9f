(** Model of the export of Fourier analyses (spicelib/log/ltsteps.py:466-539, LTSpiceLogReader.export_data).  Not modelled: the export of
    the data set, which comes first (ColModel), and opening the file; the texts of values in f-strings are arbitrary functions of the values. *)
From Coq Require Import String Ascii List Bool Arith.
From Verif Require Import PyStr Regex StepsModel LogModel CompModel LtlogModel.
Import ListNotations.
Local Open Scope string_scope. Local Open Scope nat_scope. Local Open Scope list_scope.

Section Export.
(** f"{x}" of a value of a step, of a float, of an int; f < 1; f == -1 *)
Context {V F N : Type} (showv : V -> str) (showf : F -> str) (shown : N -> str) (below1 minus1 : F -> bool).

Definition TB : str := ["009"%char]. Definition NL1 : str := ["010"%char].
Definition tabbed (l : list str) : str := join TB l.
(** ltsteps.py:483-486; -1 and the initial 0 are below 1 *)
Definition periods_stepped (p : @periods F) : str :=
  match p with AllPeriods => s2l "all" | NoPeriods => s2l "all" | Periods f => if below1 f then s2l "all" else showf f end.
(** ltsteps.py:496-499 *)
Definition periods_plain (p : @periods F) : str :=
  match p with AllPeriods => s2l "all" | NoPeriods => s2l "0" | Periods f => if minus1 f then s2l "all" else showf f end.
(** ltsteps.py:520, 531: the number as it is *)
Definition periods_raw (p : @periods F) : str := match p with AllPeriods => s2l "-1" | NoPeriods => s2l "0" | Periods f => showf f end.
Definition show_signal (s : option str) : str := match s with Some x => x | None => s2l "None" end.
Definition show_dc (d : option F) : str := match d with Some x => showf x | None => s2l "0" end.
Definition show_opt (d : option F) : str := match d with Some x => showf x | None => s2l "None" end.

(** ltsteps.py:487-493, 500-506 with 253-255, 263-264; None: IndexError of [fundamental] *)
Definition summary_row (signal : option str) (ptext : str) (a : @fourier F N) : option str :=
  match f_harmonics a with
  | [] => None
  | h :: _ => Some (show_signal signal ++ TB ++ ptext ++ TB ++ show_dc (f_dc a) ++ TB ++ showf (h_frequency h) ++ TB ++ dec (length (f_harmonics a)) ++ TB ++
                    show_opt (f_phd a) ++ TB ++ show_opt (f_thd a) ++ NL1)
  end.
(** ltsteps.py:479, 515; None: IndexError *)
Fixpoint step_values (steps : columns V) (n : nat) : option (list str) :=
  match steps with
  | [] => Some []
  | (_, l) :: steps' => match nth_error l n, step_values steps' n with Some v, Some r => Some (showv v :: r) | _, _ => None end
  end.
Fixpoint cat_opts (l : list (option str)) : option str :=
  match l with
  | [] => Some []
  | x :: l' => match x, cat_opts l' with Some a, Some b => Some (a ++ b) | _, _ => None end
  end.
Definition at_step (a : @fourier F N) (n : nat) : bool := match f_step a with Some k => k =? n | None => false end.
(** ltsteps.py:476-506, one signal *)
Definition summary_signal (steps : columns V) (count : nat) (e : option str * list (@fourier F N)) : option str :=
  match count with
  | 0 => cat_opts (map (fun a => summary_row (fst e) (periods_plain (f_periods a)) a) (snd e))
  | _ => cat_opts (map (fun n => match step_values steps n with
                                 | None => None
                                 | Some vals => cat_opts (map (fun a => if at_step a n then option_map (fun r => tabbed vals ++ TB ++ r) (summary_row (fst e) (periods_stepped (f_periods a)) a)
                                                                        else Some []) (snd e))
                                 end) (seq 0 count))
  end.
(** ltsteps.py:518-527, 530-538 *)
Definition harmonic_row (signal : option str) (a : @fourier F N) (h : @harmonic F N) : str :=
  show_signal signal ++ TB ++ periods_raw (f_periods a) ++ TB ++ shown (h_number h) ++ TB ++ showf (h_frequency h) ++ TB ++ showf (h_component h) ++ TB ++
  showf (h_normalized h) ++ TB ++ showf (h_phase h) ++ TB ++ showf (h_nphase h) ++ NL1.
(** ltsteps.py:511-538, one signal *)
Definition harmonic_signal (steps : columns V) (count : nat) (e : option str * list (@fourier F N)) : option str :=
  cat_opts (map (fun a =>
    match count with
    | 0 => Some (concat (map (harmonic_row (fst e) a) (f_harmonics a)))
    | _ => cat_opts (map (fun n => if at_step a n
                                   then match step_values steps n with
                                        | None => None
                                        | Some vals => Some (concat (map (fun h => tabbed vals ++ TB ++ harmonic_row (fst e) a h) (f_harmonics a)))
                                        end
                                   else Some []) (seq 0 count))
    end) (snd e)).
(** ltsteps.py:470-539: the text of the file; None: an exception; Some None: no file *)
Definition export_fourier (log : @ltlog V F N) : option (option str) :=
  match t_fourier log with
  | [] => Some None
  | _ =>
      match cat_opts (map (summary_signal (t_steps log) (t_count log)) (t_fourier log)), cat_opts (map (harmonic_signal (t_steps log) (t_count log)) (t_fourier log)) with
      | Some s, Some h =>
          let names := tabbed (map fst (t_steps log)) ++ TB in
          Some (Some ((match t_count log with 0 => [] | _ => names end) ++ tabbed (map s2l ["Signal"; "N-Periods"; "DC Component"; "Fundamental"; "N-Harmonics"; "PHD"; "THD"]) ++ NL1 ++ s ++
                      NL1 ++ NL1 ++ s2l "Harmonic Analysis" ++ NL1 ++ names ++
                      tabbed (map s2l ["Signal"; "N-Periods"; "Harmonic"; "Frequency"; "Fourier"; "Normalized"; "Phase"; "Normalized"]) ++ NL1 ++ h ++ NL1))
      | _, _ => None
      end
  end.
End Export.
