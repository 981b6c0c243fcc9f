(** Model of spicelib/log/qspice_log_reader.py (QspiceLogReader): the steps of a log, the measurements of a .meas file.
    Not modelled: running QPOST (lines 100-137) and opening files; a file is the list of its lines, each with its line feed. *)
From Coq Require Import String Ascii List Bool Arith.
From Verif Require Import PyStr Regex StepsModel LogModel.
Import ListNotations.
Local Open Scope string_scope. Local Open Scope nat_scope. Local Open Scope list_scope.

Definition lits (t : string) : list re := map lit (s2l t).
Definition digits1 : re := Plus (Chr is_digit).                (* \d+ *)
Definition dots : re := Star true (Chr not_nl).               (* the rest of the line *)

(** qspice_log_reader.py:66: spaces, (digits), " of ", digits, " steps:", spaces, ".step ", (rest), end *)
Definition step_re : re :=
  seqs ([sp0; Grp 1 digits1] ++ lits " of " ++ [digits1] ++ lits " steps:" ++ [sp1] ++ lits ".step " ++ [Grp 2 dots; Eol]).
(** qspice_log_reader.py:148: ".meas ", (word), " ", (word), " ", (rest), end *)
Definition meas_re : re :=
  seqs (lits ".meas " ++ [Grp 1 word1] ++ lits " " ++ [Grp 2 word1] ++ lits " " ++ [Grp 3 dots; Eol]).

Section Reader.
Context {V : Type} (conv : str -> V).   (* try_convert_value *)

(** qspice_log_reader.py:71-94, the loop over the lines of the log: step_count and stepset; None: AssertionError or ValueError.
    The items (82-92) are treated as in ltsteps.py: [add_items].  int() of a text of digits: [undec]. *)
Fixpoint read_qsteps (ls : list str) (count : nat) (s : columns V) : option (nat * columns V) :=
  match ls with
  | [] => Some (count, s)
  | l :: ls' =>
      match re_match step_re l with
      | None => read_qsteps ls' count s
      | Some (_, c) =>
          match group 1 l c, group 2 l c with
          | Some g1, Some g2 =>
              match undec g1 with
              | Some n => if S count =? n
                          then match add_items conv (split_on " " (strip_if is_nl g2)) s with
                               | Some s' => read_qsteps ls' (S count) s'
                               | None => None
                               end
                          else None
              | None => None
              end
          | _, _ => None
          end
      end
  end.
(** qspice_log_reader.py:58-94 with logfile_data.py:152-167 (the constructor): with a step_set the count starts at the number of
    its variables. *)
Definition read_qlog (step_set : columns V) (ls : list str) : option (nat * columns V) := read_qsteps ls (length step_set) step_set.

Record qmeas := QMeas { q_name : option str; q_headers : option (list str); q_data : columns (val V); q_count : nat }.

(** qspice_log_reader.py:160: token1 in ('tran', 'ac', 'dc', 'op') *)
Definition sim_type (t : str) : bool := existsb (str_eqb t) [s2l "tran"; s2l "ac"; s2l "dc"; s2l "op"].

(** qspice_log_reader.py:172-177; None: IndexError *)
Definition qheaders (stepped : bool) (name : str) (n : nat) : option (list str) :=
  let num k := map (fun i => name ++ s2l "_" ++ dec i) (seq 0 k) in
  if stepped then upd 1 name (s2l "step" :: num (n - 1)) else upd 0 name (num n).

(** qspice_log_reader.py:182-183: append one value to each column; None: IndexError (a KeyError cannot occur, the columns exist) *)
Fixpoint append_row (k : nat) (headers : list str) (vals : list (val V)) (d : columns (val V)) : option (columns (val V)) :=
  match headers with
  | [] => Some d
  | t :: hs =>
      match dget (lower t) d, nth_error vals k with
      | Some col, Some v => append_row (S k) hs vals (dset (lower t) (col ++ [v]) d)
      | _, _ => None
      end
  end.

(** qspice_log_reader.py:154-184, one line; None: an exception *)
Definition qmeas_line (stepped : bool) (l : str) (st : qmeas) : option qmeas :=
  match re_match meas_re l with
  | Some (_, c) =>
      match group 1 l c, group 2 l c with
      | Some t1, Some t2 => Some (QMeas (Some (if sim_type t1 then t2 else t1)) None (q_data st) (q_count st))
      | _, _ => None
      end
  | None =>
      match q_name st with
      | None => Some st
      | Some name =>
          match split_line conv l with
          | None => None
          | Some vals =>
              match (match q_headers st with
                     | Some hs => Some (hs, q_data st)
                     | None => option_map (fun hs => (hs, fold_left (fun d t => dset (lower t) [] d) hs (q_data st))) (qheaders stepped name (length vals))
                     end) with
              | None => None
              | Some (hs, d) => option_map (fun d' => QMeas (Some name) (Some hs) d' (S (q_count st))) (append_row 0 hs vals d)
              end
          end
      end
  end.
Fixpoint qmeas_lines (stepped : bool) (ls : list str) (st : qmeas) : option qmeas :=
  match ls with [] => Some st | l :: ls' => match qmeas_line stepped l st with Some st' => qmeas_lines stepped ls' st' | None => None end end.
(** qspice_log_reader.py:139-184 [parse_meas_file]: dataset and measure_count *)
Definition parse_meas (stepped : bool) (ls : list str) (d : columns (val V)) : option (columns (val V) * nat) :=
  option_map (fun st => (q_data st, q_count st)) (qmeas_lines stepped ls (QMeas None None d (length d))).
End Reader.
