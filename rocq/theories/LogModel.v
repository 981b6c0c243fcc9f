(** Model of spicelib/log/logfile_data.py (split_line_into_values, LogfileData) and of the readers of
    spicelib/log/ltsteps.py (LTSpiceLogReader: steps and measurement tables; LTSpiceExport). *)
From Coq Require Import String Ascii List Bool Arith QArith.
From Verif Require Import PyStr StepsModel.
Import ListNotations.
Local Open Scope string_scope.
Local Open Scope nat_scope.
Local Open Scope list_scope.

(** * split_line_into_values *)
(** A value: what try_convert_value returns for a text, None, or a list. *)
Inductive val (V : Type) := VText (v : V) | VNone | VList (l : list (val V)).
Arguments VText {V}. Arguments VNone {V}. Arguments VList {V}.

Definition closer (c : ascii) : option ascii :=
  if aeqb c "(" then Some ")"%char else if aeqb c "[" then Some "]"%char else if aeqb c "{" then Some "}"%char else None.
Definition is_blank (c : ascii) : bool :=
  aeqb c " " || aeqb c "009" || aeqb c "013" || aeqb c "010".
Definition is_comma (c : ascii) : bool := aeqb c "," || aeqb c ";".

Section Split.
Context {V : Type} (conv : str -> V).

(** logfile_data.py:114-137, the for loop: [stack] is parenthesis, [cur] is line[value_start:i], [vals] is
    values; [inner] is the recursive call.  None: ValueError. *)
Fixpoint split_loop (inner : str -> option (list (val V))) (stack : list ascii) (cur : str) (vals : list (val V))
    (rest : str) : option (list (val V)) :=
  match rest with
  | [] =>                                     (* logfile_data.py:138-143 *)
      match stack with
      | [] => Some (match cur with [] => vals | _ => vals ++ [VText (conv cur)] end)
      | _ => None
      end
  | c :: r =>
      match closer c with
      | Some p => split_loop inner (p :: stack) (cur ++ [c]) vals r
      | None =>
          match stack with
          | p :: stack' =>
              if aeqb c p then
                match stack' with
                | [] =>
                    match inner (tl cur) with
                    | Some l => split_loop inner [] [] (vals ++ [VList l]) r
                    | None => None
                    end
                | _ => split_loop inner stack' (cur ++ [c]) vals r
                end
              else split_loop inner stack (cur ++ [c]) vals r
          | [] =>
              if is_blank c then
                split_loop inner [] [] (match cur with [] => vals | _ => vals ++ [VText (conv cur)] end) r
              else if is_comma c then
                split_loop inner [] [] (vals ++ [match cur with [] => VNone | _ => VText (conv cur) end]) r
              else split_loop inner [] (cur ++ [c]) vals r
          end
      end
  end.

(** logfile_data.py:104-143 [split_line_into_values]; the recursion is on shorter texts, [fuel] bounds its
    depth.  On an empty line the index i is 0 after the loop, and "" is converted. *)
Fixpoint split_fuel (fuel : nat) (line : str) : option (list (val V)) :=
  match fuel with
  | O => None
  | S f => match line with
           | [] => Some [VText (conv [])]
           | _ => split_loop (split_fuel f) [] [] [] line
           end
  end.
Definition split_line (line : str) : option (list (val V)) := split_fuel (S (length line)) line.
End Split.

(** * LogfileData *)
Section Data.
Context {V : Type} (veqb : V -> V -> bool) (conv : V -> V).   (* "==" and try_convert_value *)
Definition columns := list (str * list V).
Record logdata := LogData { stepset : columns; dataset : columns }.

Fixpoint indices_eq (v : V) (i : nat) (l : list V) : list nat :=
  match l with [] => [] | a :: l' => if veqb a v then i :: indices_eq v (S i) l' else indices_eq v (S i) l' end.

(** logfile_data.py:191-209 [steps_with_parameter_equal_to]; None: IndexError. *)
Definition steps_equal (d : logdata) (p : str) (v : V) : option (list nat) :=
  match dget (lower p) (stepset d) with
  | Some c => Some (indices_eq (conv v) 0 c)
  | None => match dget (lower p) (dataset d) with
            | Some c => Some (indices_eq (conv v) 0 c)
            | None => None
            end
  end.

(** logfile_data.py:211-228 [steps_with_conditions]; the outer None: IndexError; the inner None is Python's
    None, returned when there are no conditions. *)
Fixpoint conditions_loop (d : logdata) (conds : list (str * V)) (current : option (list nat)) : option (option (list nat)) :=
  match conds with
  | [] => Some current
  | (p, v) :: conds' =>
      match steps_equal d p v with
      | None => None
      | Some s => conditions_loop d conds'
          (Some (match current with None => s | Some c => filter (fun i => existsb (Nat.eqb i) s) c end))
      end
  end.
Definition steps_with_conditions (d : logdata) (conds : list (str * V)) : option (option (list nat)) :=
  conditions_loop d conds None.

Definition find_name (m : str) (c : columns) : option (list V) :=
  match find (fun e => str_eqb (lower (fst e)) (lower m)) c with Some (_, l) => Some l | None => None end.

(** logfile_data.py:244-278 [get_measure_value] with step=None and conditions; None: an exception. *)
Definition get_measure_value_where (d : logdata) (m : str) (conds : list (str * V)) : option V :=
  match find_name m (dataset d) with
  | None => None
  | Some col =>
      match steps_with_conditions d conds with
      | Some (Some [s]) => nth_error col s
      | _ => None
      end
  end.
(** The same with a step number. *)
Definition get_measure_value_at (d : logdata) (m : str) (step : nat) : option V :=
  match find_name m (dataset d) with None => None | Some col => nth_error col step end.
End Data.
Arguments logdata : clear implicits.
Arguments columns : clear implicits.

(** ** Statistics, over exact rationals *)
Inductive steps_arg := AllSteps | OneStep (i : nat) | Steps (l : list nat).
Inductive got := GotList (l : list Q) | GotOne (q : Q).

Fixpoint map_opt {A B} (f : A -> option B) (l : list A) : option (list B) :=
  match l with
  | [] => Some []
  | a :: l' => match f a, map_opt f l' with Some b, Some r => Some (b :: r) | _, _ => None end
  end.

(** logfile_data.py:280-295 [get_measure_values_at_steps]. *)
Definition values_at (d : logdata Q) (m : str) (s : steps_arg) : option got :=
  match dget (lower m) (dataset d) with
  | None => None
  | Some col =>
      match s with
      | AllSteps => Some (GotList col)
      | OneStep i => option_map GotOne (nth_error col i)
      | Steps l => option_map GotList (map_opt (nth_error col) l)
      end
  end.

(** Python's max and min: the first of the largest (smallest) items; an error on an empty list. *)
Definition py_max (l : list Q) : option Q :=
  match l with [] => None | x :: r => Some (fold_left (fun m y => if Qle_bool y m then m else y) r x) end.
Definition py_min (l : list Q) : option Q :=
  match l with [] => None | x :: r => Some (fold_left (fun m y => if Qle_bool m y then m else y) r x) end.

(** logfile_data.py:297-338 [max_measure_value], [min_measure_value], [avg_measure_value]; None: an
    exception (max(), min(), sum() of a single number raise TypeError). *)
Definition on_list (f : list Q -> option Q) (g : option got) : option Q :=
  match g with Some (GotList l) => f l | _ => None end.
Definition max_value (d : logdata Q) (m : str) (s : steps_arg) := on_list py_max (values_at d m s).
Definition min_value (d : logdata Q) (m : str) (s : steps_arg) := on_list py_min (values_at d m s).
Definition py_avg (l : list Q) : option Q :=
  match l with [] => None | _ => Some (fold_left Qplus l 0 / inject_Z (Z.of_nat (length l)))%Q end.
Definition avg_value (d : logdata Q) (m : str) (s : steps_arg) := on_list py_avg (values_at d m s).

(** * LTSpiceLogReader *)
Section Reader.
Context {V : Type} (conv : str -> V) (is_int : str -> bool).   (* try_convert_value; int() succeeds *)
Definition is_nl (c : ascii) : bool := aeqb c "013" || aeqb c "010".

(** ltsteps.py:371-386: the items of a ".step" line; None: ValueError. *)
Fixpoint add_items (toks : list str) (s : columns V) : option (columns V) :=
  match toks with
  | [] => Some s
  | t :: toks' =>
      if negb (mem_c "=" t) then add_items toks' s
      else match split_on "=" t with
           | [lhs; rhs] =>
               let k := lower lhs in
               add_items toks' (dset k (match dget k s with Some (x :: l) => (x :: l) ++ [conv rhs] | _ => [conv rhs] end) s)
           | _ => None
           end
  end.
(** ltsteps.py:325-395, the first loop, for the lines that are .step lines or "Measurement:" lines (the
    Fourier tables and the measurements of unstepped simulations are in LtlogModel); the result is the step
    columns and the remaining lines. *)
Fixpoint read_steps (ls : list str) (s : columns V) : option (columns V * list str) :=
  match ls with
  | [] => Some (s, [])
  | l :: ls' =>
      if startswith (s2l ".step") l then
        match add_items (tl (split_on " " (strip_if is_nl l))) s with
        | Some s' => read_steps ls' s'
        | None => None
        end
      else if startswith (s2l "Measurement:") l then Some (s, l :: ls')
      else read_steps ls' s
  end.

Record mstate := MState { m_name : option str; m_headers : list str; m_rows : list (list V); m_data : columns V }.

(** self.dataset[title.lower()] = [measure[k] for measure in measurements] for k, title in enumerate(headers) *)
Fixpoint store (k : nat) (headers : list str) (rows : list (list V)) (d : columns V) : option (columns V) :=
  match headers with
  | [] => Some d
  | t :: hs =>
      match map_opt (fun r => nth_error r k) rows with
      | None => None
      | Some col => store (S k) hs rows (dset (lower t) col d)
      end
  end.

Definition set_nth {A} (k : nat) (x : A) (l : list A) : list A := match upd k x l with Some r => r | None => l end.

(** ltsteps.py:444-448: the titles of a table. *)
Definition header_titles (name : str) (toks : list str) : list str :=
  let t2 := nth_error toks 2 in
  let toks1 := match t2 with
               | Some x => if str_eqb x (s2l "FROM") || str_eqb x (s2l "at") then set_nth 2 (name ++ s2l "_" ++ x) toks else toks
               | None => toks
               end in
  let toks2 := match nth_error toks1 3 with
               | Some x => if str_eqb x (s2l "TO") then set_nth 3 (name ++ s2l "_TO") toks1 else toks1
               | None => toks1
               end in
  name :: skipn 2 toks2.

(** ltsteps.py:422-451, the body of the second loop on one line; None: an exception. *)
Definition meas_line (l0 : str) (st : mstate) : option mstate :=
  let l := strip_if is_nl l0 in
  if startswith (s2l "Measurement: ") l then
    let name := Some (skipn 13 l) in
    match m_name st with
    | Some (_ :: _) =>
        match m_rows st with
        | [] => Some (MState name [] [] (m_data st))
        | _ => match store 0 (m_headers st) (m_rows st) (m_data st) with
               | Some d => Some (MState name [] [] d)
               | None => None
               end
        end
    | _ => Some (MState name (m_headers st) (m_rows st) (m_data st))
    end
  else
    let toks := split_on "009" l in
    if 2 <=? length toks then
      match toks with
      | t0 :: meas =>
          if is_int t0 then Some (MState (m_name st) (m_headers st) (m_rows st ++ [map conv meas]) (m_data st))
          else match m_name st with
               | Some n => Some (MState (m_name st) (header_titles n toks) [] (m_data st))
               | None => None                       (* [None] + ...: not reached, the loop starts at a table *)
               end
      | [] => Some st
      end
    else Some st.
Fixpoint meas_lines (ls : list str) (st : mstate) : option mstate :=
  match ls with
  | [] => Some st
  | l :: ls' => match meas_line l st with Some st' => meas_lines ls' st' | None => None end
  end.
(** ltsteps.py:417-461. *)
Definition read_tables (ls : list str) (d : columns V) : option (columns V) :=
  match meas_lines ls (MState None [] [] d) with
  | None => None
  | Some st => match m_rows st with [] => Some (m_data st) | _ => store 0 (m_headers st) (m_rows st) (m_data st) end
  end.
Definition read_log (ls : list str) : option (logdata V) :=
  match read_steps ls [] with
  | None => None
  | Some (s, rest) => match read_tables rest [] with Some d => Some (LogData s d) | None => None end
  end.

(** ltsteps.py:178-218 [LTSpiceExport] on a file without "Step Information:" lines: the lists of the
    columns are only created by such a line.  None: KeyError. *)
Fixpoint append_values (headers vals : list str) (d : columns V) : option (columns V) :=
  match vals with
  | [] => Some d
  | v :: vals' =>
      match headers with
      | [] => None
      | h :: hs => match dget (lower h) d with
                   | None => None
                   | Some l => append_values hs vals' (dset (lower h) (l ++ [conv v]) d)
                   end
      end
  end.
Fixpoint export_lines (headers : list str) (ls : list str) (d : columns V) : option (columns V) :=
  match ls with
  | [] => Some d
  | l :: ls' => match append_values headers (split_on "009" l) d with Some d' => export_lines headers ls' d' | None => None end
  end.
Definition read_export_unstepped (ls : list str) : option (columns V) :=
  match ls with
  | [] => Some []
  | h :: ls' => export_lines (split_on "009" h) ls' []
  end.
End Reader.
