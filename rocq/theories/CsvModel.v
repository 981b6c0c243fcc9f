(** Model of the stepping table: the values SimStepper records for every simulation
    (spicelib/sim/sim_stepping.py:90-136, 165-236) and their export to a CSV file (238-270), with
    the writer of Python's csv module as it is configured there. *)
From Coq Require Import String Ascii List Bool Arith.
From Verif Require Import PyStr StepperModel.
Import ListNotations.
Local Open Scope string_scope. Local Open Scope nat_scope. Local Open Scope list_scope.

(** A Python dict with text keys: assignment keeps the place of a key that is there. *)
Definition values : Type := list (string * value).

Fixpoint vset (k : string) (v : value) (d : values) : values :=
  match d with
  | [] => [(k, v)]
  | (k', v') :: r => if String.eqb k k' then (k', v) :: r else (k', v') :: vset k v r
  end.

Definition vget (d : values) (k : string) : option value :=
  match find (fun e => String.eqb k (fst e)) d with Some e => Some (snd e) | None => None end.

(** The same for [sim_info], with run numbers as keys. *)
Definition info : Type := list (nat * values).

Fixpoint iset (k : nat) (v : values) (d : info) : info :=
  match d with
  | [] => [(k, v)]
  | (k', v') :: r => if Nat.eqb k k' then (k', v) :: r else (k', v') :: iset k v r
  end.

(** sim_stepping.py:90-95.  What run_all works on (iterators, editor; StepperModel) and the two
    dictionaries [current_values] and [sim_info]. *)
Record stepper := Stepper { base : st; current_values : values; sim_info : info }.

(** What runner.run returns for the k-th simulation of the session: None when the simulation was refused
    (no task), otherwise the run number and the name of the netlist file. *)
Definition outcomes : Type := nat -> option (nat * string).

(** sim_stepping.py:227-231. *)
Definition record_run (o : option (nat * string)) (cv : values) (i : info) : info :=
  match o with
  | Some (runno, netlist_name) => iset runno (vset "netlist" (VText netlist_name) cv) i
  | None => i
  end.

(** One round of the loops of sim_stepping.py:199-233, with the recording of values (208) and
    simulations (227-231). *)
Definition rec_step (dims : list dim) (o : outcomes) (s : stepper) : option stepper :=
  match step dims (base s) with
  | None => None
  | Some b =>
      Some (match iter_no (base s) with
            | None => Stepper b (current_values s) (sim_info s)
            | Some i =>
                match nth_error dims i with
                | Some d =>
                    match nth i (iters (base s)) [] with
                    | [] => Stepper b (current_values s) (sim_info s)
                    | v :: _ => Stepper b (vset (snd (d_target d)) v (current_values s)) (sim_info s)
                    end
                | None => Stepper b (current_values s)
                            (record_run (o (List.length (runs (base s)))) (current_values s) (sim_info s))
                end
            end)
  end.

Fixpoint rec_loop (fuel : nat) (dims : list dim) (o : outcomes) (s : stepper) : option stepper :=
  match fuel with
  | O => None
  | S f => match rec_step dims o s with
           | None => Some s
           | Some s' => rec_loop f dims o s'
           end
  end.

(** sim_stepping.py:113-136: a value set before the sweeps is in [current_values] too;
    165-236: run_all on a stepper with these values and simulations recorded so far. *)
Definition run_steps (fuel : nat) (dims : list dim) (o : outcomes) (net0 : netlist) (cv : values)
    (i : info) : option stepper :=
  rec_loop fuel dims o (Stepper (St (Some 0) (map d_values dims) net0 []) cv i).

Definition DQ : ascii := Ascii.ascii_of_nat 34.
Definition CR : ascii := Ascii.ascii_of_nat 13.
Definition LF : ascii := Ascii.ascii_of_nat 10.

(** csv.writer with the double quote as quotechar, quotes inside doubled, and QUOTE_NONNUMERIC (sim_stepping.py:260-261):
    a field that is no number, or a number whose text has a special character, is quoted. *)
Definition special (d c : ascii) : bool := aeqb c d || aeqb c DQ || aeqb c CR || aeqb c LF.

Definition quoted (s : str) : str :=
  DQ :: flat_map (fun c => if aeqb c DQ then [DQ; DQ] else [c]) s ++ [DQ].

Definition field_text (d : ascii) (v : value) : str :=
  match v with
  | VText s => quoted (s2l s)
  | VNumber s => if existsb (special d) (s2l s) then quoted (s2l s) else s2l s
  end.

Fixpoint joined (d : ascii) (fs : list str) : str :=
  match fs with
  | [] => []
  | [f] => f
  | f :: r => f ++ d :: joined d r
  end.

Definition row_text (d : ascii) (fs : list value) : str := joined d (map (field_text d) fs) ++ [CR; LF].

(** csv.DictWriter.writerow: keys outside the field names are an error, missing ones are empty texts. *)
Definition dict_row (names : list string) (row : values) : option (list value) :=
  if forallb (fun e => existsb (String.eqb (fst e)) names) row
  then Some (map (fun k => match vget row k with Some v => v | None => VText "" end) names)
  else None.

(** 252-253: the run numbers in ascending order. *)
Fixpoint insert_run (e : nat * values) (l : info) : info :=
  match l with
  | [] => [e]
  | x :: r => if fst e <=? fst x then e :: x :: r else x :: insert_run e r
  end.
Definition sorted_runs (i : info) : info := fold_right insert_run [] i.

(** What an export does: a file, an IndexError before the file is opened, or a ValueError with the file
    written up to there. *)
Inductive exported := Written (f : str) | NoRuns | BadRow (f : str).

(** 268-269: the run number comes first, the values of the run are put over it. *)
Definition numbered (e : nat * values) : values :=
  fold_left (fun d kv => vset (fst kv) (snd kv) d) (snd e)
            [("runno", VNumber (string_of_list_ascii (dec (fst e))))].

Fixpoint write_rows (d : ascii) (names : list string) (l : info) (f : str) : exported :=
  match l with
  | [] => Written f
  | e :: r => match dict_row names (numbered e) with
              | Some cells => write_rows d names r (f ++ row_text d cells)
              | None => BadRow f
              end
  end.

(** sim_stepping.py:238-270 [export_step_info]. *)
Definition export_step_info (d : ascii) (i : info) : exported :=
  match sorted_runs i with
  | [] => NoRuns                                                      (* rows[0]: IndexError *)
  | (n, first) :: rest =>
      let names := "runno" :: map fst first in
      write_rows d names ((n, first) :: rest) (row_text d (map VText names))
  end.
