(** Model of the results of a toleranced analysis: spicelib/sim/tookit/tolerance_deviations.py, clear_simulation_data (95-99), add_log (229-252)
    and read_logfiles (254-279), with what they use of spicelib/sim/tookit/sim_analysis.py (61-63, 76-98, 170-216).
    Simplifications: a log is its columns (reading a log file is modelled in LogModel and LtlogModel); list objects shared between names
    are not modelled here (ColModel has them): nothing below adds to a list that another name shares, except add_log after a read that
    found a measurement "runm". *)
From Coq Require Import String Ascii List Bool Arith QArith Qround ZArith.
From Verif Require Import PyStr StepsModel LogModel.
Import ListNotations.
Local Open Scope string_scope. Local Open Scope nat_scope. Local Open Scope list_scope.

(** A value of a log: a number, a complex number (LTComplex), or a text. *)
Inductive value := Num (q : Q) | Cpx (re im : Q) | Txt (s : str).
(** Python's "==" on them. *)
Definition veq (a b : value) : bool :=
  match a, b with
  | Num x, Num y => Qeq_bool x y
  | Cpx x y, Cpx z w => Qeq_bool x z && Qeq_bool y w
  | Cpx x y, Num z | Num z, Cpx x y => Qeq_bool x z && Qeq_bool y 0
  | Txt s, Txt t => str_eqb s t
  | _, _ => false
  end.
(** Python's round of a number, half to even. *)
Definition round (q : Q) : Z :=
  let f := Qfloor q in
  if Qle_bool (q - inject_Z f) (1 # 2)
  then if Qeq_bool (q - inject_Z f) (1 # 2) then (if Z.even f then f else f + 1)%Z else f
  else (f + 1)%Z.
(** round(val.real); None: AttributeError (a text). *)
Definition round_real (v : value) : option value :=
  match v with Num q => Some (Num (inject_Z (round q))) | Cpx re _ => Some (Num (inject_Z (round re))) | Txt _ => None end.
Definition is_complex (v : value) : bool := match v with Cpx _ _ => true | _ => false end.

(** logfile_data.py:147-165 *)
Record lg := Lg { steps : columns value; data : columns value; count : nat }.
Definition no_log : lg := Lg [] [] 0.
Definition seen (l : lg) : logdata value := LogData (steps l) (data l).

(** sim_analysis.py:194-203: one column added to the columns collected. *)
Definition extend (cols : columns value) (pc : str * list value) : columns value :=
  match dget (fst pc) cols with
  | None => cols ++ [pc]
  | Some c => dset (fst pc) (c ++ snd pc) cols
  end.
(** sim_analysis.py:189-204 [add_log_data]; None: a log that could not be read. *)
Definition add_log_data (c : lg) (l : option lg) : lg :=
  match l with
  | None => c
  | Some l => Lg (fold_left extend (steps l) (steps c)) (fold_left extend (data l) (data c)) (count c + count l)
  end.

(** tolerance_deviations.py:235-248, 266-277: the column "run" made of the measurement [name], or else of the numbers from [start];
    None: an exception (a text among complex values; StopIteration without measurements). *)
Definition run_column (name : str) (start : option Q) (d : columns value) : option (list value) :=
  let auto := match d, start with
              | (_, c) :: _, Some q => Some (map (fun i => Num (q + inject_Z (Z.of_nat i))) (seq 0 (length c)))
              | _, _ => None
              end in
  match dget name d with
  | Some (x :: r) => if is_complex x then map_opt round_real (x :: r) else Some (x :: r)
  | _ => auto
  end.

(** The analysis: its simulations (each with what its log file holds, None if there is no log that can be read, and its return code),
    the log data, the results kept, and the two flags. *)
Record sim := Sim { s_log : option lg; s_code : Z }.
Record analysis := Analysis { a_sims : list sim; a_log : lg; a_kept : option lg; a_analysed : bool; a_bench : bool }.

(** sim_analysis.py:76-98 [run], with the simulation it gives. *)
Definition run (s : sim) (a : analysis) : analysis := Analysis (a_sims a ++ [s]) (a_log a) (a_kept a) (a_analysed a) (a_bench a).
(** tolerance_deviations.py:95-99, sim_analysis.py:61-63. *)
Definition clear (a : analysis) : analysis := Analysis [] (a_log a) None false (a_bench a).
(** worst_case.py:196, montecarlo.py:223, quick_sensitivity_analysis.py:184, fast_worst_case.py:187 *)
Definition finish (a : analysis) : analysis := Analysis (a_sims a) (a_log a) (a_kept a) true (a_bench a).

(** tolerance_deviations.py:254-279 [read_logfiles]; sim_analysis.py:206-216 is the fold.  None: an exception. *)
Definition read_logfiles (a : analysis) : option (analysis * lg) :=
  if negb (a_analysed a) && negb (a_bench a) then None
  else match a_kept a with
  | Some l => Some (a, l)
  | None =>
      let l := fold_left add_log_data (map s_log (a_sims a)) no_log in
      match steps l with
      | _ :: _ => Some (Analysis (a_sims a) l (Some l) (a_analysed a) (a_bench a), l)
      | [] =>
          match run_column (s2l "runm") (Some 0%Q) (data l) with
          | None => None
          | Some c => let l' := Lg [(s2l "run", c)] (data l) 1 in Some (Analysis (a_sims a) l' (Some l') (a_analysed a) (a_bench a), l')
          end
      end
  end.

(** tolerance_deviations.py:246: the number to start from; None: KeyError, IndexError or TypeError. *)
Definition next_run (l : lg) : option Q :=
  match steps l with
  | [] => Some 0%Q
  | _ => match dget (s2l "run") (steps l) with
         | Some c => match rev c with Num q :: _ => Some (q + 1)%Q | _ => None end
         | None => None
         end
  end.
(** tolerance_deviations.py:229-252 [add_log]: the log read, None if the simulation failed.  The outer None: an exception.
    The log data and the results kept are the same object. *)
Definition add_log (s : sim) (a : analysis) : option (analysis * option lg) :=
  if negb (s_code s =? 0)%Z then Some (a, None)
  else match s_log s with
  | None => None
  | Some l =>
      match (match steps l with
             | _ :: _ => Some l
             | [] => match run_column (s2l "run") (next_run (a_log a)) (data l) with
                     | Some c => Some (Lg [(s2l "run", c)] (data l) 1)
                     | None => None
                     end
             end) with
      | None => None
      | Some l' =>
          let c := add_log_data (a_log a) (Some l') in
          Some (Analysis (a_sims a) c (match a_kept a with Some _ => Some c | None => None end) (a_analysed a) (a_bench a), Some l')
      end
  end.
