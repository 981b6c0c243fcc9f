(** Model of the values of log files: spicelib/log/logfile_data.py:22-73 ([LTComplex]), 76-101 ([try_convert_value]) and 340-348
    ([obtain_amplitude_and_phase_from_complex_values]).
    Simplifications: floating-point numbers are real numbers; float() reads sign, digits, point, digits and exponent ("inf", "nan" and
    underscores are left out); texts are without characters above U+00FF. *)
From Coq Require Import String Ascii List Bool Arith ZArith QArith Qreals Reals.
From Verif Require Import PyStr StepsModel EngModel QTagModel PinModel.
Import ListNotations.
Local Open Scope string_scope. Local Open Scope nat_scope. Local Open Scope list_scope.

Definition degree : ascii := "176"%char.   (* U+00B0 *)
Definition line_feed : ascii := "010"%char.
(** The pattern of line 26: "(", as little as possible, "dB" if it is there, ","; as little as possible, the degree sign if it is there, ")".
    The text behind the parenthesis is not looked at. *)
Fixpoint mag_part (r : str) : option (str * bool * str) :=
  match r with
  | [] => None
  | c :: r' =>
      if startswith (s2l "dB,") r then Some ([], true, skipn 3 r)
      else if aeqb c "," then Some ([], false, r')
      else if aeqb c line_feed then None
      else match mag_part r' with Some (a, db, t) => Some (c :: a, db, t) | None => None end
  end.
Fixpoint ph_part (r : str) : option (str * bool) :=
  match r with
  | [] => None
  | c :: r' =>
      if startswith [degree; ")"%char] r then Some ([], true)
      else if aeqb c ")" then Some ([], false)
      else if aeqb c line_feed then None
      else match ph_part r' with Some (a, dg) => Some (c :: a, dg) | None => None end
  end.
Definition py_float (s : str) : option R := option_map Q2R (pyfloat (strip s)).
(** lines 28-42: real and imaginary part; None: ValueError *)
Definition ltcomplex (s : str) : option (R * R) :=
  match s with
  | c :: r =>
      if aeqb c "(" then
        match mag_part r with
        | Some (a, db, t) =>
            match ph_part t with
            | Some (p, degrees) =>
                match py_float a, py_float p with
                | Some mag, Some ph =>
                    (if degrees then
                       let mag := if db then Rpower 10 (mag / 20) else mag in
                       Some (mag * cos (PI * ph / 180), mag * sin (PI * ph / 180))
                     else Some (mag, ph))%R
                | _, _ => None
                end
            | None => None
            end
        | None => None
        end
      else None
  | [] => None
  end.
(** What a text is converted to. *)
Inductive value := VInt (z : Z) | VFloat (r : R) | VComplex (re im : R) (text : str) | VText (s : str).
(** lines 88-101, for a text *)
Definition try_convert (s : str) : value :=
  match py_int s with
  | Some z => VInt z
  | None => match py_float s with
            | Some r => VFloat r
            | None => match ltcomplex s with Some (re, im) => VComplex re im s | None => VText (strip s) end
            end
  end.
(** lines 50-62: mag, ph, mag_db (None: ValueError, the logarithm of 0) *)
Definition mag (re im : R) : R := sqrt (re ^ 2 + im ^ 2).
Definition ph (re im : R) : R := (atan2 im re * 180 / PI)%R.
Definition mag_db (re im : R) : option R := if Rlt_dec 0 (mag re im) then Some (20 * (ln (mag re im) / ln 10))%R else None.
(** lines 340-348; None: AttributeError (a value of the column is no LTComplex).  The columns: dict of lists. *)
Definition is_complex (v : value) : bool := match v with VComplex _ _ _ => true | _ => false end.
Definition as_complex (f : R -> R -> R) (v : value) : option value := match v with VComplex re im _ => Some (VFloat (f re im)) | _ => None end.
Fixpoint all_of {A B} (f : A -> option B) (l : list A) : option (list B) :=
  match l with [] => Some [] | x :: r => match f x, all_of f r with Some y, Some t => Some (y :: t) | _, _ => None end end.
Definition split_one (d : list (str * list value)) (param : str) : option (list (str * list value)) :=
  match dget param d with
  | Some ((v :: _) as col) =>
      if is_complex v then
        match all_of (as_complex mag) col with
        | Some mags => let d := dset (param ++ s2l "_mag") mags d in
                       match dget param d with
                       | Some col' => match all_of (as_complex ph) col' with Some phs => Some (dset (param ++ s2l "_ph") phs d) | None => None end
                       | None => None
                       end
        | None => None
        end
      else Some d
  | _ => Some d
  end.
Definition split_columns (d : list (str * list value)) : option (list (str * list value)) :=
  fold_left (fun acc param => match acc with Some d => split_one d param | None => None end) (map fst d) (Some d).
