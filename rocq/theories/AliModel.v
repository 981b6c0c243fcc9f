(** Model of the alias traces of RAW files: spicelib/raw/plot_data.py:51-59 ([namify]), 196-206 (the lines ".param" and ".alias" of the header),
    545-550 ([get_trace_names]), 552-584 ([_compute_alias]) and 709-740 ([get_trace]).
    Simplifications: one point of the simulation is looked at: a trace is a name and its value there, a rational; numpy computes point by point.
    eval() reads formulas without blanks made of numbers, names, parentheses, + - * / and signs; any other text, an unknown name or a division
    by zero is an exception (numpy gives infinity for the latter).  casefold is [lower]; characters are those below U+0100. *)
From Coq Require Import String Ascii List Bool Arith ZArith QArith.
From Verif Require Import PyStr Regex StepsModel EngModel.
Import ListNotations.
Local Open Scope string_scope. Local Open Scope nat_scope. Local Open Scope list_scope.

(** re.sub for a pattern given by what it matches at the start of a text: the replacement and the rest. *)
Fixpoint sub_from (m : str -> option (str * str)) (fuel : nat) (s : str) : str :=
  match fuel, s with
  | S f, c :: r => match m s with Some (rep, rest) => rep ++ sub_from m f rest | None => c :: sub_from m f r end
  | _, _ => []
  end.
Definition sub (m : str -> option (str * str)) (s : str) : str := sub_from m (length s) s.

(** X\((\w+) followed by the text [close]; [Some (w, rest)] *)
Definition call1 (x : ascii) (close : str) (s : str) : option (str * str) :=
  match s with
  | c :: p :: r => if aeqb c x && aeqb p "(" then
                     match span is_word r with
                     | ([], _) => None
                     | (w, t) => if startswith close t then Some (w, skipn (length close) t) else None
                     end
                   else None
  | _ => None
  end.
(** plot_data.py:559 *)
Definition m_second_zero (s : str) : option (str * str) :=
  match call1 "V" (s2l ",0)") s with Some (w, t) => Some (s2l "V(" ++ w ++ s2l ")", t) | None => None end.
(** plot_data.py:560 *)
Definition m_first_zero (s : str) : option (str * str) :=
  if startswith (s2l "V(0,") s then
    match span is_word (skipn 4 s) with
    | ([], _) => None
    | (w, t) => if startswith (s2l ")") t then Some (s2l "(-V(" ++ w ++ s2l "))", skipn 1 t) else None
    end
  else None.
(** plot_data.py:561 *)
Definition m_difference (s : str) : option (str * str) :=
  match call1 "V" (s2l ",") s with
  | Some (a, t) =>
      match span is_word t with
      | ([], _) => None
      | (b, u) => if startswith (s2l ")") u then Some (s2l "(V(" ++ a ++ s2l ")-V(" ++ b ++ s2l "))", skipn 1 u) else None
      end
  | None => None
  end.
(** plot_data.py:565 *)
Definition m_name (s : str) : option (str * str) :=
  match s with
  | x :: _ => if mem_c x (s2l "VIP") then match call1 x (s2l ")") s with Some (w, t) => Some (x :: s2l "__" ++ w ++ s2l "__", t) | None => None end else None
  | [] => None
  end.
(** plot_data.py:568 *)
Definition m_unit (s : str) : option (str * str) :=
  match span is_digit s with
  | ([], _) => None
  | (ds, t) => if startswith (s2l "mho") t || startswith (s2l "ohm") t then Some (ds, skipn 3 t) else None
  end.

(** plot_data.py:51-59; None: NotImplementedError *)
Definition namify (n : str) : option str :=
  if existsb (str_eqb (lower n)) [s2l "time"; s2l "frequency"] then Some n
  else match m_name n with Some (v, _) => Some v | None => None end.

(** [var.name in formula] *)
Fixpoint occurs (p s : str) : bool := startswith p s || match s with [] => false | _ :: r => occurs p r end.

(** ** eval *)
Definition keywords : list str :=
  map s2l ["False"; "None"; "True"; "and"; "as"; "assert"; "async"; "await"; "break"; "class"; "continue"; "def"; "del"; "elif"; "else"; "except";
           "finally"; "for"; "from"; "global"; "if"; "import"; "in"; "is"; "lambda"; "nonlocal"; "not"; "or"; "pass"; "raise"; "return"; "try";
           "while"; "with"; "yield"].
(** A number at the start of the text: digits, point, digits, exponent. *)
Definition read_exponent (s : str) : option (bool * str * str) :=
  match s with
  | e :: r => if aeqb e "e" || aeqb e "E" then
                let '(neg, r1) := signed r in
                match span is_digit r1 with ([], _) => None | (x, t) => Some (neg, x, t) end
              else None
  | [] => None
  end.
Definition read_number (s : str) : option (Q * str) :=
  let '(a, r) := span is_digit s in
  let '(b, r2) := fraction r in
  match a ++ b with
  | [] => None
  | _ =>
      let q := (inject_Z (number (a ++ b)) * Qpower 10 (- Z.of_nat (length b)))%Q in
      match read_exponent r2 with
      | Some (neg, x, t) => Some ((q * Qpower 10 (if neg then - number x else number x))%Q, t)
      | None => if startswith (s2l ".") r then Some (q, r2)
                else if startswith (s2l "0") a && negb (number a =? 0)%Z then None                  (* SyntaxError: leading zeros *)
                else Some (q, r2)
      end
  end.
Section Eval.
Variable env : str -> option Q.
Fixpoint p_sum (f : nat) (s : str) : option (Q * str) :=
  match f with 0 => None | S f => match p_term f s with Some (v, r) => l_sum f v r | None => None end end
with l_sum (f : nat) (v : Q) (s : str) : option (Q * str) :=
  match f with
  | 0 => None
  | S f =>
      match s with
      | c :: r =>
          if aeqb c "+" then match p_term f r with Some (w, r') => l_sum f (v + w)%Q r' | None => None end
          else if aeqb c "-" then match p_term f r with Some (w, r') => l_sum f (v - w)%Q r' | None => None end
          else Some (v, s)
      | [] => Some (v, s)
      end
  end
with p_term (f : nat) (s : str) : option (Q * str) :=
  match f with 0 => None | S f => match p_unary f s with Some (v, r) => l_term f v r | None => None end end
with l_term (f : nat) (v : Q) (s : str) : option (Q * str) :=
  match f with
  | 0 => None
  | S f =>
      match s with
      | c :: r =>
          if aeqb c "*" then match p_unary f r with Some (w, r') => l_term f (v * w)%Q r' | None => None end
          else if aeqb c "/" then
            match p_unary f r with Some (w, r') => if Qeq_bool w 0 then None else l_term f (v / w)%Q r' | None => None end
          else Some (v, s)
      | [] => Some (v, s)
      end
  end
with p_unary (f : nat) (s : str) : option (Q * str) :=
  match f with
  | 0 => None
  | S f =>
      match s with
      | c :: r =>
          if aeqb c "-" then match p_unary f r with Some (w, r') => Some ((- w)%Q, r') | None => None end
          else if aeqb c "+" then p_unary f r
          else p_atom f s
      | [] => None
      end
  end
with p_atom (f : nat) (s : str) : option (Q * str) :=
  match f with
  | 0 => None
  | S f =>
      match s with
      | c :: r =>
          if aeqb c "(" then
            match p_sum f r with
            | Some (v, d :: r') => if aeqb d ")" then Some (v, r') else None
            | _ => None
            end
          else if is_digit c || aeqb c "." then read_number s
          else match span is_word s with
               | ([], _) => None
               | (w, t) => if existsb (str_eqb w) keywords then None else match env w with Some v => Some (v, t) | None => None end
               end
      | [] => None
      end
  end.
Definition py_eval (s : str) : option Q :=
  match p_sum (4 * length s + 4) s with Some (v, []) => Some v | _ => None end.
End Eval.

(** ** The header *)
(** plot_data.py:139-140: _spice_params, _aliases *)
Record dots := Dots { d_params : list (str * str); d_aliases : list (str * str) }.
(** str.partition(c): what stands before and behind *)
Fixpoint cut_at (c : ascii) (s : str) : str * str :=
  match s with [] => ([], []) | x :: r => if aeqb x c then ([], r) else let '(a, b) := cut_at c r in (x :: a, b) end.
(** plot_data.py:197-206, for a line with a dot; None: ValueError *)
Definition dot_line (line : str) (d : dots) : option dots :=
  if startswith (s2l ".param") line then
    let '(k, v) := cut_at "=" (skipn 6 line) in Some (Dots (dset (strip k) (strip v) (d_params d)) (d_aliases d))
  else if startswith (s2l ".alias") line then
    match split_on " " line with
    | [_; alias; formula] => Some (Dots (d_params d) (dset (strip alias) (strip formula) (d_aliases d)))
    | _ => None
    end
  else Some d.
Fixpoint dot_lines (ls : list str) (d : dots) : option dots :=
  match ls with
  | [] => Some d
  | l :: r => if startswith (s2l ".") l then match dot_line l d with Some d' => dot_lines r d' | None => None end else dot_lines r d
  end.

(** ** Traces *)
Inductive what := Current | Voltage.
Fixpoint all_some {A B} (f : A -> option B) (l : list A) : option (list B) :=
  match l with [] => Some [] | x :: r => match f x, all_some f r with Some y, Some t => Some (y :: t) | _, _ => None end end.
(** plot_data.py:557-568: the formula before and after the names of the traces are replaced *)
Definition differences (formula : str) : str := sub m_difference (sub m_first_zero (sub m_second_zero formula)).
Definition python_formula (formula : str) : str := sub m_unit (sub m_name (differences formula)).
(** plot_data.py:552-584; None: an exception *)
Definition compute_alias (params : list (str * str)) (traces : list (str * Q)) (alias formula : str) : option (what * Q) :=
  match (if startswith (s2l "I(") alias then Some Current else if startswith (s2l "V(") alias then Some Voltage else None) with
  | None => None
  | Some wt =>
      let used := filter (fun t => occurs (fst t) (differences formula)) traces in
      match all_some (fun p => match scan_eng (snd p) with Some q => Some (fst p, q) | None => None end) params,
            all_some (fun t => match namify (fst t) with Some n => Some (n, snd t) | None => None end) used with
      | Some ps, Some ts =>
          let vars := fold_left (fun d p => dset (fst p) (snd p) d) (ps ++ ts)
                        [(s2l "pi", 31415926536 # 10000000000); (s2l "e", 27182818285 # 10000000000)] in
          match py_eval (fun n => dget n vars) (python_formula formula) with Some v => Some (wt, v) | None => None end
      | _, _ => None
      end
  end.
(** plot_data.py:709-740 after reading a file with these lines and traces: the value of a trace; None: an exception *)
Definition get_value (header : list str) (traces : list (str * Q)) (name : str) : option Q :=
  match dot_lines header (Dots [] []) with
  | None => None
  | Some d =>
      match dget name traces with
      | Some v => Some v
      | None =>
          match find (fun t => str_eqb (lower (fst t)) (lower name)) traces with
          | Some (_, v) => Some v
          | None =>
              match find (fun a => str_eqb (lower (fst a)) (lower name)) (d_aliases d) with
              | Some (a, f) => option_map snd (compute_alias (d_params d) traces a f)
              | None => None
              end
          end
      end
  end.
