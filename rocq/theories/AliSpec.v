(** What the alias traces of a RAW file are: formulas over the traces of the file, and their values at a point. *)
From Coq Require Import String Ascii List Bool Arith ZArith QArith.
From Verif Require Import PyStr.
Import ListNotations.
Local Open Scope string_scope. Local Open Scope nat_scope. Local Open Scope list_scope.

Inductive unit_ := NoUnit | Mho | Ohm.
Inductive op := Plus | Minus | Times | Over.
(** A formula as QSPICE writes it: a number (the digits before and behind the point, an exponent with its sign, a unit), a parameter or
    constant, the sweep variable, a voltage, current or power trace X(name), the difference V(a,b), V(a,0), V(0,b). *)
Inductive formula :=
  | Num (a b : str) (ex : option (bool * str)) (u : unit_)
  | Par (p : str)
  | Sweep (n : str)
  | Tr (x : ascii) (a : str)
  | Diff (a b : str)
  | ToGround (a : str)
  | FromGround (b : str)
  | Neg (e : formula)
  | Group (e : formula)
  | Bin (o : op) (e1 e2 : formula).

(** ** How it is written *)
Definition sign_text (neg : bool) : str := if neg then ["-"%char] else ["+"%char].
Definition num_text (a b : str) (ex : option (bool * str)) : str :=
  a ++ match b with [] => [] | _ => "."%char :: b end ++ match ex with None => [] | Some (neg, x) => "e"%char :: sign_text neg ++ x end.
Definition unit_text (u : unit_) : str := match u with NoUnit => [] | Mho => s2l "mho" | Ohm => s2l "ohm" end.
Definition op_text (o : op) : ascii := match o with Plus => "+" | Minus => "-" | Times => "*" | Over => "/" end%char.
Definition trace_text (x : ascii) (a : str) : str := x :: s2l "(" ++ a ++ s2l ")".
Fixpoint text (e : formula) : str :=
  match e with
  | Num a b ex u => num_text a b ex ++ unit_text u
  | Par p => p
  | Sweep n => n
  | Tr x a => trace_text x a
  | Diff a b => s2l "V(" ++ a ++ s2l "," ++ b ++ s2l ")"
  | ToGround a => s2l "V(" ++ a ++ s2l ",0)"
  | FromGround b => s2l "V(0," ++ b ++ s2l ")"
  | Neg e => "-"%char :: text e
  | Group e => s2l "(" ++ text e ++ s2l ")"
  | Bin o e1 e2 => text e1 ++ op_text o :: text e2
  end.

(** ** What it is worth: [tv] the values of the traces, [pv] those of parameters and constants; None: undefined *)
Definition dig_value (c : ascii) : Z := (Z.of_nat (nat_of_ascii c) - 48)%Z.
Definition dec_number (ds : str) : Z := fold_left (fun a c => 10 * a + dig_value c)%Z ds 0%Z.
Definition num_value (a b : str) (ex : option (bool * str)) : Q :=
  let q := (inject_Z (dec_number (a ++ b)) * Qpower 10 (- Z.of_nat (length b)))%Q in
  match ex with None => q | Some (neg, x) => (q * Qpower 10 (if neg then - dec_number x else dec_number x))%Q end.
Definition lift2 (f : Q -> Q -> option Q) (x y : option Q) : option Q := match x, y with Some a, Some b => f a b | _, _ => None end.
Definition compute (o : op) (x y : Q) : option Q :=
  match o with
  | Plus => Some (x + y)%Q
  | Minus => Some (x - y)%Q
  | Times => Some (x * y)%Q
  | Over => if Qeq_bool y 0 then None else Some (x / y)%Q
  end.
Section Value.
Variables (tv pv : str -> option Q).
Fixpoint value (e : formula) : option Q :=
  match e with
  | Num a b ex _ => Some (num_value a b ex)
  | Par p => pv p
  | Sweep n => tv n
  | Tr x a => tv (trace_text x a)
  | Diff a b => lift2 (compute Minus) (tv (trace_text "V" a)) (tv (trace_text "V" b))
  | ToGround a => tv (trace_text "V" a)
  | FromGround b => option_map Qopp (tv (trace_text "V" b))
  | Neg e => option_map Qopp (value e)
  | Group e => value e
  | Bin o e1 e2 => lift2 (compute o) (value e1) (value e2)
  end.
End Value.

(** ** Which formulas *)
Definition letter (c : ascii) : bool := is_upper c || is_lower c || aeqb c "_".
Definition plain (a : str) : Prop := a <> [] /\ forallb (fun c => letter c || is_digit c) a = true.
(** No digit is followed by a unit inside of the name. *)
Definition no_unit (a : str) : Prop := forall l d r, a = l ++ d :: r -> is_digit d = true -> startswith (s2l "mho") r = false /\ startswith (s2l "ohm") r = false.
Definition node (a : str) : Prop := plain a /\ no_unit a.
Definition digits_ (a : str) : Prop := a <> [] /\ forallb is_digit a = true.
Definition is_sweep (n : str) : Prop := lower n = s2l "time" \/ lower n = s2l "frequency".
Definition not_a_name : list str :=
  map s2l ["False"; "None"; "True"; "and"; "as"; "assert"; "async"; "await"; "break"; "class"; "continue"; "def"; "del"; "elif"; "else"; "except";
           "finally"; "for"; "from"; "global"; "if"; "import"; "in"; "is"; "lambda"; "nonlocal"; "not"; "or"; "pass"; "raise"; "return"; "try";
           "while"; "with"; "yield"].
(** How strongly the formula binds: 0 sums, 1 products, 2 signs, 3 the others. *)
Definition strength (e : formula) : nat :=
  match e with
  | Bin Plus _ _ | Bin Minus _ _ => 0
  | Bin _ _ _ => 1
  | Neg _ => 2
  | _ => 3
  end.
Fixpoint written (e : formula) : Prop :=
  match e with
  | Num a b ex _ =>
      digits_ a /\ forallb is_digit b = true /\ (match ex with Some (_, x) => digits_ x | None => b = [] -> a = s2l "0" \/ startswith (s2l "0") a = false end)
  | Par p => node p /\ match p with c :: _ => is_digit c = false | [] => False end /\ ~ In p not_a_name /\
             ~ is_sweep p /\ (forall x a, p <> x :: s2l "__" ++ a ++ s2l "__")
  | Sweep n => is_sweep n
  | Tr x a => In x (s2l "VIP") /\ node a
  | Diff a b => node a /\ node b /\ a <> s2l "0" /\ b <> s2l "0"
  | ToGround a => node a /\ a <> s2l "0"
  | FromGround b => node b /\ b <> s2l "0"
  | Neg e => written e /\ 2 <= strength e
  | Group e => written e
  | Bin o e1 e2 =>
      written e1 /\ written e2 /\
      match o with Plus | Minus => 1 <= strength e2 | _ => 1 <= strength e1 /\ 2 <= strength e2 end
  end.

(** The names of traces for which aliases work when they stand in a formula. *)
Definition plain_trace (n : str) : Prop := is_sweep n \/ exists x a, In x (s2l "VIP") /\ plain a /\ n = trace_text x a.
(** A name with this character stands in no such formula. *)
Definition foreign (c : ascii) : bool := negb (letter c || is_digit c || mem_c c (s2l "()+-*/.,")).

Definition look {A} (k : str) (l : list (str * A)) : option A := option_map snd (find (fun e => str_eqb (fst e) k) l).
Definition same_name (a b : str) : bool := str_eqb (lower a) (lower b).
Definition constants : list (str * Q) := [(s2l "pi", 31415926536 # 10000000000); (s2l "e", 27182818285 # 10000000000)].

(** ** The lines of the header that begin with a dot (and the others) *)
Inductive line := Param (k v : str) | Alias (n f : str) | Other (l : str).
Definition line_text (i : line) : str :=
  match i with
  | Param k v => s2l ".param " ++ k ++ s2l "=" ++ v
  | Alias n f => s2l ".alias " ++ n ++ s2l " " ++ f
  | Other l => l
  end.
Definition trimmed (s : str) : Prop := s <> [] /\ (forall c, In c s -> is_space c = false).
Definition line_ok (i : line) : Prop :=
  match i with
  | Param k v => trimmed k /\ ~ In "="%char k /\ trimmed v
  | Alias n f => trimmed n /\ trimmed f
  | Other l => startswith (s2l ".param") l = false /\ startswith (s2l ".alias") l = false
  end.
Definition params_of (h : list line) : list (str * str) := flat_map (fun i => match i with Param k v => [(k, v)] | _ => [] end) h.
Definition aliases_of (h : list line) : list (str * str) := flat_map (fun i => match i with Alias n f => [(n, f)] | _ => [] end) h.
(** Names that are not the same name pairwise. *)
Fixpoint distinct (l : list str) : Prop := match l with [] => True | n :: r => (forall k, In k r -> same_name n k = false) /\ distinct r end.
