(** Model of spicelib/utils/float_unit.py: [format_eng], [parse_value], [scan_eng].
    Simplifications: Python floats are exact rationals (no binary rounding, no overflow, no nan or signed zero);
    the logarithm of format_eng is exact; characters above 255 (the Greek mu and the ohm sign) are left out. *)
From Coq Require Import String Ascii List Bool Arith ZArith QArith Qround Qabs Lia.
From Verif Require Import PyStr.
Import ListNotations.
Local Open Scope string_scope.
Local Open Scope list_scope.

(** * Printing *)
Definition Z_of_digit (c : ascii) : Z := Z.of_nat (code c) - 48.
Definition digit_of_Z (z : Z) : ascii := ascii_of_nat (Z.to_nat (48 + z)).
(** the last [w] decimal digits of a natural number *)
Fixpoint digits (w : nat) (n : Z) : str :=
  match w with O => [] | S w' => digits w' (n / 10) ++ [digit_of_Z (n mod 10)] end.

Definition Qltb (a b : Q) : bool := negb (Qle_bool b a).
(** round half to even, as Python's number formatting does *)
Definition round_he (q : Q) : Z :=
  let f := Qfloor q in
  let r := (q - inject_Z f)%Q in
  if Qltb r (1 # 2) then f
  else if Qltb (1 # 2) r then (f + 1)%Z
  else if Z.even f then f else (f + 1)%Z.

Definition strip_zeros (s : str) : str := rstrip_if (aeqb "0") s.
(** [n] digits before the point, the others after it, trailing zeros dropped *)
Definition with_point (n : nat) (ds : str) : str :=
  let b := strip_zeros (skipn n ds) in
  firstn n ds ++ match b with [] => [] | _ => "."%char :: b end.

(** f"{q:g}" for 1 <= q < 1000 (the only range format_eng formats with it, besides zero): six significant
    digits, fixed notation *)
Definition fmt_g (q : Q) : str :=
  let X := if Qltb q 10 then 0%nat else if Qltb q 100 then 1%nat else 2%nat in
  let N := round_he (q * inject_Z (10 ^ (5 - Z.of_nat X))) in
  if (N =? 1000000)%Z then with_point (X + 2) (digits 6 100000) else with_point (X + 1) (digits 6 N).

(** floor(log_b q) for q > 0: divide by b while q >= b, multiply by b while q < 1 *)
Fixpoint log_up (fuel : nat) (b : Z) (q : Q) : Z :=
  match fuel with
  | O => 0%Z
  | S f => if Qle_bool (inject_Z b) q then (1 + log_up f b (q / inject_Z b))%Z else 0%Z
  end.
Fixpoint log_down (fuel : nat) (b : Z) (q : Q) : Z :=
  match fuel with
  | O => 0%Z
  | S f => if Qltb q 1 then (log_down f b (q * inject_Z b) - 1)%Z else 0%Z
  end.
Definition size_Q (q : Q) : nat := S (Pos.size_nat (Qden q) + Z.to_nat (Z.log2 (Qnum q))).
Definition log_floor (b : Z) (q : Q) : Z :=
  if Qltb q 1 then log_down (size_Q q) b q else log_up (size_Q q) b q.

(** f"{q:E}" for q > 0: seven significant digits, at least two digits of exponent *)
Definition fmt_E (q : Q) : str :=
  let D0 := log_floor 10 q in
  let N0 := round_he (q * Qpower 10 (6 - D0)) in
  let '(N, D) := if (N0 =? 10000000)%Z then (1000000%Z, (D0 + 1)%Z) else (N0, D0) in
  let ds := digits 7 N in
  let ex := dec (Z.abs_nat D) in
  firstn 1 ds ++ ["."%char] ++ skipn 1 ds ++ ["E"%char; if (D <? 0)%Z then "-"%char else "+"%char]
  ++ (match ex with [_] => "0"%char :: ex | _ => ex end).

(** float_unit.py:8-35 [format_eng] *)
Definition format_eng (v : Q) : str :=
  if Qeq_bool v 0 then s2l "0"
  else
    let a := Qabs v in
    let sign := if Qltb v 0 then ["-"%char] else [] in
    let e := log_floor 1000 a in
    let suffix :=
      if (e =? 0)%Z then Some [] else if (e =? -5)%Z then Some (s2l "f") else if (e =? -4)%Z then Some (s2l "p")
      else if (e =? -3)%Z then Some (s2l "n") else if (e =? -2)%Z then Some (s2l "u")
      else if (e =? -1)%Z then Some (s2l "m") else if (e =? 1)%Z then Some (s2l "k")
      else if (e =? 2)%Z then Some (s2l "Meg") else if (e =? 3)%Z then Some (s2l "g")
      else if (e =? 4)%Z then Some (s2l "t") else None in
    match suffix with
    | Some x => sign ++ fmt_g (a * Qpower 1000 (- e)) ++ x
    | None => sign ++ fmt_E a
    end.

(** * Reading *)
(** float_unit.py:234-253 [_MULT] (the Greek mu is not represented) *)
Definition mult (c : ascii) : option Q :=
  if mem_c c (s2l "f") then Some (Qpower 10 (-15))
  else if mem_c c (s2l "pP") then Some (Qpower 10 (-12))
  else if mem_c c (s2l "nN") then Some (Qpower 10 (-9))
  else if mem_c c (s2l "uU") || aeqb c "181" then Some (Qpower 10 (-6))
  else if mem_c c (s2l "m") then Some (Qpower 10 (-3))
  else if mem_c c (s2l "kK") then Some (Qpower 10 3)
  else if mem_c c (s2l "M") then Some (Qpower 10 6)
  else if mem_c c (s2l "Gg") then Some (Qpower 10 9)
  else if mem_c c (s2l "Tt") then Some (Qpower 10 12)
  else if mem_c c (s2l "%") then Some (Qpower 10 (-2))
  else None.

Fixpoint span (f : ascii -> bool) (s : str) : str * str :=
  match s with
  | c :: r => if f c then let '(a, b) := span f r in (c :: a, b) else ([], s)
  | [] => ([], [])
  end.
(** the number written by a string of digits *)
Definition number (ds : str) : Z := fold_left (fun a c => 10 * a + Z_of_digit c)%Z ds 0%Z.

Definition signed (s : str) : bool * str :=
  match s with
  | c :: r => if aeqb c "-" then (true, r) else if aeqb c "+" then (false, r) else (false, s)
  | [] => (false, [])
  end.
(** the digits after a decimal point, if there is one, and the rest *)
Definition fraction (r : str) : str * str :=
  match r with
  | c :: r' => if aeqb c "." then span is_digit r' else ([], r)
  | [] => ([], [])
  end.
(** Python's float() on the texts parse_value hands over (digits, signs, points, E): None is ValueError *)
Definition pyfloat (s : str) : option Q :=
  let '(neg, s1) := signed s in
  let '(a, r) := span is_digit s1 in
  let '(b, r2) := fraction r in
  match a ++ b with
  | [] => None
  | ds =>
      let q := (inject_Z (number ds) * Qpower 10 (- Z.of_nat (length b)))%Q in
      let q := if neg then (- q)%Q else q in
      match r2 with
      | [] => Some q
      | e :: r3 =>
          if aeqb (upper_c e) "E" then
            let '(eneg, r4) := signed r3 in
            let '(x, r5) := span is_digit r4 in
            match x, r5 with
            | _ :: _, [] => Some (q * Qpower 10 (if eneg then - number x else number x))%Q
            | _, _ => None
            end
          else None
      end
  end.

(** float_unit.py:38-97 [parse_value] with accept_invalid=False: the number and the unit text; None is
    ValueError.  [value[:k]] is [num], the text after it [r]. *)
Definition parse_value (value : str) : option (Q * str) :=
  let v := strip value in
  let '(num, r) := span (fun c => mem_c c (s2l "0123456789.+-")) v in
  match num with
  | [] => None
  | _ =>
      match r with
      | e :: r1 =>
          if aeqb (upper_c e) "E" then                                (* lines 57-62 *)
            let '(x, r2) := span (fun c => mem_c c (s2l "0123456789E+-")) r1 in
            let u := lstrip_if (fun c => mem_c c [" "%char; "009"%char]) r2 in
            match pyfloat (num ++ e :: x) with Some q => Some (q, u) | None => None end
          else                                                        (* lines 63-86 *)
            let r0 := lstrip_if (fun c => mem_c c [" "%char; "009"%char]) r in
            let '(mlt, unit, rest) :=
              match r0 with
              | c :: r2 =>
                  match mult c with
                  | Some x => if startswith (s2l "MEG") (upper r0) then (x, [], skipn 3 r0) else (x, [], r2)
                  | None => if aeqb (upper_c c) "R" then (1%Q, s2l "ohm", r2) else (1%Q, [], r0)
                  end
              | [] => (1%Q, [], [])
              end in
            let '(suf, rest) := span is_digit rest in
            let rest := lstrip_if (fun c => mem_c c [" "%char; "009"%char]) rest in
            let unit := match rest with [] => unit | _ => rest end in
            match pyfloat (match suf with [] => num | _ => num ++ "."%char :: suf end) with
            | Some q => Some ((q * mlt)%Q, unit)
            | None => None
            end
      | [] => match pyfloat num with Some q => Some (q, []) | None => None end
      end
  end.
(** float_unit.py:100-107 [scan_eng] *)
Definition scan_eng (s : str) : option Q := option_map fst (parse_value s).

