(** Model of the parameter text parser of spicelib/editor/spice_components.py: [tokenize_params], [_parse_params].
    Parameter values are kept as their text: [try_value] (primitives.py:12-22) wraps a number as a float_unit that
    prints as the text it was read from (float_unit.py:315-321), so only "is it a number" is observable here.
    Simplification: complex literals count as text. *)
From Coq Require Import String Ascii List Bool Arith.
From Verif Require Import PyStr EngModel.
Import ListNotations.
Local Open Scope string_scope.
Local Open Scope list_scope.

Definition DQ : ascii := "034". Definition SQ : ascii := "039".
Definition push (cur : str) (l : list str) : list str := match cur with [] => l | _ => strip cur :: l end.

(** spice_components.py:81-119 [tokenize_params]: the [for char] loop; [q] is in_quotes, [b] in_func_decl,
    [cur] current_token. *)
Fixpoint tokenize (q : option ascii) (b : bool) (cur : str) (s : str) : list str :=
  match s with
  | [] => push cur []                                                              (* 117-119 *)
  | c :: r =>
      if aeqb c DQ || aeqb c SQ then                                               (* 93-98 *)
        let q' := match q with None => Some c | Some x => if aeqb x c then None else Some x end in
        tokenize q' b (cur ++ [c]) r
      else if aeqb c "{" then tokenize q true (cur ++ [c]) r                       (* 99-101 *)
      else if aeqb c "}" then tokenize q false (cur ++ [c]) r                      (* 102-104 *)
      else
        let free := match q with None => negb b | Some _ => false end in
        if (aeqb c "," || aeqb c "=") && free then                                 (* 105-109 *)
          match cur with [] => tokenize q b [] r | _ => strip cur :: [c] :: tokenize q b [] r end
        else if is_space c && free then push cur (tokenize q b [] r)               (* 110-113 *)
        else tokenize q b (cur ++ [c]) r                                           (* 114-115 *)
  end.
Definition tokenize_params (s : str) : list str := tokenize None false [] s.

(** A parameter value: a text (number or not), a list of them, or the True of a keyword. *)
Inductive pval := One (t : str) | Many (l : list str) | Flag.
Definition pdict := list (str * pval).
(** OrderedDict: assignment keeps the position of an existing key *)
Fixpoint pget (d : pdict) (k : str) : option pval :=
  match d with [] => None | (k', v) :: r => if str_eqb k' k then Some v else pget r k end.
Fixpoint pset (d : pdict) (k : str) (v : pval) : pdict :=
  match d with
  | [] => [(k, v)]
  | (k', v') :: r => if str_eqb k' k then (k', v) :: r else (k', v') :: pset r k v
  end.
Fixpoint pdel (d : pdict) (k : str) : pdict :=
  match d with [] => [] | (k', v) :: r => if str_eqb k' k then r else (k', v) :: pdel r k end.

(** spice_components.py:32-66 *)
Definition verilog_types : list str := map s2l
  ["bit"; "bool"; "boolean"; "int8_t"; "int8"; "char"; "uint8_t"; "uint8"; "uchar"; "byte"; "int16_t"; "int16";
   "uint16_t"; "uint16"; "int32_t"; "int32"; "int"; "uint32_t"; "uint32"; "uint"; "int64_t"; "int64"; "uint64_t";
   "uint64"; "shortfloat"; "float"; "double"].
Definition keywords : list str := [s2l "noiseless"].
Definition mem_s (s : str) (l : list str) : bool := existsb (str_eqb s) l.
(** isinstance(try_value(token), float | int) *)
Definition is_number (t : str) : bool := match scan_eng t with Some _ => true | None => false end.
(** f"{v}" *)
Definition pjoin (v : pval) (t : str) : str :=
  match v with
  | One s => s ++ " "%char :: t
  | Many _ => t                          (* f"{list} {token}": never modelled further *)
  | Flag => s2l "True" ++ " "%char :: t
  end.

Record pst := { ps_d : pdict; ps_key : option str; ps_last : option str; ps_list : bool }.
(** spice_components.py:151-197, one token; None is ValueError *)
Definition pstep (st : pst) (tok : str) : option pst :=
  if str_eqb tok (s2l "=") then                                                    (* 152-155 *)
    match ps_key st with None => None | Some _ => Some st end
  else if str_eqb tok (s2l ",") then                                               (* 156-160 *)
    match ps_last st with
    | Some l => match l, pget (ps_d st) l with
                | _ :: _, Some _ => Some {| ps_d := ps_d st; ps_key := ps_key st; ps_last := ps_last st; ps_list := true |}
                | _, _ => None
                end
    | None => None
    end
  else if ps_list st then                                                          (* 163-171 *)
    match ps_last st with
    | None => None
    | Some l =>
        match pget (ps_d st) l with
        | Some (Many vs) => Some {| ps_d := pset (ps_d st) l (Many (vs ++ [tok])); ps_key := ps_key st; ps_last := ps_last st; ps_list := false |}
        | Some (One v) => Some {| ps_d := pset (ps_d st) l (Many [v; tok]); ps_key := ps_key st; ps_last := ps_last st; ps_list := false |}
        | Some Flag => Some {| ps_d := pset (ps_d st) l (Many [s2l "True"; tok]); ps_key := ps_key st; ps_last := ps_last st; ps_list := false |}
        | None => None
        end
    end
  else match ps_key st with
  | None =>                                                                        (* 172-186 *)
      if mem_s tok keywords then
        Some {| ps_d := pset (ps_d st) tok Flag; ps_key := None; ps_last := ps_last st; ps_list := false |}
      else if mem_s tok verilog_types then Some st
      else
        let joined := match ps_last st with Some l => if is_number tok then pget (ps_d st) l else None | None => None end in
        match joined, ps_last st with
        | Some v, Some l => Some {| ps_d := pset (ps_d st) l (One (pjoin v tok)); ps_key := None; ps_last := ps_last st; ps_list := false |}
        | _, _ => Some {| ps_d := ps_d st; ps_key := Some tok; ps_last := ps_last st; ps_list := false |}
        end
  | Some k =>                                                                      (* 187-196 *)
      Some {| ps_d := pset (ps_d st) k (One tok); ps_key := None; ps_last := Some k; ps_list := false |}
  end.
Fixpoint prun (st : pst) (toks : list str) : option pst :=
  match toks with [] => Some st | t :: r => match pstep st t with Some st' => prun st' r | None => None end end.
(** spice_components.py:128-199 [_parse_params] *)
Definition parse_params (s : str) : option pdict :=
  match prun {| ps_d := []; ps_key := None; ps_last := None; ps_list := false |} (tokenize_params s) with
  | Some st => Some (ps_d st)
  | None => None
  end.
