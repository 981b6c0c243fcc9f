(** Model of the stepped data of spicelib/raw/raw_classes.py (Axis, TraceRead) and of the step selection
    and export of spicelib/raw/plot_data.py.  [V] is the type of the samples; [veqb] is numpy's "==" on
    them (nothing is assumed about it: it is not reflexive on NaN), [vabs] is numpy.abs. *)
From Coq Require Import String Ascii List Bool Arith QArith Qround ZArith.
From Verif Require Import PyStr.
Import ListNotations.
Local Open Scope string_scope.
Local Open Scope nat_scope.
Local Open Scope list_scope.

Section Data.
Context {V : Type} (veqb : V -> V -> bool) (vabs : V -> V).

Fixpoint upd {A} (k : nat) (x : A) (l : list A) : option (list A) :=   (* l[k] = x; None: IndexError *)
  match l, k with
  | [], _ => None
  | _ :: l', O => Some (x :: l')
  | a :: l', S k' => match upd k' x l' with Some r => Some (a :: r) | None => None end
  end.

(** raw_classes.py:103-109: the while loop of [set_steps]; [rest] is data[i:]. *)
Fixpoint mark (d0 : V) (rest : list V) (i k : nat) (arr : list (option nat)) : option (nat * list (option nat)) :=
  match rest with
  | [] => Some (k, arr)
  | v :: r =>
      if veqb v d0
      then match upd k (Some i) arr with Some arr' => mark d0 r (S i) (S k) arr' | None => None end
      else mark d0 r (S i) k arr
  end.

(** raw_classes.py:97-113 [Axis.set_steps]; [n] is len(step_info), the data are not empty. *)
Inductive set_result := Offsets (o : list (option nat)) | ErrIndex | ErrCount.
Definition set_steps (data : list V) (n : nat) : set_result :=
  match upd 0 (Some 0) (repeat None n) with
  | None => ErrIndex
  | Some arr =>
      match data with
      | [] => if 1 =? n then Offsets arr else ErrCount
      | d0 :: rest =>
          match mark d0 rest 1 1 arr with
          | None => ErrIndex
          | Some (k, arr') => if k =? n then Offsets arr' else ErrCount
          end
      end
  end.

(** raw_classes.py:115-132 [step_offset]; [steps] is step_offsets, None when there is no step
    information; [len] is len(data).  The result None is Python's None. *)
Definition step_offset (steps : option (list (option nat))) (len step : nat) : option nat :=
  match steps with
  | None => if 0 <? step then Some len else Some 0
  | Some o => match nth_error o step with None => Some len | Some x => x end
  end.

(** data[a:b] with possibly None bounds. *)
Definition pslice {A} (a b : option nat) (l : list A) : list A :=
  let i := match a with Some i => i | None => 0 end in
  let j := match b with Some j => j | None => length l end in
  firstn (j - i) (skipn i l).

(** raw_classes.py:264-281 [TraceRead.get_wave] of a trace with an axis of [len] points. *)
Definition trace_wave {A} (steps : option (list (option nat))) (len : nat) (data : list A) (step : nat) : list A :=
  if step =? 0 then pslice None (step_offset steps len 1) data
  else pslice (step_offset steps len step) (step_offset steps len (step + 1)) data.

(** raw_classes.py:134-152 [Axis.get_wave]; [is_time]: the name is 'time'. *)
Definition axis_wave (is_time : bool) (steps : option (list (option nat))) (data : list V) (step : nat) : list V :=
  let w := trace_wave steps (length data) data step in
  if is_time then map vabs w else w.

(** raw_classes.py:210-217 [Axis.get_len]; None is a TypeError. *)
Definition axis_len (steps : option (list (option nat))) (data : list V) (step : nat) : option nat :=
  match step_offset steps (length data) (step + 1), step_offset steps (length data) step with
  | Some b, Some a => Some (b - a)
  | _, _ => None
  end.

(** raw_classes.py:308-315 [TraceRead.get_len] of a trace with an axis of [len] points. *)
Definition trace_len (steps : option (list (option nat))) (len step : nat) : option nat :=
  step_offset steps len (step + 1).

(** raw_classes.py:169-177 [Axis.get_point] and 242-256 [TraceRead.get_point], n >= 0, trace with an axis;
    None is an exception. *)
Definition get_point {A} (steps : option (list (option nat))) (len : nat) (data : list A) (n step : nat) : option A :=
  match step_offset steps len step with
  | Some o => nth_error data (n + o)
  | None => None
  end.

(** plot_data.py:324-333: the number of steps assumed when the step information is not found: at that
    moment the axis has not been loaded ([loaded] = None), it is always 0 for files with an axis. *)
Definition fallback_steps (loaded : option (list V)) : nat :=
  match loaded with
  | Some (d0 :: r) => length (filter (fun v => veqb v d0) (d0 :: r))
  | _ => 0
  end.
(** plot_data.py:314-333 and 636-637: loading the axis of a stepped binary file; [log_steps] is the number
    of steps in the log file, None if it cannot be used. *)
Definition load_binary_axis (data : list V) (log_steps : option nat) : set_result :=
  set_steps data (match log_steps with Some n => n | None => fallback_steps None end).
(** plot_data.py:345-362: loading the axis of a stepped ASCII file; the steps are set when the array is
    still full of zeros. *)
Definition load_ascii_axis (zero : V) (data : list V) (log_steps : option nat) : set_result :=
  set_steps (repeat zero (length data)) (match log_steps with Some n => n | None => fallback_steps None end).

(** plot_data.py:889-923 [get_steps]; a step is a dict, [steps] = None without step information. *)
Definition dget {W} (k : str) (d : list (str * W)) : option W :=
  match find (fun e => str_eqb (fst e) k) d with Some (_, v) => Some v | None => None end.
Fixpoint conditions_met (d : list (str * V)) (conds : list (str * V)) : bool :=
  match conds with
  | [] => true
  | (k, v) :: conds' =>
      match dget k d with
      | None => false
      | Some l => if negb (veqb v l) then false else conditions_met d conds'
      end
  end.
Fixpoint select (i : nat) (steps : list (list (str * V))) (conds : list (str * V)) : list nat :=
  match steps with
  | [] => []
  | d :: steps' => if conditions_met d conds then i :: select (S i) steps' conds else select (S i) steps' conds
  end.
Definition get_steps (steps : option (list (list (str * V)))) (conds : list (str * V)) : list nat :=
  match steps with
  | None => [0]
  | Some l => if 0 <? length conds then select 0 l conds else seq 0 (length l)
  end.

(** plot_data.py:925-972 [export], one column: the waves of the steps, concatenated; [wave] is get_wave
    of the column.  (The columns with the step parameters are never added: their list is empty.)
    None: the column is absent, when there are no steps to read. *)
Fixpoint export_column {A} (wave : nat -> list A) (steps : list nat) (acc : option (list A)) : option (list A) :=
  match steps with
  | [] => acc
  | s :: steps' =>
      export_column wave steps' (match acc with None => Some (wave s) | Some d => Some (d ++ wave s) end)
  end.

(** str.split(c) *)
Fixpoint split_on (c : ascii) (s : str) : list str :=
  match s with
  | [] => [[]]
  | x :: s' =>
      if aeqb x c then [] :: split_on c s'
      else match split_on c s' with [] => [[x]] | y :: r => (x :: y) :: r end
  end.

Fixpoint dset {W} (k : str) (v : W) (d : list (str * W)) : list (str * W) :=
  match d with
  | [] => [(k, v)]
  | (k', v') :: d' => if str_eqb k' k then (k', v) :: d' else (k', v') :: dset k v d'
  end.

(** plot_data.py:838-847: one ".step" line of a log file of LTspice; [conv] is try_convert_value.
    None: ValueError (a token with two "="). *)
Fixpoint step_tokens (conv : str -> V) (toks : list str) (d : list (str * V)) : option (list (str * V)) :=
  match toks with
  | [] => Some d
  | t :: toks' =>
      if negb (mem_c "=" t) then step_tokens conv toks' d
      else match split_on "=" t with
           | [k; v] => step_tokens conv toks' (dset k (conv v) d)
           | _ => None
           end
  end.
Definition step_line (conv : str -> V) (l : str) : option (list (str * V)) :=
  step_tokens conv (split_on " " (removelast (skipn 6 l))) [].
(** plot_data.py:837-852: the lines of the log (each with its newline). *)
Fixpoint log_steps (conv : str -> V) (ls : list str) : option (list (list (str * V))) :=
  match ls with
  | [] => Some []
  | l :: ls' =>
      if startswith (s2l ".step") l then
        match step_line conv l with
        | None => None
        | Some d => match log_steps conv ls' with Some r => Some (d :: r) | None => None end
        end
      else log_steps conv ls'
  end.
End Data.
Arguments set_result : clear implicits.

(** * Look-up of a point, over exact rational samples *)
Local Open Scope Q_scope.

Inductive position := AtIndex (i : nat) | Between (p : Q) | NotFound | BelowFirst.

Definition qltb (x y : Q) : bool := negb (Qle_bool y x).

(** raw_classes.py:184-208 [Axis.get_position]: the loop; [prev] is timex[i-1].  NotFound is Python's None. *)
Fixpoint find_position (t : Q) (i : nat) (prev : option Q) (xs : list Q) : position :=
  match xs with
  | [] => NotFound
  | x :: xs' =>
      if Qeq_bool x t then AtIndex i
      else if qltb t x then
        match prev with
        | None => BelowFirst
        | Some a => Between (inject_Z (Z.of_nat i) - 1 + (t - a) / (x - a))
        end
      else find_position t (S i) (Some x) xs'
  end.
Definition qabs (q : Q) : Q := if Qle_bool 0 q then q else - q.
Definition get_position (is_time : bool) (steps : option (list (option nat))) (axis : list Q) (t : Q) (step : nat) : position :=
  find_position t 0 None (axis_wave qabs is_time steps axis step).

(** raw_classes.py:283-306 [TraceRead.get_point_at]; None is an exception. *)
Definition get_point_at (is_time : bool) (steps : option (list (option nat))) (axis data : list Q) (t : Q) (step : nat) : option Q :=
  match get_position is_time steps axis t step with
  | Between pos =>
      match step_offset steps (length axis) step, trace_len steps (length axis) step with
      | Some offset, Some len =>
          let i := Z.to_nat (Qfloor pos) in
          if (Z.of_nat i <? Z.of_nat len - 1)%Z then
            match nth_error data (offset + i), nth_error data (offset + i + 1) with
            | Some a, Some b => Some (a + (pos - inject_Z (Z.of_nat i)) * (b - a))
            | _, _ => None
            end
          else if Qeq_bool pos (inject_Z (Z.of_nat len - 1)) then nth_error data (offset + i)
          else None
      | _, _ => None
      end
  | AtIndex n => get_point steps (length axis) data n step
  | NotFound => None
  | BelowFirst => None
  end.
