(** Vocabulary for C22, C23, C25 and C58-C61. *)
From Coq Require Import String Ascii List Bool Arith QArith.
From Verif Require Import PyStr StepsModel.
Import ListNotations.
Local Open Scope nat_scope.
Local Open Scope list_scope.

(** [ws] is [data] cut before each value equal to the first one. *)
Definition cut_at_first_value {V} (veqb : V -> V -> bool) (data : list V) (ws : list (list V)) : Prop :=
  exists d0, hd_error data = Some d0 /\
  concat ws = data /\
  forall k w, nth_error ws k = Some w ->
    exists v r, w = v :: r /\ (k = 0 \/ veqb v d0 = true) /\ forall x, In x r -> veqb x d0 = false.

(** Number of steps in the data: one more than the later values equal to the first. *)
Definition n_steps {V} (veqb : V -> V -> bool) (data : list V) : nat :=
  match data with [] => 0 | d0 :: r => 1 + length (filter (fun v => veqb v d0) r) end.

(** The step has each of the parameters asked for, with a value equal to the one asked for. *)
Definition meets {V} (veqb : V -> V -> bool) (d : list (str * V)) (conds : list (str * V)) : Prop :=
  forall k v, In (k, v) conds -> exists x, dget k d = Some x /\ veqb v x = true.

(** Text that may be in a name=value item of a ".step" line. *)
Definition plain (s : str) : Prop := forall c, In c s -> c <> " "%char /\ c <> "="%char.
Fixpoint items_text (l : list (str * str)) : str :=
  match l with
  | [] => []
  | [(k, v)] => k ++ ["="%char] ++ v
  | (k, v) :: l' => k ++ ["="%char] ++ v ++ [" "%char] ++ items_text l'
  end.
Definition step_text (l : list (str * str)) : str := s2l ".step " ++ items_text l ++ ["010"%char].

(** A log file: ".step" lines and other lines. *)
Inductive log_line := StepLine (items : list (str * str)) | OtherLine (l : str).
Definition log_line_ok (x : log_line) : Prop :=
  match x with
  | StepLine l => Forall (fun kv => plain (fst kv) /\ plain (snd kv)) l
  | OtherLine l => startswith (s2l ".step") l = false
  end.
Definition log_text (x : log_line) : str := match x with StepLine l => step_text l | OtherLine l => l end.
Fixpoint step_table (log : list log_line) : list (list (str * str)) :=
  match log with [] => [] | StepLine l :: r => l :: step_table r | OtherLine _ :: r => step_table r end.
(** The last value given to [k] in the line. *)
Definition last_value (k : str) (l : list (str * str)) : option str :=
  option_map snd (find (fun e => str_eqb (fst e) k) (rev l)).

Local Open Scope Q_scope.
(** The position is the index of a sample equal to [t], or lies between two neighbouring samples so that
    interpolating the axis there gives [t]. *)
Definition at_or_between (t : Q) (w : list Q) (p : position) : Prop :=
  match p with
  | AtIndex i => exists x, nth_error w i = Some x /\ x == t
  | Between q => exists i a b, Qround.Qfloor q = Z.of_nat i /\ nth_error w i = Some a /\ nth_error w (S i) = Some b /\
                   a < t /\ t < b /\ a + (q - inject_Z (Z.of_nat i)) * (b - a) == t
  | _ => False
  end.

(** [y] is the sample of the trace at abscissa [t], or the point at [t] of the straight line through two
    neighbouring samples. *)
Definition interpolates (t y : Q) (axis tr : list Q) : Prop :=
  (exists i x y0, nth_error axis i = Some x /\ x == t /\ nth_error tr i = Some y0 /\ y == y0) \/
  (exists i a b ya yb, nth_error axis i = Some a /\ nth_error axis (S i) = Some b /\
     nth_error tr i = Some ya /\ nth_error tr (S i) = Some yb /\ a < t /\ t < b /\
     (b - a) * (y - ya) == (t - a) * (yb - ya)).
