(** What the results of a toleranced analysis promise. *)
From Coq Require Import String Ascii List Bool Arith QArith Qabs ZArith.
From Verif Require Import PyStr StepsModel LogModel DevModel.
Import ListNotations.
Local Open Scope string_scope. Local Open Scope nat_scope. Local Open Scope list_scope.

(** The logs of the simulations that can be read. *)
Definition readable (sims : list sim) : list lg := flat_map (fun s => match s_log s with Some l => [l] | None => [] end) sims.
(** What the log of one simulation without steps has under the name [m]: one value. *)
Definition has (l : lg) (m : str) (v : value) : Prop := dget m (data l) = Some [v].
(** A log of one simulation: no steps, names in lower case (as the readers write them) and each only once. *)
Definition single (l : lg) : Prop := steps l = [] /\ NoDup (map fst (data l)) /\ forall n, In n (map fst (data l)) -> lower n = n.
(** The value tells the number [k]: as a real number, or (after an AC analysis) as the real part, up to rounding. *)
Definition tells (complex : bool) (v : value) (k : Z) : Prop :=
  match v with
  | Num q => complex = false /\ (q == inject_Z k)%Q
  | Cpx re _ => complex = true /\ (Qabs (re - inject_Z k) < 1 # 2)%Q
  | Txt _ => False
  end.
(** The value of the measurement [m] in run [k], as the user asks for it. *)
Definition value_in_run (l : lg) (m : str) (k : Z) : option value :=
  get_measure_value_where veq (fun x => x) (seen l) m [(s2l "run", Num (inject_Z k))].
