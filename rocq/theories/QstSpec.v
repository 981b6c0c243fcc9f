(** What the test bench of a quick sensitivity analysis promises, stated on the netlists handed to the simulator. *)
From Coq Require Import String Ascii List Bool Arith ZArith QArith Qabs.
From Verif Require Import PyStr EngModel EngSpec TolModel TolSpec McModel McSpec.
Import ListNotations.
Local Open Scope string_scope. Local Open Scope nat_scope. Local Open Scope list_scope.

(** The functions with the meaning the simulators give them ("run" is the value of the step). *)
Definition plus_tol := ".func satol(nom,tol,idx) nom*if(run==idx,1+tol,1)".
Definition minus_tol := ".func satol(nom,tol,idx) nom*if(run==idx,1-tol,1)".
Definition min_max := ".func sammx(nom,val,idx) if(run==idx,val,nom)".
Inductive smeans (defs : list string) (run : Z) : string -> Q -> Prop :=
| S_plus s n t k q tol idx : In plus_tol defs -> ~ In minus_tol defs -> fcall3 "satol" n t k s -> reads n q -> reads t tol -> reads k idx ->
    smeans defs run s (q * (if Qeq_bool (inject_Z run) idx then 1 + tol else 1))%Q
| S_minus s n t k q tol idx : In minus_tol defs -> ~ In plus_tol defs -> fcall3 "satol" n t k s -> reads n q -> reads t tol -> reads k idx ->
    smeans defs run s (q * (if Qeq_bool (inject_Z run) idx then 1 - tol else 1))%Q
| S_mmx s n t k q val idx : In min_max defs -> fcall3 "sammx" n t k s -> reads n q -> reads t val -> reads k idx ->
    smeans defs run s (if Qeq_bool (inject_Z run) idx then val else q)%Q.
(** The numbers in the formula can be written with six digits. *)
Definition six (use_min : bool) (q : Q) (d : dev) : Prop :=
  six_digits q /\ (dtyp d = DTol -> six_digits (dmin d)) /\ (dtyp d = DMinMax -> six_digits (if use_min then dmin d else dmax d)).
(** [s] is the test bench of netlist [n] for the runs [lo]..[hi]: the [k]-th of the elements has its extreme in run [k], and its nominal value
    in all others; what deviates is among the elements; all else is as in [n]. *)
Definition one_at_a_time (use_min : bool) (a : ana) (els : list string) (n : ed) (lo hi : Z) (s : ed) : Prop :=
  (forall k r q d, nth_error els k = Some r -> comp_has a n r q d -> six use_min q d ->
     exists t, aget r (comps s) = Some (VText t) /\
       forall run, exists x, smeans (dirs s) run t x /\ (x == if Z.eqb run (Z.of_nat k) then if use_min then low q d else high q d else q)%Q) /\
  (forall r, ~ In r els -> aget r (comps s) = aget r (comps n)) /\
  (forall p, p <> "run" -> aget p (pars s) = aget p (pars n)) /\ aget "run" (pars s) = Some (VNum (inject_Z (-1))) /\
  map fst (comps s) = map fst (comps n) /\
  exists fs, dirs s = dirs n ++ fs ++ [step_dir lo hi] /\ Forall (fun f => exists t, f = ".func " ++ t)%string fs.
