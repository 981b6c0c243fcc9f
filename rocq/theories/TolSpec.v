(** What the tolerance analyses promise, stated on the netlists handed to the simulator. *)
From Coq Require Import String Ascii List Bool Arith ZArith NArith QArith Qabs.
From Verif Require Import TolModel.
Import ListNotations.
Local Open Scope string_scope. Local Open Scope nat_scope. Local Open Scope list_scope.

(** ** Batches *)

(** The run numbers of one batch. *)
Definition batch_runs (b : Z * Z) : list Z :=
  map (fun k => (fst b + Z.of_nat k)%Z) (seq 0 (Z.to_nat (snd b - fst b + 1))).
(** All run numbers -1, 0, ..., last. *)
Definition all_runs (last : Z) : list Z := map (fun k => (Z.of_nat k - 1)%Z) (seq 0 (Z.to_nat (last + 2))).
Definition batch_size (b : Z * Z) : Z := (snd b - fst b + 1)%Z.

(** ** How an analysis is set up: a new object, and then any calls of its public methods *)
Inductive setup (e : ed) : ana -> Prop :=
| S_new : setup e (new_analysis e)
| S_tolerance ref t dist a : setup e a -> (In ref letters \/ head_is_any letters ref = true) -> setup e (set_tolerance ref t dist a)
| S_deviation ref lo hi dist a : setup e a -> In ref (map fst (comps e)) -> head_is_any letters ref = true ->
    setup e (set_deviation ref lo hi dist a)
| S_parameter p lo hi dist a : setup e a -> In p (map fst (pars e)) -> setup e (set_parameter_deviation p lo hi dist a)
| S_edit i a : setup e a -> setup e (record i a).

(** The two extremes of a value. *)
Definition low (q : Q) (d : dev) : Q := match dtyp d with DTol => q * (1 - dmin d) | DMinMax => dmin d | DNone => q end%Q.
Definition high (q : Q) (d : dev) : Q := match dtyp d with DTol => q * (1 + dmin d) | DMinMax => dmax d | DNone => q end%Q.
(** A deviation that says something: a tolerance other than zero, or a minimum other than the maximum. *)
Definition real_dev (d : dev) : Prop := dtyp d <> DNone /\ ~ (dmin d == dmax d)%Q.

(** [ref], a component of netlist [n] with the number [q] as value, deviates by [d]: as set for it, or else for its letter. *)
Definition comp_dev (a : ana) (n : ed) (ref : string) (q : Q) (d : dev) : Prop :=
  aget ref (comps n) = Some (VNum q) /\ real_dev d /\ head_is_any letters ref = true /\
  (aget ref (devices a) = Some d \/ (aget ref (devices a) = None /\ aget (letter_of ref) (defaults a) = Some d)).
(** [p], a parameter of [n], deviates by [d]. *)
Definition par_dev (a : ana) (n : ed) (p : string) (d : dev) : Prop :=
  aget p (params a) = Some d /\ exists v, aget p (pars n) = Some v.

(** The deviating elements of an analysis, each once. *)
Definition deviating (a : ana) (n : ed) (order : list (kind * string)) : Prop :=
  NoDup order /\
  (forall r, In (KComp, r) order <-> exists q d, comp_dev a n r q d) /\
  (forall p, In (KPar, p) order <-> exists d, par_dev a n p d).

(** Netlist [e] is [n] with run number [run], with element k of [order] at what [want k] says of its value and deviation, and with
    every other component and parameter as in [n]. *)
Definition varied (a : ana) (n : ed) (order : list (kind * string)) (want : nat -> value -> dev -> option value) (run : Z) (e : ed) : Prop :=
  (forall k r q d, nth_error order k = Some (KComp, r) -> comp_dev a n r q d -> aget r (comps e) = want k (VNum q) d) /\
  (forall k p v d, nth_error order k = Some (KPar, p) -> par_dev a n p d -> aget p (pars n) = Some v -> aget p (pars e) = want k v d) /\
  (forall r, ~ In (KComp, r) order -> aget r (comps e) = aget r (comps n)) /\
  (forall p, ~ In (KPar, p) order -> p <> "run" -> aget p (pars e) = aget p (pars n)) /\
  aget "run" (pars e) = Some (VNum (inject_Z run)) /\
  dirs e = dirs n ++ [".meas runm PARAM {run}"].

(** Every combination of [n] choices occurs exactly once among [combo 0], ..., [combo (2^n-1)]. *)
Definition every_combination (n : nat) (combo : nat -> list bool) : Prop :=
  (forall i, i < 2 ^ n -> length (combo i) = n) /\
  (forall c, length c = n -> exists i, i < 2 ^ n /\ combo i = c) /\
  (forall i j, i < 2 ^ n -> j < 2 ^ n -> combo i = combo j -> i = j).

(** An extreme as a number; parameters only have a minimum and a maximum. *)
Definition extreme (up : bool) (v : value) (d : dev) : option value :=
  match v, dtyp d with
  | _, DMinMax => Some (VNum (if up then dmax d else dmin d))
  | VNum q, _ => Some (VNum (if up then high q d else low q d))
  | _, _ => None
  end.

(** The value of element k of the quick sensitivity analysis in run i. *)
Definition one_changed (i k : nat) (v : value) (d : dev) : option value :=
  if Nat.eqb i k then match v, dtyp d with
                      | _, DMinMax => Some (VNum (dmin d))
                      | VNum q, _ => Some (VNum (high q d))
                      | _, _ => None
                      end
  else Some v.

(** Names of the parameters that deviate are no component names, nor the run number. *)
Definition names_apart (a : ana) (e : ed) : Prop :=
  forall p, In p (map fst (params a)) -> p <> "run" /\ ~ In p (map fst (comps e)).
(** The recorded edits, played on the netlist file, give [n] and leave the component values alone. *)
Definition nominal_netlist (a : ana) (e n : ed) : Prop :=
  play_all (instrs a) e = Some n /\ (forall r, aget r (comps n) = aget r (comps e)) /\
  (forall p, In p (map fst (params a)) -> aget p (pars n) = aget p (pars e)).

(** ** Meaning of the formulas of the test bench in the simulator *)
Definition floor_div (r : Z) (m : Z) : Z := Z.div r m.
(** .func binary(run,idx) floor(run/(2**idx))-2*floor(run/(2**(idx+1))) *)
Definition binary (run : Z) (idx : nat) : Z := (floor_div run (2 ^ Z.of_nat idx) - 2 * floor_div run (2 ^ (Z.of_nat idx + 1)))%Z.
(** .func wc(nom,tol,idx) if(run<0,nom,nom*(1+tol*(2*binary(run,idx)-1)));  .func wc1(nom,min,max,idx) if(run<0, nom, if(binary(run,idx),max,min)) *)
Fixpoint sim_value (run : Z) (v : value) : option Q :=
  match v with
  | VNum q => Some q
  | VText _ => None
  | VWc nom tol idx => match sim_value run nom with
                       | Some x => Some (if (run <? 0)%Z then x else x * (1 + tol * inject_Z (2 * binary run idx - 1)))%Q
                       | None => None
                       end
  | VWc1 nom lo hi idx => if (run <? 0)%Z then sim_value run nom else Some (if Z.eqb (binary run idx) 0 then lo else hi)
  end.

(** [e] is the test bench of [n]: in run -1 the simulator sees the nominal values, in run i = 0..2^(number of elements)-1 it sees element k
    at its maximum if [up i] says so and at its minimum if not; the rest is as in [n], apart from the directives of the test bench, which
    let the simulator step through the runs [lo]..[hi]. *)
Definition test_bench (a : ana) (n : ed) (order : list (kind * string)) (up : nat -> list bool) (lo hi : Z) (e : ed) : Prop :=
  (forall k r q d, nth_error order k = Some (KComp, r) -> comp_dev a n r q d ->
     exists v, aget r (comps e) = Some v /\ sim_value (-1) v = Some q /\
       forall i, i < 2 ^ length order -> exists x, sim_value (Z.of_nat i) v = Some x /\ (x == if nth k (up i) false then high q d else low q d)%Q) /\
  (forall k p u d, nth_error order k = Some (KPar, p) -> par_dev a n p d -> aget p (pars n) = Some u ->
     exists v, aget p (pars e) = Some v /\ sim_value (-1) v = sim_value (-1) u /\
       forall i, i < 2 ^ length order -> sim_value (Z.of_nat i) v = Some (if nth k (up i) false then dmax d else dmin d)) /\
  (forall r, ~ In (KComp, r) order -> aget r (comps e) = aget r (comps n)) /\
  (forall p, ~ In (KPar, p) order -> p <> "run" -> aget p (pars e) = aget p (pars n)) /\
  aget "run" (pars e) = Some (VNum (inject_Z (-1))) /\
  dirs e = dirs n ++ [func_binary; func_wc; func_wc1; step_dir lo hi].

(** ** Sensitivities *)

Fixpoint sum_to (n : nat) (f : nat -> Q) : Q := match n with O => 0 | S m => sum_to m f + f m end%Q.
(** Mean absolute change of the measurement when element k goes from one extreme to the other, over all combinations of the other
    [n] - 1 elements; [data i] is the result of run i. *)
Definition mean_change (n : nat) (data : nat -> Q) (k : nat) : Q :=
  (sum_to (2 ^ n) (fun i => if N.testbit (N.of_nat i) (N.of_nat k) then 0 else Qabs (data i - data (i + 2 ^ k)%nat)) / inject_Z (Z.of_nat (2 ^ (n - 1))))%Q.
(** Element k has no influence on the measurement. *)
Definition no_influence (n : nat) (data : nat -> Q) (k : nat) : Prop :=
  forall i, i < 2 ^ n -> N.testbit (N.of_nat i) (N.of_nat k) = false -> (data i == data (i + 2 ^ k)%nat)%Q.
