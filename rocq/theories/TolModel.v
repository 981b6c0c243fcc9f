(** Model of spicelib/sim/tookit: sim_analysis.py, tolerance_deviations.py, worst_case.py,
    quick_sensitivity_analysis.py, fast_worst_case.py (values are exact rationals instead of floats). *)
From Coq Require Import String Ascii List Bool Arith ZArith NArith QArith Qabs.
Import ListNotations.
Local Open Scope string_scope. Local Open Scope nat_scope. Local Open Scope list_scope.

(** ** The editor, as far as the analyses use it *)

(** A value text of the netlist: a number ([to_float] succeeds, primitives.py), the formulas written by
    prepare_testbench (worst_case.py:59,61,79,81), or any other text (on which [to_float] raises ValueError). *)
Inductive value :=
| VNum (q : Q)
| VText (s : string)
| VWc (nom : value) (tol : Q) (idx : nat)          (* {wc(nom,tol,idx)} *)
| VWc1 (nom : value) (lo hi : Q) (idx : nat).      (* {wc1(nom,lo,hi,idx)} *)

(** The netlist in the editor: component values and parameters (both dict-like, in file order) and the directives.
    Simplification: parameter and component names are compared as given (for the case rules of the editors see ParModel and EditModel). *)
Record ed := Ed { comps : list (string * value); pars : list (string * value); dirs : list string }.

(** Python dict read and write (insertion ordered); also first-match lookup in the netlist. *)
Fixpoint aget {A} (k : string) (d : list (string * A)) : option A :=
  match d with [] => None | (k', v) :: r => if String.eqb k k' then Some v else aget k r end.
Fixpoint aset {A} (k : string) (v : A) (d : list (string * A)) : list (string * A) :=
  match d with [] => [(k, v)] | (k', v') :: r => if String.eqb k k' then (k, v) :: r else (k', v') :: aset k v r end.

(** base_editor.py set_component_value: ComponentNotFoundError for an unknown reference ([None]). *)
Definition set_comp (ref : string) (v : value) (e : ed) : option ed :=
  match aget ref (comps e) with
  | None => None
  | Some _ => Some (Ed (aset ref v (comps e)) (pars e) (dirs e))
  end.
(** base_editor.py set_parameter: the parameter is added if it is not there. *)
Definition set_par (p : string) (v : value) (e : ed) : ed := Ed (comps e) (aset p v (pars e)) (dirs e).
(** base_editor.py add_instruction (of a directive that is not unique in the netlist). *)
Definition add_dir (i : string) (e : ed) : ed := Ed (comps e) (pars e) (dirs e ++ [i]).
(** base_editor.py remove_instruction: first equal directive; False if there is none. *)
Fixpoint drop_first (i : string) (l : list string) : list string :=
  match l with [] => [] | x :: r => if String.eqb x i then r else x :: drop_first i r end.
Definition rem_dir (i : string) (e : ed) : ed := Ed (comps e) (pars e) (drop_first i (dirs e)).

(** base_editor.py get_components(prefix): the references that begin with the given letter, in file order. *)
Definition first_is (c : ascii) (r : string) : bool :=
  match r with EmptyString => false | String a _ => Ascii.eqb a c end.
Definition refs_with (c : ascii) (e : ed) : list string :=
  filter (first_is c) (map fst (comps e)).

(** ** sim_analysis.py *)

(** sim_analysis.py:116-132: edits recorded by the analysis object, to be played on the netlist later. *)
Inductive instr :=
| ISetComp (ref : string) (v : value)
| ISetPar (p : string) (v : value)
| IAdd (i : string)
| IRemove (i : string).

(** tolerance_deviations.py:31-67 [DeviationType], [ComponentDeviation]. *)
Inductive dtype := DTol | DMinMax | DNone.
Record dev := Dev { dmin : Q; dmax : Q; dtyp : dtype; ddist : string }.
Definition from_tolerance (t : Q) (dist : string) : dev := Dev t (- t) DTol dist.          (* 46-48 *)
Definition from_min_max (lo hi : Q) (dist : string) : dev := Dev lo hi DMinMax dist.        (* 50-52 *)
Definition no_dev : dev := Dev 0 0 DNone "uniform".                                         (* 54-56 *)
Definition is_not_valid (d : dev) : bool :=                                                 (* 66-67 *)
  Qeq_bool (dmin d) (dmax d) || match dtyp d with DNone => true | _ => false end.

(** State of an analysis object (sim_analysis.py:48-59, tolerance_deviations.py:74-84) with its editor;
    [orig] is the netlist file, which editor.reset_netlist reads again. *)
Record ana := Ana { orig : ed; cur : ed; instrs : list instr; added : bool;
  defaults : list (string * dev); devices : list (string * dev); params : list (string * dev);
  elements : list string; prepared : bool; last_run : Z }.

Definition with_cur (e : ed) (a : ana) : ana :=
  Ana (orig a) e (instrs a) (added a) (defaults a) (devices a) (params a) (elements a) (prepared a) (last_run a).

(** sim_analysis.py:134-152 [play_instructions]. *)
Definition play_one (e : ed) (i : instr) : option ed :=
  match i with
  | ISetComp r v => set_comp r v e
  | ISetPar p v => Some (set_par p v e)
  | IAdd s => Some (add_dir s e)
  | IRemove s => Some (rem_dir s e)
  end.
Fixpoint play_all (l : list instr) (e : ed) : option ed :=
  match l with [] => Some e | i :: r => match play_one e i with Some e' => play_all r e' | None => None end end.
Definition play (a : ana) : option ana :=
  if added a then Some a
  else match play_all (instrs a) (cur a) with
       | None => None
       | Some e => Some (Ana (orig a) e (instrs a) true (defaults a) (devices a) (params a) (elements a) (prepared a) (last_run a))
       end.
(** sim_analysis.py:109-114 and tolerance_deviations.py:163-165 [_reset_netlist]; the test bench flag is cleared
    only by the override ([keep] = false); run_testbench calls the base method ([keep] = true). *)
Definition reset_netlist_ (keep : bool) (a : ana) : ana :=
  Ana (orig a) (orig a) (instrs a) false (defaults a) (devices a) (params a) (elements a) (keep && prepared a) (last_run a).
(** sim_analysis.py:116-117 [set_component_value]: recorded only. *)
Definition record (i : instr) (a : ana) : ana :=
  Ana (orig a) (cur a) (instrs a ++ [i]) (added a) (defaults a) (devices a) (params a) (elements a) (prepared a) (last_run a).

(** A new analysis object on an editor: sim_analysis.py:48-59, tolerance_deviations.py:74-84. *)
Definition letters : list string := ["R"; "C"; "L"; "V"; "I"].
Definition new_analysis (e : ed) : ana :=
  Ana e e [] false (map (fun p => (p, no_dev)) letters) [] [] [] false 0%Z.

(** tolerance_deviations.py:101-110 [set_tolerance]. *)
Definition head_is_any (ls : list string) (r : string) : bool :=
  match r with EmptyString => false | String c _ => existsb (String.eqb (String c EmptyString)) ls end.
Definition set_tolerance (ref : string) (t : Q) (dist : string) (a : ana) : ana :=
  if existsb (String.eqb ref) letters then
    Ana (orig a) (cur a) (instrs a) (added a) (aset ref (from_tolerance t dist) (defaults a)) (devices a) (params a) (elements a) (prepared a) (last_run a)
  else if existsb (String.eqb ref) (map fst (comps (cur a))) then
    Ana (orig a) (cur a) (instrs a) (added a) (defaults a) (aset ref (from_tolerance t dist) (devices a)) (params a) (elements a) (prepared a) (last_run a)
  else a.
(** tolerance_deviations.py:121-126 [set_deviation] and 151-152 [set_parameter_deviation]. *)
Definition set_deviation (ref : string) (lo hi : Q) (dist : string) (a : ana) : ana :=
  Ana (orig a) (cur a) (instrs a) (added a) (defaults a) (aset ref (from_min_max lo hi dist) (devices a)) (params a) (elements a) (prepared a) (last_run a).
Definition set_parameter_deviation (p : string) (lo hi : Q) (dist : string) (a : ana) : ana :=
  Ana (orig a) (cur a) (instrs a) (added a) (defaults a) (devices a) (aset p (from_min_max lo hi dist) (params a)) (elements a) (prepared a) (last_run a).

(** tolerance_deviations.py:133-149 [get_component_value_deviation_type].  [None]: an exception (wrong type of
    component or unknown reference). *)
Definition letter_of (r : string) : string := match r with EmptyString => EmptyString | String c _ => String c EmptyString end.
Definition value_and_dev (a : ana) (r : string) : option (value * dev) :=
  if negb (head_is_any letters r) then None                                  (* 134-135 *)
  else match aget r (comps (cur a)) with                                     (* 136 *)
       | None => None
       | Some (VNum q) =>                                                    (* 141 *)
           Some (VNum q, match aget r (devices a) with                       (* 144-149 *)
                         | Some d => d
                         | None => match aget (letter_of r) (defaults a) with Some d => d | None => no_dev end
                         end)
       | Some v => Some (v, no_dev)                                          (* 137-138, 142-143 *)
       end.
(** tolerance_deviations.py:154-156 [get_parameter_value_deviation_type]; ParameterNotFoundError is [None]. *)
Definition par_value_and_dev (a : ana) (p : string) : option (value * dev) :=
  match aget p (pars (cur a)), aget p (params a) with
  | Some v, Some d => Some (v, d)
  | _, _ => None
  end.

(** ** Collecting the elements: worst_case.py:113-134, quick_sensitivity_analysis.py:106-127 and
    fast_worst_case.py:98-105, 156-168 (the same code three times) *)
Inductive kind := KComp | KPar.
Record entry := Ent { e_val : value; e_dev : dev; e_kind : kind }.
(** [worst_case_elements] and [elements_analysed]. *)
Definition work : Type := list (string * entry) * list string.

(** worst_case.py:115-120 [check_and_add_component]. *)
Definition check_and_add (a : ana) (w : work) (r : string) : option work :=
  match value_and_dev a r with
  | None => None
  | Some (v, d) => if is_not_valid d then Some w else Some (aset r (Ent v d KComp) (fst w), snd w ++ [r])
  end.
Fixpoint add_components (a : ana) (rs : list string) (w : work) : option work :=
  match rs with [] => Some w | r :: rest => match check_and_add a w r with Some w' => add_components a rest w' | None => None end end.
(** worst_case.py:125-129. *)
Fixpoint add_parameters (a : ana) (ps : list string) (w : work) : option work :=
  match ps with
  | [] => Some w
  | p :: rest =>
      match par_value_and_dev a p with
      | None => None
      | Some (v, d) => add_parameters a rest (match dtyp d with DNone => w | _ => (aset p (Ent v d KPar) (fst w), snd w ++ [p]) end)
      end
  end.
(** worst_case.py:131-134. *)
Definition default_refs (a : ana) : list string :=
  flat_map (fun pd => match fst pd with
                      | String c EmptyString => filter (fun r => negb (existsb (String.eqb r) (map fst (devices a)))) (refs_with c (cur a))
                      | _ => []
                      end) (defaults a).
Definition collect (a : ana) : option work :=
  match add_components a (map fst (devices a)) ([], []) with
  | None => None
  | Some w =>
      match add_parameters a (map fst (params a)) w with
      | None => None
      | Some w' => add_components a (default_refs a) w'
      end
  end.

(** editor.set_component_value / editor.set_parameter by kind: worst_case.py:174-179. *)
Definition put (k : kind) (ref : string) (v : value) (e : ed) : option ed :=
  match k with KComp => set_comp ref v e | KPar => Some (set_par ref v e) end.

(** ** WorstCaseAnalysis.run_analysis: worst_case.py:101-196 *)

(** worst_case.py:167-173: the value for a set or clear bit.  [None]: a text times a number. *)
Definition wc_value (bit : bool) (x : entry) : option value :=
  match dtyp (e_dev x) with
  | DTol => match e_val x with
            | VNum q => Some (VNum (if bit then q * (1 - dmin (e_dev x)) else q * (1 + dmin (e_dev x))))%Q
            | _ => None
            end
  | DMinMax => Some (VNum (if bit then dmin (e_dev x) else dmax (e_dev x)))
  | DNone => Some (e_val x)
  end.
(** worst_case.py:164-179 for one bit (IndexError and KeyError are [None]). *)
Definition change_bit (setting : entry -> bool -> option value) (w : work) (run : N) (i : nat) (e : ed) : option ed :=
  match nth_error (snd w) i with
  | None => None
  | Some ref =>
      match aget ref (fst w) with
      | None => None
      | Some x =>
          match setting x (N.testbit run (N.of_nat i)) with
          | None => None
          | Some v => put (e_kind x) ref v e
          end
      end
  end.
(** worst_case.py:161-181: [while bit_updated != 0]; one digit of [bit_updated] at a time. *)
Fixpoint change_bits (setting : entry -> bool -> option value) (w : work) (run : N) (p : positive) (i : nat) (e : ed) : option ed :=
  match p with
  | xH => change_bit setting w run i e
  | xO q => change_bits setting w run q (S i) e
  | xI q => match change_bit setting w run i e with Some e' => change_bits setting w run q (S i) e' | None => None end
  end.
Definition change_run (setting : entry -> bool -> option value) (w : work) (run last : N) (e : ed) : option ed :=
  match N.lxor run last with N0 => Some e | Npos p => change_bits setting w run p 0 e end.

(** worst_case.py:158-188: the loop over the runs; the netlists handed to [runner.run] are collected. *)
Fixpoint wc_runs (w : work) (todo : list N) (last : N) (e : ed) : option (list ed * ed) :=
  match todo with
  | [] => Some ([], e)
  | run :: rest =>
      match change_run (fun x b => wc_value b x) w run last e with
      | None => None
      | Some e1 =>
          let e2 := set_par "run" (VNum (inject_Z (Z.of_N run))) e1 in
          match wc_runs w rest run e2 with None => None | Some (sims, e3) => Some (e2 :: sims, e3) end
      end
  end.
Definition runs_upto (n : nat) : list N := map N.of_nat (seq 0 n).

(** The netlists simulated by worst_case.py:101-196, in order, and the state left behind.  Simplification: every
    [run] succeeds; callbacks and log reading are left out. *)
Definition wc_run_analysis (a : ana) : option (list ed * ana) :=
  match collect a with
  | None => None
  | Some w =>
      let n := length (snd w) in
      let a1 := Ana (orig a) (cur a) (instrs a) (added a) (defaults a) (devices a) (params a) (snd w) (prepared a) (2 ^ Z.of_nat n - 1) in
      if (4096 <=? 2 ^ n)%nat then Some ([], a1)                                            (* 143-146 *)
      else
        match play (reset_netlist_ false a1) with                                           (* 148-149 *)
        | None => None
        | Some a2 =>
            let e0 := add_dir ".meas runm PARAM {run}" (set_par "run" (VNum (inject_Z (-1))) (cur a2)) in (* 150-151 *)
            match wc_runs w (runs_upto (2 ^ n)) (2 ^ N.of_nat n - 1) e0 with               (* 158-188 *)
            | None => None
            | Some (sims, e) => Some (e0 :: sims, with_cur e a2)
            end
        end
  end.

(** ** QuickSensitivityAnalysis.run_analysis: quick_sensitivity_analysis.py:95-193 *)

(** quick_sensitivity_analysis.py:155-161. *)
Definition qs_value (x : entry) (bit : bool) : option value :=
  match dtyp (e_dev x) with
  | DTol => match e_val x with VNum q => Some (VNum (if bit then q * (1 + dmin (e_dev x)) else q)%Q) | _ => if bit then None else Some (e_val x) end
  | DMinMax => Some (if bit then VNum (dmin (e_dev x)) else e_val x)
  | DNone => Some (e_val x)
  end.
(** quick_sensitivity_analysis.py:144-176. *)
Fixpoint qs_runs (w : work) (todo : list nat) (last : N) (e : ed) : option (list ed * ed) :=
  match todo with
  | [] => Some ([], e)
  | run :: rest =>
      let setting := (2 ^ N.of_nat run)%N in
      match change_run qs_value w setting last e with
      | None => None
      | Some e1 =>
          let e2 := set_par "run" (VNum (inject_Z (Z.of_nat run))) e1 in
          match qs_runs w rest setting e2 with None => None | Some (sims, e3) => Some (e2 :: sims, e3) end
      end
  end.
Definition qs_run_analysis (a : ana) : option (list ed * ana) :=
  match collect a with
  | None => None
  | Some w =>
      let n := length (snd w) in
      let a1 := Ana (orig a) (cur a) (instrs a) (added a) (defaults a) (devices a) (params a) (snd w) (prepared a) (last_run a) in
      if (4096 <? n)%nat then Some ([], a1)                                                 (* 129-133 *)
      else
        match play (reset_netlist_ false a1) with                                           (* 135-136 *)
        | None => None
        | Some a2 =>
            let e0 := add_dir ".meas runm PARAM {run}" (set_par "run" (VNum (inject_Z (-1))) (cur a2)) in (* 138-139 *)
            match qs_runs w (seq 0 n) 0 e0 with                                             (* 144-176 *)
            | None => None
            | Some (sims, e) => Some (e0 :: sims, with_cur e a2)
            end
        end
  end.

(** ** WorstCaseAnalysis.prepare_testbench and ToleranceDeviations.run_testbench *)

(** worst_case.py:51-66 [_set_component_deviation].  Simplification: the numbers are written exactly ([%g] keeps six digits). *)
Definition set_component_deviation (ref : string) (st : ana * nat) : option (ana * nat) :=
  let (a, idx) := st in
  match value_and_dev a ref with
  | None => None
  | Some (v, d) =>
      if is_not_valid d then Some (a, idx)
      else
        let nv := match dtyp d with DTol => VWc v (dmin d) idx | DMinMax => VWc1 v (dmin d) (dmax d) idx | DNone => v end in
        let a1 := record (ISetComp ref nv) a in
        Some (Ana (orig a1) (cur a1) (instrs a1) (added a1) (defaults a1) (devices a1) (params a1) (elements a1 ++ [ref]) (prepared a1) (last_run a1), S idx)
  end.
Fixpoint prep_components (rs : list string) (st : ana * nat) : option (ana * nat) :=
  match rs with [] => Some st | r :: rest => match set_component_deviation r st with Some st' => prep_components rest st' | None => None end end.
(** worst_case.py:75-85. *)
Fixpoint prep_parameters (ps : list string) (st : ana * nat) : option (ana * nat) :=
  match ps with
  | [] => Some st
  | p :: rest =>
      let (a, idx) := st in
      match par_value_and_dev a p with
      | None => None
      | Some (v, d) =>
          let e := match dtyp d with
                   | DTol => set_par p (VWc v (dmin d) idx) (cur a)
                   | DMinMax => set_par p (VWc1 v (dmin d) (dmax d) idx) (cur a)
                   | DNone => cur a
                   end in
          prep_parameters rest
            (Ana (orig a) e (instrs a) (added a) (defaults a) (devices a) (params a) (elements a ++ [p]) (prepared a) (last_run a), S idx)
      end
  end.
(** worst_case.py:93-95. *)
Definition func_binary := ".func binary(run,idx) {floor(run/(2**idx))-2*floor(run/(2**(idx+1)))}".
Definition func_wc := ".func wc(nom,tol,idx) {if(run<0,nom,nom*(1+tol*(2*binary(run,idx)-1)))}".
Definition func_wc1 := ".func wc1(nom,min,max,idx) {if(run<0, nom, if(binary(run,idx),max,min))}".
(** The ".step" lines are kept as their two bounds: the texts of different bounds differ. *)
Definition z_text (z : Z) : string :=
  (fix go (fuel : nat) (n : N) (acc : string) : string :=
     match fuel with
     | O => acc
     | S f => let acc' := String (ascii_of_N (48 + N.modulo n 10)) acc in if (n <? 10)%N then acc' else go f (N.div n 10) acc'
     end) (S (N.to_nat (N.log2 (Z.abs_N z)))) (Z.abs_N z) EmptyString.
Definition int_text (z : Z) : string := if (z <? 0)%Z then String "-" (z_text z) else z_text z.
Definition step_dir (lo hi : Z) : string := ".step param run " ++ int_text lo ++ " " ++ int_text hi ++ " 1".
(** worst_case.py:68-99 [prepare_testbench]. *)
Definition wc_prepare (a : ana) : option ana :=
  let a0 := Ana (orig a) (cur a) (instrs a) (added a) (defaults a) (devices a) (params a) [] (prepared a) (last_run a) in
  match prep_components (map fst (devices a)) (a0, 0) with
  | None => None
  | Some st1 =>
      match prep_parameters (map fst (params a)) st1 with
      | None => None
      | Some st2 =>
          match prep_components (default_refs (fst st2)) st2 with
          | None => None
          | Some (a3, idx) =>
              let last := (2 ^ Z.of_nat idx - 1)%Z in
              let e := set_par "run" (VNum (inject_Z (-1)))
                         (add_dir (step_dir (-1) last) (add_dir func_wc1 (add_dir func_wc (add_dir func_binary (cur a3))))) in
              Some (Ana (orig a3) e (instrs a3) (added a3) (defaults a3) (devices a3) (params a3) (elements a3) true last)
          end
      end
  end.

(** tolerance_deviations.py:206-209: the number of runs per simulation.  [total % 0] raises ([None]); the loop
    needs at most [total] rounds (proved), which is the fuel. *)
Fixpoint widen (fuel : nat) (total r : Z) : option Z :=
  match fuel with
  | O => None
  | S f => if Z.eqb r 0 then None else if Z.eqb (Z.modulo total r) 1 then widen f total (r + 1) else Some r
  end.
Definition runs_per_batch (last limit : Z) : option Z :=
  let total := (last + 2)%Z in widen (S (S (Z.to_nat total))) total (Z.min limit total).
(** Python's [range(lo, hi, step)] for a positive step (empty for a negative step with lo < hi); step 0 raises. *)
Definition py_range (lo hi step : Z) : list Z :=
  if (step <=? 0)%Z then [] else
  map (fun k => (lo + Z.of_nat k * step)%Z) (seq 0 (Z.to_nat ((hi - lo + step - 1) / step))).
(** tolerance_deviations.py:211-216: first and last run of each batch. *)
Definition batches (last limit : Z) : option (list (Z * Z)) :=
  match runs_per_batch last limit with
  | None => None
  | Some r => Some (map (fun s => (s, Z.min (s + r - 1) last)%Z) (py_range (-1) (last + 1) r))
  end.

(** tolerance_deviations.py:196-222 [run_testbench]: the netlists handed to the runner, one per batch. *)
Fixpoint run_batches (bs : list (Z * Z)) (e : ed) : list ed :=
  match bs with
  | [] => []
  | (lo, hi) :: r => let e1 := add_dir (step_dir lo hi) e in e1 :: run_batches r (rem_dir (step_dir lo hi) e1)
  end.
Definition run_testbench (a : ana) (limit : Z) : option (list ed) :=
  let ready :=
    if prepared a then play a                                                               (* 201 *)
    else match play (reset_netlist_ true a) with None => None | Some a1 => wc_prepare a1 end in  (* 197-199 *)
  match ready with
  | None => None
  | Some a2 =>
      match batches (last_run a2) limit with
      | None => None
      | Some bs => Some (run_batches bs (rem_dir (step_dir (-1) (last_run a2)) (cur a2)))
      end
  end.

(** ** Sensitivities *)

(** worst_case.py:237-249 [diff_for_a_ref] (the mean; the standard deviation is left out). *)
Definition diffs (data : list Q) (bit : nat) : list Q :=
  flat_map (fun run => if N.eqb (N.land (N.of_nat run) (2 ^ N.of_nat bit)) 0
                       then [Qabs (nth run data 0 - nth (N.to_nat (N.lor (N.of_nat run) (2 ^ N.of_nat bit))) data 0)] else [])%Q
           (seq 0 (length data)).
Fixpoint qsum (l : list Q) : Q := match l with [] => 0 | x :: r => x + qsum r end%Q.
Definition qmean (l : list Q) : Q := (qsum l / inject_Z (Z.of_nat (length l)))%Q.
(** [list.index]. *)
Fixpoint index_of (x : string) (l : list string) : nat :=
  match l with [] => 0 | y :: r => if String.eqb x y then 0 else S (index_of x r) end.
(** worst_case.py:251-254: a dict by reference. *)
Definition sensitivities (els : list string) (data : list Q) : list (string * Q) :=
  fold_left (fun d r => aset r (qmean (diffs data (index_of r els))) d) els [].
(** worst_case.py:255-270: the percentages; division by zero raises ZeroDivisionError ([None]), also for an empty list of
    differences (line 246).  [data] is measure by run 0..last_run_number (line 235). *)
Definition sensitivity_all (els : list string) (data : list Q) : option (list (string * Q)) :=
  let s := sensitivities els data in
  let total := qsum (map snd s) in
  match s with
  | [] => Some []
  | _ => if Qeq_bool total 0 then None else Some (map (fun x => (fst x, snd x / total * 100)) s)%Q
  end.
Definition sensitivity_one (els : list string) (data : list Q) (ref : string) : option Q :=
  let s := sensitivities els data in
  let total := qsum (map snd s) in
  match aget ref s with
  | None => None
  | Some x => if Qeq_bool total 0 then None else Some (x / total * 100)%Q
  end.
(** quick_sensitivity_analysis.py:77-89 [get_sensitivity_data('*')]. *)
Definition quick_errors (nominal : Q) (data : list Q) : list Q := map (fun x => Qabs (x - nominal)%Q) data.
Definition quick_sensitivity (nominal : Q) (data : list Q) : list Q :=
  let errs := quick_errors nominal data in
  let total := qsum errs in
  map (fun x => if Qeq_bool total 0 then 0 else x / total * 100)%Q errs.
