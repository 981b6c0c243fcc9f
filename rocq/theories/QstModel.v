(** Model of the test bench of the quick sensitivity analysis: spicelib/sim/tookit/quick_sensitivity_analysis.py:34-61 [prepare_testbench]
    with tolerance_deviations.py:171-227 [run_testbench], on the analyses of TolModel.
    Simplifications: those of TolModel; the value of a component is written as format_eng writes it (its unit is left out). *)
From Coq Require Import String Ascii List Bool Arith ZArith QArith.
From Verif Require Import PyStr EngModel TolModel McModel.
Import ListNotations.
Local Open Scope string_scope. Local Open Scope nat_scope. Local Open Scope list_scope.

(** quick_sensitivity_analysis.py:39-51, for one component; [None]: an exception. *)
Definition qst_component (use_min : bool) (r : string) (st : ana * nat) : option (ana * nat) :=
  let '(a, no) := st in
  match value_and_dev a r with
  | None => None
  | Some (v, d) =>
      match dtyp d with
      | DNone => Some st
      | _ =>
          match value_text v with
          | None => None
          | Some t =>
              let w := match dtyp d with
                       | DTol => call_text "satol" [t; show_g (dmin d); dec no]
                       | _ => call_text "sammx" [t; show_g (if use_min then dmin d else dmax d); dec no]
                       end in
              let a1 := record (ISetComp r (VText w)) a in
              Some (Ana (orig a1) (cur a1) (instrs a1) (added a1) (defaults a1) (devices a1) (params a1) (elements a1 ++ [r]) (prepared a1) (last_run a1), S no)
          end
      end
  end.
Fixpoint qst_components (use_min : bool) (rs : list string) (st : ana * nat) : option (ana * nat) :=
  match rs with [] => Some st | r :: rest => match qst_component use_min r st with Some st' => qst_components use_min rest st' | None => None end end.
(** 54-58 *)
Definition func_satol (use_min : bool) : string :=
  if use_min then ".func satol(nom,tol,idx) nom*if(run==idx,1-tol,1)" else ".func satol(nom,tol,idx) nom*if(run==idx,1+tol,1)".
Definition func_sammx : string := ".func sammx(nom,val,idx) if(run==idx,val,nom)".
(** 36-38, 53-61 *)
Definition qst_prepare (use_min : bool) (a : ana) : option ana :=
  let a0 := Ana (orig a) (cur a) (instrs a) (added a) (defaults a) (devices a) (params a) [] (prepared a) (last_run a) in
  match qst_components use_min (all_refs a0) (a0, 0) with
  | None => None
  | Some (a1, no) =>
      let last := (Z.of_nat no - 1)%Z in
      let e := set_par "run" (VNum (inject_Z (-1))) (add_dir (step_dir (-1) last) (add_dir func_sammx (add_dir (func_satol use_min) (cur a1)))) in
      Some (Ana (orig a1) e (instrs a1) (added a1) (defaults a1) (devices a1) (params a1) (elements a1) true last)
  end.
(** tolerance_deviations.py:195-222 with this prepare_testbench (called without use_min). *)
Definition qst_testbench (limit : Z) (a : ana) : option (list ed) :=
  let ready := if prepared a then play a else match play (reset_netlist_ true a) with None => None | Some a1 => qst_prepare false a1 end in
  match ready with
  | None => None
  | Some a2 => match batches (last_run a2) limit with
               | None => None
               | Some bs => Some (run_batches bs (rem_dir (step_dir (-1) (last_run a2)) (cur a2)))
               end
  end.

(** ** worst_case.py:198-214 [get_min_max_measure_value]: [None]: an exception; [Some None]: the result None.  [executed]: analysis_executed;
    [sims]: the number of simulations.  The measurement is not named as a step variable; its name is in lower case. *)
Fixpoint least (x : Q) (l : list Q) : Q := match l with [] => x | y :: r => least (if Qle_bool x y then x else y) r end.
Fixpoint greatest (x : Q) (l : list Q) : Q := match l with [] => x | y :: r => greatest (if Qle_bool y x then x else y) r end.
Definition get_min_max (executed : bool) (sims : nat) (meas : option (list Q)) : option (option (Q * Q)) :=
  if executed then
    match meas with
    | None => None                                             (* logfile_data.py:181: IndexError *)
    | Some vs =>
        if Nat.eqb (length vs) sims then
          match vs with x :: r => Some (Some (least x r, greatest x r)) | [] => None end
        else Some None
    end
  else Some None.
