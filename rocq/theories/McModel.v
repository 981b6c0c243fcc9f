(** Model of spicelib/sim/tookit/montecarlo.py on the analyses of TolModel, and of the number format "%g" it writes with.
    Simplifications: numbers are exact rationals; what is drawn at random is given ([uni]: the result of random.random() in [0, 1],
    [gau]: that of a standard normal distribution) for each run and element, since every draw uses a new generator. *)
From Coq Require Import String Ascii List Bool Arith ZArith QArith Qabs.
From Verif Require Import PyStr EngModel TolModel.
Import ListNotations.
Local Open Scope string_scope. Local Open Scope nat_scope. Local Open Scope list_scope.

(** ** f"{v:g}" and "%g" % v: six significant digits, without trailing zeros; an exponent below -4 or above 5 *)
Definition g_parts (a : Q) : Z * Z :=
  let D0 := log_floor 10 a in
  let N0 := round_he (a * Qpower 10 (5 - D0)) in
  if (N0 =? 1000000)%Z then (100000%Z, (D0 + 1)%Z) else (N0, D0).
Definition g_exponent (D : Z) : str :=
  let ex := dec (Z.abs_nat D) in
  "e"%char :: (if (D <? 0)%Z then "-"%char else "+"%char) :: match ex with [_] => "0"%char :: ex | _ => ex end.
Definition g_text (N D : Z) : str :=
  let ds := digits 6 N in
  if (D <? -4)%Z || (6 <=? D)%Z then with_point 1 ds ++ g_exponent D
  else if (0 <=? D)%Z then with_point (Z.to_nat D + 1) ds
  else s2l "0." ++ repeat "0"%char (Z.to_nat (- D - 1)) ++ strip_zeros ds.
Definition show_g (v : Q) : str :=
  if Qeq_bool v 0 then s2l "0"
  else let '(N, D) := g_parts (Qabs v) in (if Qltb v 0 then ["-"%char] else []) ++ g_text N D.
(** The number such a text stands for (float_unit.py: scan_eng). *)
Definition written (v : Q) : Q := match scan_eng (show_g v) with Some r => r | None => 0%Q end.

(** ** One value: montecarlo.py:156-181 [_get_sim_value]; [None]: TypeError (a text times a number); [Some None]: the value given.
    random.uniform(a, b) is a + (b - a) * random(); random.gauss(m, s) is m + s times a standard normal. *)
Definition get_sim_value (uni gau : Q) (v : value) (d : dev) : option (option value) :=
  match dtyp d with
  | DTol =>
      if String.eqb (ddist d) "uniform" then
        match v with
        | VNum q => let a := (q * (1 - dmin d))%Q in let b := (q * (1 + dmin d))%Q in Some (Some (VNum (written (a + (b - a) * uni))))
        | _ => None
        end
      else if String.eqb (ddist d) "normal" then
        match v with VNum q => Some (Some (VNum (written (q * (1 + (dmin d / 3) * gau))))) | _ => None end
      else Some None
  | DMinMax =>
      if String.eqb (ddist d) "uniform" then Some (Some (VNum (written (dmin d + (dmax d - dmin d) * uni))))
      else if String.eqb (ddist d) "normal" then Some (Some (VNum (written ((dmax d + dmin d) / 2 + (dmax d - dmin d) / 6 * gau))))
      else Some None
  | DNone => Some None
  end.

(** ** Montecarlo.run_analysis: montecarlo.py:183-227 *)
(** tolerance_deviations.py:128-131 [get_components] of '*'. *)
Definition all_refs (a : ana) : list string := filter (head_is_any letters) (map fst (comps (cur a))).
(** montecarlo.py:201-206 (an equal value is not written: the same netlist). *)
Fixpoint vary_components (uni gau : kind -> string -> Q) (rs : list string) (a : ana) : option ana :=
  match rs with
  | [] => Some a
  | r :: rest =>
      match value_and_dev a r with
      | None => None
      | Some (v, d) =>
          match get_sim_value (uni KComp r) (gau KComp r) v d with
          | None => None
          | Some None => vary_components uni gau rest a
          | Some (Some w) => match set_comp r w (cur a) with Some e => vary_components uni gau rest (with_cur e a) | None => None end
          end
      end
  end.
(** montecarlo.py:207-212. *)
Fixpoint vary_parameters (uni gau : kind -> string -> Q) (ps : list string) (a : ana) : option ana :=
  match ps with
  | [] => Some a
  | p :: rest =>
      match par_value_and_dev a p with
      | None => None
      | Some (v, d) =>
          match get_sim_value (uni KPar p) (gau KPar p) v d with
          | None => None
          | Some None => vary_parameters uni gau rest a
          | Some (Some w) => vary_parameters uni gau rest (with_cur (set_par p w (cur a)) a)
          end
      end
  end.
(** montecarlo.py:198-216: one turn of the loop. *)
Definition mc_run (uni gau : kind -> string -> Q) (a : ana) : option ana :=
  match play (reset_netlist_ false a) with
  | None => None
  | Some a1 =>
      match vary_components uni gau (all_refs a1) a1 with
      | None => None
      | Some a2 => vary_parameters uni gau (map fst (params a2)) a2
      end
  end.
Fixpoint mc_runs (uni gau : nat -> kind -> string -> Q) (todo : list nat) (a : ana) : option (list ed * ana) :=
  match todo with
  | [] => Some ([], a)
  | i :: rest =>
      match mc_run (uni i) (gau i) a with
      | None => None
      | Some a1 => match mc_runs uni gau rest a1 with None => None | Some (sims, a2) => Some (cur a1 :: sims, a2) end
      end
  end.
(** The netlists simulated, in order, and the state left behind; every [run] succeeds; 196: elements_analysed is cleared. *)
Definition mc_run_analysis (uni gau : nat -> kind -> string -> Q) (num_runs : nat) (a : ana) : option (list ed * ana) :=
  mc_runs uni gau (seq 0 num_runs)
    (Ana (orig a) (cur a) (instrs a) (added a) (defaults a) (devices a) (params a) [] (prepared a) (last_run a)).

(** ** Montecarlo.prepare_testbench: montecarlo.py:61-154 *)
Inductive simulator := LTspice | Qspice | OtherSim.
(** The text of a value: format_eng of a number (float_unit.py:314-320; the unit is left out). *)
Definition value_text (v : value) : option str := match v with VNum q => Some (format_eng q) | VText s => Some (s2l s) | _ => None end.
Fixpoint commas (l : list str) : str := match l with [] => [] | [x] => x | x :: r => x ++ ","%char :: commas r end.
Definition call_text (f : string) (args : list str) : string := l2s (["{"%char] ++ s2l f ++ ["("%char] ++ commas args ++ s2l ")}").
(** 76: ('%g' % dev.tolerance).rstrip('0').rstrip('.') *)
Definition tol_text (t : Q) : str := rstrip_if (aeqb ".") (rstrip_if (aeqb "0") (show_g t)).
(** Which functions are needed: utol, ntol, urng, nrng. *)
Record needs := Needs { n_utol : bool; n_ntol : bool; n_urng : bool; n_nrng : bool }.
(** 72-94 for one component.  [None]: an exception. *)
Definition mc_component (r : string) (st : ana * needs) : option (ana * needs) :=
  let '(a, n) := st in
  match value_and_dev a r with
  | None => None
  | Some (v, d) =>
      match dtyp d with
      | DNone => Some st
      | _ =>
          match value_text v with
          | None => None
          | Some t =>
              let new :=
                if String.eqb (ddist d) "uniform" then
                  match dtyp d with
                  | DTol => Some (call_text "utol" [t; tol_text (dmin d)], Needs true (n_ntol n) (n_urng n) (n_nrng n))
                  | _ => Some (call_text "urng" [t; show_g ((dmax d + dmin d) / 2); show_g ((dmax d - dmin d) / 2)], Needs (n_utol n) (n_ntol n) true (n_nrng n))
                  end
                else if String.eqb (ddist d) "normal" then
                  match dtyp d with
                  | DTol => Some (call_text "ntol" [t; tol_text (dmin d)], Needs (n_utol n) true (n_urng n) (n_nrng n))
                  | _ => Some (call_text "nrng" [t; show_g ((dmax d + dmin d) / 2); show_g ((dmax d - dmin d) / 6)], n)
                  end
                else None in
              match new with
              | None => Some st
              | Some (w, n') =>
                  let a1 := record (ISetComp r (VText w)) a in
                  Some (Ana (orig a1) (cur a1) (instrs a1) (added a1) (defaults a1) (devices a1) (params a1) (elements a1 ++ [r]) (prepared a1) (last_run a1), n')
              end
          end
      end
  end.
Fixpoint mc_components (rs : list string) (st : ana * needs) : option (ana * needs) :=
  match rs with [] => Some st | r :: rest => match mc_component r st with Some st' => mc_components rest st' | None => None end end.
(** 96-116.  Parameters have a minimum and a maximum (tolerance_deviations.py:151-152). *)
Definition mc_parameter (p : string) (st : ana * needs) : option (ana * needs) :=
  let '(a, n) := st in
  match par_value_and_dev a p with
  | None => None
  | Some (v, d) =>
      match dtyp d with
      | DNone => Some st
      | _ =>
          match value_text v with
          | None => None
          | Some t =>
              let '(w, n') :=
                if String.eqb (ddist d) "uniform" then (VText (call_text "urng" [t; show_g ((dmax d + dmin d) / 2); show_g ((dmax d - dmin d) / 2)]), Needs (n_utol n) (n_ntol n) true (n_nrng n))
                else if String.eqb (ddist d) "normal" then (VText (call_text "nrng" [t; show_g ((dmax d + dmin d) / 2); show_g ((dmax d - dmin d) / 6)]), Needs (n_utol n) (n_ntol n) (n_urng n) true)
                else (v, n) in
              Some (Ana (orig a) (set_par p w (cur a)) (instrs a) (added a) (defaults a) (devices a) (params a) (elements a ++ [p]) (prepared a) (last_run a), n')
          end
      end
  end.
Fixpoint mc_parameters (ps : list string) (st : ana * needs) : option (ana * needs) :=
  match ps with [] => Some st | p :: rest => match mc_parameter p st with Some st' => mc_parameters rest st' | None => None end end.
(** 118-149. *)
Definition functions (s : simulator) (n : needs) : option (list string) :=
  match s with
  | LTspice => Some ((if n_utol n then [".func utol(nom,tol) if(run<0, nom, mc(nom,tol))"] else []) ++
                     (if n_ntol n then [".func ntol(nom,tol) if(run<0, nom, nom*(1+gauss(tol/3)))"] else []) ++
                     (if n_urng n then [".func urng(nom,mean,df2) if(run<0, nom, mean+flat(df2))"] else []) ++
                     (if n_nrng n then [".func nrng(nom,mean,df6) if(run<0, nom, mean*(1+gauss(df6)))"] else []))
  | Qspice => Some ((if n_utol n then [".func utol(nom,tol) {if(run<0, nom, nom*(1+tol*(2*random()-1)))}"] else []) ++
                    (if n_ntol n then [".func ntol(nom,tol) {if(run<0, nom, nom*(1+gauss(tol/3)))}"] else []) ++
                    (if n_urng n then [".func urng(nom,mean,df2) if(run<0, nom, mean+(df2*(2*random()-1))"] else []) ++
                    (if n_nrng n then [".func nrng(nom,mean,df6) if(run<0, nom, mean*(1+gauss(df6)))"] else []))
  | OtherSim => None
  end.
(** 151: kwargs.get('num_runs', ...). *)
Definition number_of_runs (num_runs : option Z) (last : Z) : Z := match num_runs with Some n => n | None => if Z.eqb last 0 then 1000%Z else last end.
Definition mc_prepare (s : simulator) (num_runs : option Z) (a : ana) : option ana :=
  let a0 := Ana (orig a) (cur a) (instrs a) (added a) (defaults a) (devices a) (params a) [] (prepared a) (last_run a) in
  match mc_components (all_refs a0) (a0, Needs false false false false) with
  | None => None
  | Some st =>
      match mc_parameters (map fst (params (fst st))) st with
      | None => None
      | Some (a1, n) =>
          match functions s n with
          | None => None
          | Some fs =>
              let last := number_of_runs num_runs (last_run a1) in
              let e := set_par "run" (VNum (inject_Z (-1))) (add_dir (step_dir (-1) last) (fold_left (fun e f => add_dir f e) fs (cur a1))) in
              Some (Ana (orig a1) e (instrs a1) (added a1) (defaults a1) (devices a1) (params a1) (elements a1) true last)
          end
      end
  end.
(** tolerance_deviations.py:196-222 [run_testbench] with this prepare_testbench. *)
Definition mc_testbench (s : simulator) (limit : Z) (a : ana) : option (list ed) :=
  let ready := if prepared a then play a else match play (reset_netlist_ true a) with None => None | Some a1 => mc_prepare s None a1 end in
  match ready with
  | None => None
  | Some a2 => match batches (last_run a2) limit with
               | None => None
               | Some bs => Some (run_batches bs (rem_dir (step_dir (-1) (last_run a2)) (cur a2)))
               end
  end.
