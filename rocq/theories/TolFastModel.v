(** Model of spicelib/sim/tookit/fast_worst_case.py: FastWorstCaseAnalysis.run_analysis. *)
From Coq Require Import String Ascii List Bool Arith ZArith NArith QArith.
From Verif Require Import TolModel.
Import ListNotations.
Local Open Scope string_scope. Local Open Scope nat_scope. Local Open Scope list_scope.

(** fast_worst_case.py:30-33 [WorstCaseType]. *)
Inductive wct := Nom | Max | Min.

(** fast_worst_case.py:107-133 [value_change]; [None]: a text times a number. *)
Definition value_change (v : value) (d : dev) (t : wct) : option value :=
  match dtyp d, t with
  | DTol, Max => match v with VNum q => Some (VNum (q * (1 + dmin d)))%Q | _ => None end
  | DTol, Min => match v with VNum q => Some (VNum (q * (1 - dmin d)))%Q | _ => None end
  | DMinMax, Max => Some (VNum (dmax d))
  | DMinMax, Min => Some (VNum (dmin d))
  | _, _ => Some v
  end.
(** fast_worst_case.py:135-143 [set_ref_to]. *)
Definition set_ref_to (w : work) (ref : string) (t : wct) (e : ed) : option ed :=
  match aget ref (fst w) with
  | None => None
  | Some x => match value_change (e_val x) (e_dev x) t with None => None | Some v => put (e_kind x) ref v e end
  end.
Definition side (up : bool) : wct := if up then Max else Min.

Section Search.
  (** The simulator and the log file: the measurement of a netlist.  Simplification: every simulation succeeds and yields a number. *)
  Variable measure : ed -> Q.

  (** fast_worst_case.py:179-186: each element in turn to its maximum; the measurements in order. *)
  Fixpoint raise_all (w : work) (els : list string) (e : ed) : option (list Q * ed) :=
    match els with
    | [] => Some ([], e)
    | r :: rest =>
        match set_ref_to w r Max e with
        | None => None
        | Some e1 => match raise_all w rest e1 with None => None | Some (ms, e2) => Some (measure e1 :: ms, e2) end
        end
    end.
  (** fast_worst_case.py:193-204: the sign of each difference to the measurement before. *)
  Fixpoint signs (els : list string) (last : Q) (ms : list Q) (d : list (string * bool)) : list (string * bool) :=
    match els, ms with
    | r :: rest, m :: ms' => signs rest m ms' (aset r (negb (Qle_bool (m - last) 0)) d)
    | _, _ => d
    end.
  (** fast_worst_case.py:209-213. *)
  Fixpoint lower_some (w : work) (l : list (string * bool)) (e : ed) : option (bool * ed) :=
    match l with
    | [] => Some (false, e)
    | (r, true) :: rest => lower_some w rest e
    | (r, false) :: rest =>
        match set_ref_to w r Min e with
        | None => None
        | Some e1 => match lower_some w rest e1 with None => None | Some (_, e2) => Some (true, e2) end
        end
    end.
  (** fast_worst_case.py:222-248: the check of the maximum.  [iterator(self.elements_analysed)] in line 242 calls an iterator: TypeError. *)
  Fixpoint check_max (w : work) (els : list string) (setting : list (string * bool)) (maxv : Q) (e : ed) : option ed :=
    match els with
    | [] => Some e
    | r :: rest =>
        match aget r setting with
        | None => None
        | Some up =>
            match set_ref_to w r (side (negb up)) e with
            | None => None
            | Some e1 =>
                if negb (Qle_bool (measure e1) maxv) then None
                else match set_ref_to w r (side up) e1 with None => None | Some e2 => check_max w rest setting maxv e2 end
            end
        end
    end.
  (** fast_worst_case.py:253-258. *)
  Fixpoint set_all (w : work) (els : list string) (setting : list (string * bool)) (e : ed) : option ed :=
    match els with
    | [] => Some e
    | r :: rest =>
        match aget r setting with
        | None => None
        | Some up => match set_ref_to w r (side up) e with None => None | Some e1 => set_all w rest setting e1 end
        end
    end.
  (** fast_worst_case.py:265-291: the check of the minimum, which starts again after each improvement.  The fuel is proved to suffice. *)
  Fixpoint check_min (fuel : nat) (w : work) (all els : list string) (setting : list (string * bool)) (minv : Q) (e : ed)
    : option (list (string * bool) * Q * ed) :=
    match fuel with
    | O => None
    | S fu =>
        match els with
        | [] => Some (setting, minv, e)
        | r :: rest =>
            match aget r setting with
            | None => None
            | Some up =>
                match set_ref_to w r (side (negb up)) e with
                | None => None
                | Some e1 =>
                    if negb (Qle_bool minv (measure e1)) then
                      match set_ref_to w r (side (negb up)) e1 with
                      | None => None
                      | Some e2 => check_min fu w all all (aset r (negb up) setting) (measure e1) e2
                      end
                    else
                      match set_ref_to w r (side up) e1 with
                      | None => None
                      | Some e2 => check_min fu w all rest setting minv e2
                      end
                end
            end
        end
    end.
  (** fast_worst_case.py:293-306: the values of the elements at a setting. *)
  Fixpoint comp_values (w : work) (els : list string) (setting : list (string * bool)) (d : list (string * value)) : option (list (string * value)) :=
    match els with
    | [] => Some d
    | r :: rest =>
        match aget r (fst w), aget r setting with
        | Some x, Some up => match value_change (e_val x) (e_dev x) (side up) with None => None | Some v => comp_values w rest setting (aset r v d) end
        | _, _ => None
        end
    end.

  Record fast_result := Fast { f_nominal : Q; f_min : Q; f_max_values : list (string * value); f_max : Q; f_min_values : list (string * value) }.

  (** fast_worst_case.py:83-313 [run_analysis]. *)
  Definition fast_run_analysis (a : ana) : option (fast_result * ana) :=
    match collect a with
    | None => None
    | Some w =>
        let els := snd w in
        let a1 := Ana (orig a) (cur a) (instrs a) (added a) (defaults a) (devices a) (params a) els (prepared a) (last_run a) in
        match play (reset_netlist_ false a1) with                                     (* 172-173 *)
        | None => None
        | Some a2 =>
            let nominal := measure (cur a2) in                                        (* 175-177, 191 *)
            match raise_all w els (cur a2) with                                       (* 180-186 *)
            | None => None
            | Some (ms, e1) =>
                let max0 := signs els nominal ms [] in                                (* 193-204 *)
                match lower_some w max0 e1 with                                       (* 209-213 *)
                | None => None
                | Some (changed, e2) =>
                    let maxv := if changed then measure e2 else last ms nominal in    (* 214-220 *)
                    match check_max w els max0 maxv e2 with                           (* 222-248 *)
                    | None => None
                    | Some e3 =>
                        let min0 := map (fun rb => (fst rb, negb (snd rb))) max0 in   (* 251 *)
                        match set_all w els min0 e3 with                              (* 253-258 *)
                        | None => None
                        | Some e4 =>
                            let n := length els in
                            match check_min ((2 ^ n + 2) * (n + 2)) w els els min0 (measure e4) e4 with   (* 262-291 *)
                            | None => None
                            | Some (mins, minv, e5) =>
                                match comp_values w els mins [], comp_values w els max0 [] with          (* 293-306 *)
                                | Some minc, Some maxc =>
                                    (* 308-311: reset_netlist forgets the recorded edits *)
                                    let a3 := Ana (orig a2) (orig a2) [] true (defaults a2) (devices a2) (params a2) (elements a2) false (last_run a2) in
                                    Some (Fast nominal minv maxc maxv minc, a3)       (* 313 *)
                                | _, _ => None
                                end
                            end
                        end
                    end
                end
            end
        end
    end.
End Search.
