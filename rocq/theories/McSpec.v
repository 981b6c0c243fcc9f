(** What a Monte Carlo analysis promises, stated on the netlists handed to the simulator. *)
From Coq Require Import String Ascii List Bool Arith ZArith QArith Qabs.
From Verif Require Import PyStr EngModel EngSpec TolModel TolSpec McModel.
Import ListNotations.
Local Open Scope string_scope. Local Open Scope nat_scope. Local Open Scope list_scope.

(** [x] is [y] written with six significant digits. *)
Definition rounded (x y : Q) : Prop := close x y /\ (six_digits y -> (x == y)%Q).
Definition between (l h x : Q) : Prop := (l <= x <= h)%Q \/ (h <= x <= l)%Q.
(** A value drawn from deviation [d] around [q]: evenly between the extremes, or with the extremes at three standard deviations. *)
Definition drawn (d : dev) (q uni gau x : Q) : Prop :=
  let l := low q d in let h := high q d in
  (ddist d = "uniform" -> rounded x (l + (h - l) * uni) /\ (six_digits l -> six_digits h -> between l h x)) /\
  (ddist d = "normal" -> rounded x ((l + h) / 2 + (h - l) / 6 * gau)).
Definition known (d : dev) : Prop := ddist d = "uniform" \/ ddist d = "normal".
(** Component [r], with value [q] in netlist [n], has deviation [d]: its own or else that of its letter. *)
Definition comp_has (a : ana) (n : ed) (r : string) (q : Q) (d : dev) : Prop :=
  aget r (comps n) = Some (VNum q) /\ dtyp d <> DNone /\ head_is_any letters r = true /\
  (aget r (devices a) = Some d \/ (aget r (devices a) = None /\ aget (letter_of r) (defaults a) = Some d)).
(** [s] is [n] with random values for what deviates, all else unchanged. *)
Definition random_netlist (a : ana) (n : ed) (uni gau : kind -> string -> Q) (s : ed) : Prop :=
  (forall r q d, comp_has a n r q d -> known d -> exists x, aget r (comps s) = Some (VNum x) /\ drawn d q (uni KComp r) (gau KComp r) x) /\
  (forall p d, aget p (params a) = Some d -> known d -> exists x, aget p (pars s) = Some (VNum x) /\ drawn d 0 (uni KPar p) (gau KPar p) x) /\
  (forall r, (forall q d, comp_has a n r q d -> ~ known d) -> aget r (comps s) = aget r (comps n)) /\
  (forall p, (forall d, aget p (params a) = Some d -> ~ known d) -> aget p (pars s) = aget p (pars n)) /\
  map fst (comps s) = map fst (comps n) /\ dirs s = dirs n.
(** The same settings and recorded edits; the netlist in the editor may differ. *)
Definition same_analysis (a b : ana) : Prop :=
  orig a = orig b /\ instrs a = instrs b /\ defaults a = defaults b /\ devices a = devices b /\ params a = params b.

(** ** The test bench *)
(** The functions, with the meaning the simulators give them: in every run [w] is drawn evenly from -1 to 1 (mc(x,y) is x(1+yw), flat(x) is
    xw, random() is (1+w)/2) and [g] from the standard normal distribution (gauss(s) is sg). *)
Definition lt_utol := ".func utol(nom,tol) if(run<0, nom, mc(nom,tol))".
Definition q_utol := ".func utol(nom,tol) {if(run<0, nom, nom*(1+tol*(2*random()-1)))}".
Definition lt_ntol := ".func ntol(nom,tol) if(run<0, nom, nom*(1+gauss(tol/3)))".
Definition q_ntol := ".func ntol(nom,tol) {if(run<0, nom, nom*(1+gauss(tol/3)))}".
Definition lt_urng := ".func urng(nom,mean,df2) if(run<0, nom, mean+flat(df2))".
Definition nrng_def := ".func nrng(nom,mean,df6) if(run<0, nom, mean*(1+gauss(df6)))".
(** The text is a complete number. *)
Definition reads (s : str) (q : Q) : Prop := exists r, parse_value s = Some (r, []) /\ (r == q)%Q.
Definition fcall2 (f : string) (x y : str) (s : string) : Prop := s2l s = ["{"%char] ++ s2l f ++ ["("%char] ++ x ++ [","%char] ++ y ++ [")"%char; "}"%char].
Definition fcall3 (f : string) (x y z : str) (s : string) : Prop := s2l s = ["{"%char] ++ s2l f ++ ["("%char] ++ x ++ [","%char] ++ y ++ [","%char] ++ z ++ [")"%char; "}"%char].
Inductive means (defs : list string) (run : Z) (w g : Q) : string -> Q -> Prop :=
| M_utol s n t q tol : In lt_utol defs \/ In q_utol defs -> fcall2 "utol" n t s -> reads n q -> reads t tol -> means defs run w g s (if (run <? 0)%Z then q else q * (1 + tol * w))%Q
| M_ntol s n t q tol : In lt_ntol defs \/ In q_ntol defs -> fcall2 "ntol" n t s -> reads n q -> reads t tol -> means defs run w g s (if (run <? 0)%Z then q else q * (1 + tol / 3 * g))%Q
| M_urng s n m f q mean df2 : In lt_urng defs -> fcall3 "urng" n m f s -> reads n q -> reads m mean -> reads f df2 -> means defs run w g s (if (run <? 0)%Z then q else mean + df2 * w)%Q
| M_nrng s n m f q mean df6 : In nrng_def defs -> fcall3 "nrng" n m f s -> reads n q -> reads m mean -> reads f df6 -> means defs run w g s (if (run <? 0)%Z then q else mean * (1 + df6 * g))%Q.
(** What is wanted: the nominal value in run -1, and in the others a value drawn between the extremes, or with the extremes at three
    standard deviations. *)
Definition deviated (d : dev) (q : Q) (run : Z) (w g : Q) : Q :=
  let l := low q d in let h := high q d in
  if (run <? 0)%Z then q else if String.eqb (ddist d) "uniform" then (l + h) / 2 + (h - l) / 2 * w else (l + h) / 2 + (h - l) / 6 * g.
(** The deviations that come out right: tolerances, and with LTspice even distributions between a minimum and a maximum. *)
Definition covered (lt : bool) (d : dev) : Prop := known d /\ (dtyp d = DTol \/ (dtyp d = DMinMax /\ ddist d = "uniform" /\ lt = true)).
(** The numbers in the formula can be written with six digits. *)
Definition short (q : Q) (d : dev) : Prop :=
  six_digits q /\ (dtyp d = DTol -> six_digits (dmin d) /\ (1 # 10000 <= dmin d <= 1)%Q) /\
  (dtyp d = DMinMax -> six_digits ((dmax d + dmin d) / 2) /\ six_digits ((dmax d - dmin d) / 2)).
Definition behaves (defs : list string) (d : dev) (q : Q) (v : option value) : Prop :=
  exists s, v = Some (VText s) /\ forall run w g, exists x, means defs run w g s x /\ (x == deviated d q run w g)%Q.
(** [s] is the test bench of netlist [n] for the runs [lo]..[hi]. *)
Definition mc_bench (a : ana) (n : ed) (lt : bool) (lo hi : Z) (s : ed) : Prop :=
  (forall r q d, comp_has a n r q d -> covered lt d -> short q d -> behaves (dirs s) d q (aget r (comps s))) /\
  (forall p q d, aget p (params a) = Some d -> aget p (pars n) = Some (VNum q) -> covered lt d -> short q d -> behaves (dirs s) d q (aget p (pars s))) /\
  (forall r, (forall q d, comp_has a n r q d -> ~ known d) -> aget r (comps s) = aget r (comps n)) /\
  (forall p, p <> "run" -> (forall d, aget p (params a) = Some d -> ~ known d) -> aget p (pars s) = aget p (pars n)) /\
  aget "run" (pars s) = Some (VNum (inject_Z (-1))) /\ map fst (comps s) = map fst (comps n) /\
  exists fs, dirs s = dirs n ++ fs ++ [step_dir lo hi] /\ Forall (fun f => exists t, f = ".func " ++ t)%string fs.
