(** Properties C321, C322: clearing parameters. *)
From Coq Require Import String Ascii List Bool Arith.
From Verif Require Import PyStr EngModel PTokModel CompModel ClrModel.
Import ListNotations.
Local Open Scope string_scope.
Local Open Scope list_scope.
Definition line (s : string) : str := s2l s ++ ["010"%char].
Definition saved_after (f : attrs -> attrs) (l : str) : option str := match CompModel.parse_line l with Some a => CompModel.rewrite l (f a) | None => None end.
Definition pars_of (l : str) : option (list (string * pval)) :=
  match CompModel.parse_line l with Some a => option_map (map (fun kv => (l2s (fst kv), snd kv))) (a_par a) | None => None end.

(** ** C321 refuted: "clear_parameters deletes the parameters when the netlist is saved." They are all there, with the value None; and this is so for all
    dictionaries of parameters and for all names. *)
Theorem C321_cleared_parameters_refuted :
  (forall a d, a_par a = Some d -> exists d', a_par (clear_parameters a) = Some d' /\ map fst d' = map fst d /\
     show_params d' = join (s2l " ") (map (fun k => k ++ s2l "=None") (map fst d))) /\
  saved_after clear_parameters (line "M1 d g s nmos L=1u W=2u") = Some (line "M1 d g s nmos L=None W=None") /\
  pars_of (line "M1 d g s nmos L=None W=None") = Some [("L", One (s2l "None")); ("W", One (s2l "None"))]%string.
Proof.
  split; [|split; vm_compute; reflexivity]. intros a d H. exists (map (fun kv => (fst kv, py_none)) d). unfold clear_parameters. cbn [a_par]. rewrite H. split; [reflexivity|]. split.
  - rewrite map_map. reflexivity.
  - unfold show_params. f_equal. rewrite !map_map. reflexivity.
Qed.
Print Assumptions C321_cleared_parameters_refuted.

(** ** C322 refuted: "clear_parameter of a name that is not there changes nothing." It is written with the value None. *)
Theorem C322_clearing_unknown_refuted :
  (forall a k, exists d, a_par (clear_parameter k a) = Some d /\ pget d k = Some py_none) /\
  saved_after (clear_parameter (s2l "tc")) (line "R1 in out 10k pwr=1") = Some (line "R1 in out 10k pwr=1 tc=None").
Proof.
  split; [|vm_compute; reflexivity]. intros a k. exists (pset (match a_par a with Some d => d | None => [] end) k py_none). split; [reflexivity|].
  generalize (match a_par a with Some d => d | None => [] end). induction p as [|[x v] p IH]; cbn [pset pget]; [rewrite str_eqb_refl; reflexivity|].
  destruct (str_eqb x k) eqn:E; cbn [pget]; rewrite E; [reflexivity|exact IH].
Qed.
Print Assumptions C322_clearing_unknown_refuted.
