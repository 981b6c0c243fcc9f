(** Properties C40 and C64: parameters on component lines (spicelib/editor/spice_components.py). *)
From Coq Require Import String Ascii List Bool Arith.
From Verif Require Import PyStr EngModel PTokModel PTokSpec PTokProofs.
Import ListNotations.
Local Open Scope string_scope.
Local Open Scope list_scope.

(** A line of parameters is read as exactly the list of its names and values, in order: one value as itself,
    several as a list.  Names are neither numbers nor reserved words of the parser, and distinct. *)
Theorem C40_parameters_read : forall l tail, line_ok l tail ->
  (forall b p, In (b, p) l -> let name := word_text (p_name p) in
     ~ In name (s2l "noiseless" :: verilog_types) /\ scan_eng name = None) ->
  NoDup (map (fun bp => word_text (p_name (snd bp))) l) ->
  parse_params (line_text l tail) =
    Some (map (fun bp => (word_text (p_name (snd bp)),
                          match p_more (snd bp) with
                          | [] => One (word_text (p_value (snd bp)))
                          | more => Many (word_text (p_value (snd bp)) :: map (fun bw => word_text (snd bw)) more)
                          end)) l).
Proof.
  intros l tail Hl Hn Hd. rewrite parse_line; [|exact Hl| |exact Hd].
  - f_equal. apply map_ext. intros [b p]. unfold entry, meaning. cbn [fst snd]. f_equal. destruct (p_more p); reflexivity.
  - apply Forall_forall. intros [b p] Hp. destruct (Hn b p Hp) as [A B]. unfold meaning. cbn [fst snd].
    split; [|split]; [intros [G|[]]; apply A; left; exact G|intros G; apply A; right; exact G|]. unfold is_number. rewrite B. reflexivity.
Qed.
Print Assumptions C40_parameters_read.
Example C40_nonvacuous :
  let l := [(s2l " ", {| p_name := [Plain (s2l "tc")]; p_b1 := []; p_b2 := []; p_value := [Plain (s2l "1m")]; p_more := [(s2l " ", [Plain (s2l "2u")])] |});
            (s2l " ", {| p_name := [Plain (s2l "ic")]; p_b1 := s2l " "; p_b2 := s2l " "; p_value := [Braces (s2l "a, b = 2"); Plain (s2l "*2")]; p_more := [] |})] in
  line_ok l (s2l " ") /\ line_text l (s2l " ") = s2l " tc=1m, 2u ic = {a, b = 2}*2 " /\
  parse_params (line_text l (s2l " ")) = Some [(s2l "tc", Many [s2l "1m"; s2l "2u"]); (s2l "ic", One (s2l "{a, b = 2}*2"))].
Proof.
  split; [|split; vm_compute; reflexivity].
  assert (forall t, t <> [] -> forallb (fun c => negb (mem_c c special) && negb (aeqb c ",") && negb (aeqb c "=") && negb (is_space c)) t = true ->
          piece_ok (Plain t)) as P.
  { intros t N H. split; [exact N|]. intros c Hc. rewrite forallb_forall in H. specialize (H c Hc).
    rewrite !andb_true_iff, !negb_true_iff, mem_c_not_In, !aeqb_neq in H. tauto. }
  assert (forall t, piece_ok (Plain t) -> word_ok [Plain t]) as W by (intros t H; split; [discriminate|constructor; [exact H|constructor]]).
  split; [|reflexivity].
  constructor; [|constructor; [|constructor]]; cbn [fst snd]; (split; [reflexivity|split; [discriminate|]]);
    repeat split; cbn [p_name p_value p_more p_b1 p_b2]; try discriminate; try reflexivity;
    repeat (constructor; [first [apply P; [discriminate|reflexivity] | split; [reflexivity|apply W, P; [discriminate|reflexivity]] |
      (intros c Hc; apply mem_c_not_In; revert c Hc; apply Forall_forall; repeat constructor)]|]); try constructor.
Qed.

(** A blank before the comma turns a list of numbers into one text; a brace inside braces ends the value at the
    first closing brace. *)
Theorem C64_blank_before_comma_refuted :
  parse_params (s2l "tc=1,2") = Some [(s2l "tc", Many [s2l "1"; s2l "2"])] /\
  parse_params (s2l "tc=1 ,2") = Some [(s2l "tc", One (s2l "1 2"))].
Proof. split; vm_compute; reflexivity. Qed.
Print Assumptions C64_blank_before_comma_refuted.
Theorem C64_nested_braces_refuted :
  parse_params (s2l "a={ {x} + y} b=2") = Some [(s2l "a", One (s2l "{ {x}")); (s2l "+", One (s2l "y}")); (s2l "b", One (s2l "2"))].
Proof. vm_compute. reflexivity. Qed.
Print Assumptions C64_nested_braces_refuted.
