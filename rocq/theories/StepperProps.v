(** C06, C07 - SimStepper (spicelib/sim/sim_stepping.py). *)
From Coq Require Import String List Bool Arith.
From Verif Require Import StepperModel StepperSpec StepperProofs.
Import ListNotations.
Local Open Scope string_scope.

(** C06: run_all terminates and the i-th simulation gets the initial netlist with the i-th
    combination of the lexicographic product applied - and nothing else changed. *)
Theorem C06_run_all_is_the_cartesian_product : forall dims n0, all_reiterable dims ->
  exists n rs, (forall m, run_all (n + S m) dims n0 = Some rs)
    /\ Forall2 (fun c r => same_netlist r (with_combination n0 dims c)) (combinations dims) rs.
Proof. exact run_all_correct. Qed.
Print Assumptions C06_run_all_is_the_cartesian_product.

(** What the specification says: the combinations are all choices of one value per sweep, *)
Theorem C06_combinations_are_all_choices : forall dims c,
  In c (combinations dims) <-> Forall2 (fun v d => In v (d_values d)) c dims.
Proof. exact combinations_In. Qed.
Print Assumptions C06_combinations_are_all_choices.

(** each once if no sweep repeats a value, *)
Theorem C06_combinations_once : forall dims,
  (forall d, In d dims -> NoDup (d_values d)) -> NoDup (combinations dims).
Proof. exact combinations_NoDup. Qed.
Print Assumptions C06_combinations_once.

(** and a netlist with a combination applied has the i-th value at the i-th target and is unchanged
    at all other targets. *)
Theorem C06_combination_applied : forall dims n0 c,
  NoDup (map d_target dims) ->
  (forall i d v, nth_error dims i = Some d -> nth_error c i = Some v ->
     with_combination n0 dims c (d_target d) = Some v) /\
  (forall t, ~ In t (map d_target dims) -> with_combination n0 dims c t = n0 t).
Proof.
  intros dims n0 c ND. split.
  - intros. eapply with_combination_lookup; eassumption.
  - intros. apply with_combination_other; assumption.
Qed.
Print Assumptions C06_combination_applied.

(** C06 does not extend to one-shot iterables (generators), which the interface accepts: the inner
    sweep is exhausted after the first outer value. *)
Theorem C123_one_shot_iterables_refuted : exists dims n0 fuel rs,
  run_all fuel dims n0 = Some rs /\ length rs < length (combinations dims).
Proof.
  exists [Dim (WComponent, "R1") [VNumber "1"; VNumber "2"] true; Dim (WParam, "p") [VText "a"; VText "b"] false],
         (fun _ => None), 40.
  match goal with |- exists rs, ?r = Some rs /\ _ =>
    assert (option_map (@List.length netlist) r = Some 2) as H by (vm_compute; reflexivity);
    destruct r as [rs|]; [|discriminate] end.
  exists rs. split; [reflexivity|]. injection H as H. rewrite H. vm_compute. repeat constructor.
Qed.
Print Assumptions C123_one_shot_iterables_refuted.

(** C07: the announced total is the number of simulations when no sweep is empty. *)
Theorem C07_total_equals_runs : forall dims n0 fuel rs,
  all_reiterable dims -> (forall d, In d dims -> d_values d <> []) ->
  run_all fuel dims n0 = Some rs -> length rs = total_number_of_simulations dims.
Proof. exact total_equals_runs. Qed.
Print Assumptions C07_total_equals_runs.

(** C07 is false with an empty sweep: total_number_of_simulations ignores it, run_all runs nothing. *)
Theorem C124_empty_sweep_refuted : exists dims n0 fuel rs,
  all_reiterable dims /\ run_all fuel dims n0 = Some rs /\
  length rs <> total_number_of_simulations dims.
Proof.
  exists [Dim (WComponent, "R1") [VNumber "1"; VNumber "2"] true; Dim (WParam, "p") [] true], (fun _ => None), 40.
  match goal with |- exists rs, _ /\ ?r = Some rs /\ _ =>
    assert (option_map (@List.length netlist) r = Some 0) as H by (vm_compute; reflexivity);
    destruct r as [rs|]; [|discriminate] end.
  exists rs. split; [repeat constructor|]. split; [reflexivity|]. injection H as H. rewrite H.
  vm_compute. discriminate.
Qed.
Print Assumptions C124_empty_sweep_refuted.

Definition sample_dims :=
  [Dim (WModel, "D1") [VText "BAT54"; VText "BAT46"] true; Dim (WComponent, "R1") [VText "1k"; VText "2k"; VText "3k"] true;
   Dim (WParam, "temp") [VNumber "0"; VNumber "80"] true].
Example C06_C07_nonvacuous :
  all_reiterable sample_dims /\ (forall d, In d sample_dims -> d_values d <> []) /\
  NoDup (map d_target sample_dims) /\
  option_map (@List.length netlist) (run_all 100 sample_dims (fun _ => None)) = Some 12.
Proof.
  split; [repeat constructor|]. split.
  - intros d H; simpl in H. repeat (destruct H as [<-|H]; [discriminate|]). destruct H.
  - split; [|vm_compute; reflexivity].
    repeat (constructor; [simpl; intuition discriminate|]). constructor.
Qed.
