(** C13, C14, C55, C56: one simulation task (spicelib/sim/run_task.py) and the checks made before it
    starts (spicelib/sim/sim_runner.py). *)
From Coq Require Import String Ascii List Bool Arith ZArith Permutation Lia.
From Verif Require Import PyStr RunnerModel TaskModel TaskSpec TaskProofs.
Import ListNotations.
Local Open Scope string_scope.
Local Open Scope nat_scope.

(** C13: when due, the callback is called exactly once, on the result files of the task, and
    get_results then returns what it returned (None if it raised); *)
Theorem C13_callback_when_due : forall V (c : config) (w : world V),
  due c w -> exists args, r_calls (task_run c w) = [args] /\
     args = (r_raw (task_run c w), r_log (task_run c w)) /\
     get_results false true (c_callback c) (task_run c w)
       = FromCallback (value_of (w_callback w (fst args) (snd args))).
Proof. exact callback_when_due. Qed.
Print Assumptions C13_callback_when_due.

(** when not due it is not called and leaves no result; *)
Theorem C13_no_callback_unless_due : forall V (c : config) (w : world V),
  ~ due c w -> r_calls (task_run c w) = [] /\ r_callback_return (task_run c w) = None.
Proof. exact no_callback_unless_due. Qed.
Print Assumptions C13_no_callback_unless_due.

(** without a callback get_results gives the raw file (only on success) and the log file, renamed to
    .fail if the simulation failed and left a log. *)
Theorem C13_files_without_callback : forall V (c : config) (w : world V), c_callback c = false ->
  get_results false true (c_callback c) (task_run c w)
    = Files (if Z.eqb (code_of w) 0 then Some (with_suffix (c_netlist c) (c_raw_ext c)) else None)
            (Some (if Z.eqb (code_of w) 0 then with_suffix (c_netlist c) (s2l ".log")
                   else if w_exists w (with_suffix (c_netlist c) (s2l ".log"))
                        then with_suffix (with_suffix (c_netlist c) (s2l ".log")) (s2l ".fail")
                        else with_suffix (c_netlist c) (s2l ".log"))).
Proof. exact files_without_callback. Qed.
Print Assumptions C13_files_without_callback.

Definition cfg0 : config := Config (s2l "a_1.net") (s2l ".raw") true false.
Definition world0 (z : Z) (raw_there : bool) : world nat :=
  World (SimReturns z) (fun f => raw_there || str_eqb f (s2l "a_1.log"))
        (fun r l => match r with Some _ => CbReturns (Some 7) | None => CbRaises end).

Example C13_nonvacuous :
  due cfg0 (world0 0 true) /\ r_calls (task_run cfg0 (world0 0 true)) = [(Some (s2l "a_1.raw"), Some (s2l "a_1.log"))]
  /\ ~ due cfg0 (world0 0 false) /\ ~ due cfg0 (world0 1 true)
  /\ r_log (task_run cfg0 (world0 1 true)) = Some (s2l "a_1.fail").
Proof.
  repeat split; try reflexivity.
  - right. vm_compute. repeat split.
  - intros [_ [H|[_ [H _]]]]; discriminate.
  - intros [_ [H|[H _]]]; discriminate.
Qed.

(** C14: waiting for a task that ends with a return code other than -1 ends, *)
Theorem C14_wait_results_returns : forall n z obs, ends_with obs n z -> z <> (-1)%Z ->
  exists fuel j, wait_results fuel 0 obs = Some j.
Proof. exact wait_results_returns. Qed.
Print Assumptions C14_wait_results_returns.

(** and only when the task has really ended. *)
Theorem C14_wait_results_waits : forall fuel i obs j, wait_results fuel i obs = Some j ->
  fst (fst (obs j)) = false /\ snd (fst (obs j)) = true.
Proof. exact wait_results_answer. Qed.
Print Assumptions C14_wait_results_waits.

(** get_results gives nothing while the task runs or has not started, and always gives something afterwards. *)
Theorem C14_no_results_before_the_end : forall V alive started callback (r : result V),
  get_results alive started callback r = NotYet <-> (alive = true \/ started = false).
Proof.
  intros V alive started callback r. unfold get_results. destruct alive, started, callback; cbn; split; intros H; try reflexivity; try discriminate H; auto; destruct H as [H|H]; discriminate H.
Qed.
Print Assumptions C14_no_results_before_the_end.

(** But if the simulator returns -1 (a POSIX process killed by signal 1) it never returns, although
    the task has ended. *)
Theorem C127_return_code_refuted : exists obs : nat -> bool * bool * Z,
  ends_with obs 0 (-1) /\ (forall fuel, wait_results fuel 0 obs = None) /\
  (forall (c : config) (w : world nat), w_sim w = SimReturns (-1) -> r_ret (task_run c w) = (-1)%Z).
Proof.
  exists (fun _ => (false, true, (-1)%Z)). split; [intros i _; reflexivity|]. split.
  - intros fuel. apply wait_results_stuck. reflexivity.
  - intros c w H. unfold task_run. rewrite H. simpl.
    destruct (c_callback c && _); [|reflexivity]. destruct (w_callback w _ _); reflexivity.
Qed.
Print Assumptions C127_return_code_refuted.

Example C14_nonvacuous : ends_with (fun i => (Nat.ltb i 3, Nat.ltb 0 i, if Nat.ltb i 2 then (-1)%Z else 0%Z)) 3 0.
Proof.
  intros i H. destruct i as [|[|[|i]]]; try reflexivity;
  repeat (apply le_S_n in H); inversion H.
Qed.

(** C55: with a timeout given as a (non negative) number run() reaches its loop, *)
Theorem C55_timeout_number : forall targ trun t,
  (match targ with None => trun | x => x end) = Some t -> (0 <= t)%Z -> run_entry targ trun = EntersLoop.
Proof.
  intros targ trun t H Ht. unfold run_entry. rewrite H.
  replace (0 <? t + 1)%Z with true; [reflexivity|]. symmetry. apply Z.ltb_lt.
  apply Z.lt_le_trans with (0 + 1)%Z; [reflexivity|]. apply Z.add_le_mono_r. exact Ht.
Qed.
Print Assumptions C55_timeout_number.

(** but for a runner created with the documented timeout=None every run() without its own timeout fails. *)
Theorem C139_timeout_none_refuted : exists trun, trun = None /\ run_entry None trun = TypeErrorRaised.
Proof. exists None. split; reflexivity. Qed.
Print Assumptions C139_timeout_none_refuted.

(** C56: accepted callback arguments bind exactly the extra parameters of the callback. *)
Theorem C56_callback_args_bind_all : forall V args (a : option (cb_args V)) kw, NoDup args ->
  (match a with Some (ADict d) => NoDup (map fst d) | _ => True end) ->
  validate_callback_args (Some args) a = Accepted kw ->
  2 <= length args /\
  Permutation (skipn 2 args) (match kw with Some d => map fst d | None => [] end).
Proof. exact validated_binds_all. Qed.
Print Assumptions C56_callback_args_bind_all.

(** A tuple of arguments is bound in order. *)
Theorem C56_tuple_in_order : forall V args (vs : list V) d,
  validate_callback_args (Some args) (Some (ATuple vs)) = Accepted (Some d) ->
  map fst d = skipn 2 args /\ map snd d = vs.
Proof.
  intros V args vs d H. unfold validate_callback_args in H.
  destruct (length args <? 2); [discriminate|]. destruct (2 <? length args); [|discriminate].
  destruct (negb (Nat.eqb (length args - 2) (cb_args_len (ATuple vs)))) eqn:E; [discriminate|].
  apply negb_false_iff in E. apply Nat.eqb_eq in E. injection H as <-. cbn [cb_args_len] in E.
  pose proof (skipn_length 2 args) as SL.
  split; [apply map_fst_combine|apply map_snd_combine]; rewrite <- E; exact SL.
Qed.
Print Assumptions C56_tuple_in_order.

(** Matching arguments are never rejected. *)
Theorem C56_good_args_accepted : forall V args (d : list (str * V)), 2 < length args -> NoDup args ->
  Permutation (skipn 2 args) (map fst d) ->
  validate_callback_args (Some args) (Some (ADict d)) = Accepted (Some d).
Proof.
  intros V args d Hl Hn HP. unfold validate_callback_args.
  replace (length args <? 2) with false.
  2:{ symmetry. apply Nat.ltb_ge. apply Nat.lt_le_incl. exact Hl. }
  replace (2 <? length args) with true by (symmetry; apply Nat.ltb_lt; exact Hl).
  replace (forallb (fun p => has_key p d) (skipn 2 args)) with true.
  2:{ symmetry. apply forallb_forall. intros p Hp. apply has_key_In.
      apply (Permutation_in _ HP). exact Hp. }
  cbn [negb cb_args_len]. pose proof (Permutation_length HP) as L. rewrite skipn_length, map_length in L.
  rewrite L, Nat.eqb_refl. reflexivity.
Qed.
Print Assumptions C56_good_args_accepted.

Example C56_nonvacuous :
  validate_callback_args (Some [s2l "raw"; s2l "log"; s2l "a"; s2l "b"]) (Some (ADict [(s2l "b", 1); (s2l "a", 2)]))
    = Accepted (Some [(s2l "b", 1); (s2l "a", 2)]) /\
  validate_callback_args (Some [s2l "raw"; s2l "log"; s2l "a"]) (Some (ADict [(s2l "b", 1)])) = Rejected.
Proof. split; reflexivity. Qed.

(** C68: the duration logged for a task, read in clock notation with the last field as a number of milliseconds, is
    the time it took (in whole milliseconds); *)
Lemma zeros_aux : forall k (s : str), undec_aux (repeat "0"%char k ++ s)%list 0 = undec_aux s 0.
Proof. induction k as [|k IH]; intros s; [reflexivity|exact (IH s)]. Qed.
Lemma undec_pad : forall w n, undec (pad w (dec n)) = Some n.
Proof.
  intros w n. unfold pad. generalize (w - length (dec n)). intros k. pose proof (undec_dec n) as H. unfold undec in *.
  destruct (dec n) as [|x r]; [discriminate H|]. destruct (repeat "0"%char k ++ x :: r)%list as [|y q] eqn:E; [destruct k; discriminate E|]. rewrite <- E.
  rewrite zeros_aux. exact H.
Qed.
Theorem C68_duration_fields : forall t, exists h m s f,
  clock (format_time_difference t) h m s f /\ t = ((h * 60 + m) * 60 + s) * 1000 + f /\ m < 60 /\ s < 60 /\ f < 1000.
Proof.
  intros t. exists (t / 1000 / 3600), (t / 1000 mod 3600 / 60), ((t / 1000 mod 3600) mod 60), (t mod 1000). split; [|split; [|split; [|split]]].
  - exists (pad 2 (dec (t / 1000 / 3600))), (pad 2 (dec (t / 1000 mod 3600 / 60))), (pad 2 (dec ((t / 1000 mod 3600) mod 60))), (pad 4 (dec (t mod 1000))).
    rewrite !undec_pad. split; [reflexivity|]. split; [reflexivity|]. unfold format_time_difference.
    destruct (Nat.eqb_spec (t / 1000 / 3600) 0) as [H|H]; [destruct (Nat.eqb_spec (t / 1000 mod 3600 / 60) 0) as [M|M]|].
    + left. rewrite <- !app_assoc. auto.
    + right. left. auto.
    + right. right. auto.
  - pose proof (Nat.div_mod t 1000 ltac:(discriminate)) as A. pose proof (Nat.div_mod (t / 1000) 3600 ltac:(discriminate)) as B.
    pose proof (Nat.div_mod (t / 1000 mod 3600) 60 ltac:(discriminate)) as C. lia.
  - apply Nat.div_lt_upper_bound; [discriminate|]. change (60 * 60) with 3600. apply Nat.mod_upper_bound. discriminate.
  - apply Nat.mod_upper_bound. discriminate.
  - apply Nat.mod_upper_bound. discriminate.
Qed.
Print Assumptions C68_duration_fields.
(** but the field after the point has four digits, so that read as a decimal fraction of a second it is ten times
    too small: 1.5 s is shown as "01.0500 secs". *)
Theorem C69_decimal_fraction_refuted : format_time_difference 1500 = s2l "01.0500 secs".
Proof. vm_compute. reflexivity. Qed.
Print Assumptions C69_decimal_fraction_refuted.
Example C68_nonvacuous : format_time_difference 63004 = s2l "01:03.0004".
Proof. vm_compute. reflexivity. Qed.
