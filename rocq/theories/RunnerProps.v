(** C08 - C12: SimRunner and its iterators (spicelib/sim/sim_runner.py), over every schedule of the
    client and of the simulation threads. *)
From Coq Require Import String Ascii List Bool Arith ZArith Sorted.
From Verif Require Import PyStr UpdatesModel RunnerModel RunnerSpec RunnerProofs.
Import ListNotations.
Local Open Scope string_scope.

(** C08: if every run() waits for a free place (the default), never more than parallel_sims
    simulations started by run() are unfinished. *)
Theorem C08_parallel_limit : forall conds wait p ls s os, runs_to conds wait p ls s os ->
  (forall n, ~ In (OStarted n Forced) os) -> length (running s) <= p.
Proof. exact parallel_limit. Qed.
Print Assumptions C08_parallel_limit.

(** In general the excess is bounded by the number of starts with wait_resource=False. *)
Theorem C08_parallel_bound : forall conds wait p ls s os, runs_to conds wait p ls s os ->
  length (running s) <= p + forced_starts os.
Proof. exact parallel_bound. Qed.
Print Assumptions C08_parallel_bound.

(** And the limit blocks nobody needlessly: with a free place, the next poll starts the simulation. *)
Theorem C08_gate_opens : forall conds wait p ls s os n f rq, runs_to conds wait p ls s os ->
  cl s = Waiting n f rq -> length (running s) < p ->
  exists s' h, step conds wait s LPoll = Some (s', [OStarted n h]).
Proof. exact gate_opens. Qed.
Print Assumptions C08_gate_opens.

Definition rq0 : request := Request (s2l "a.net") None true [].
Definition finish (k : nat) (z : Z) : list label := [LThread k AStart; LThread k (ARet z); LThread k ADie].

Example C08_nonvacuous : exists s os,
  runs_to CNone true 1 ([LRun rq0; LPoll; LThread 1 AStart; LRun rq0; LPoll]
     ++ [LThread 1 (ARet 0); LThread 1 ADie; LPoll; LUpdate]) s os /\
  length (running s) = 1 /\ length (completed (rn s)) = 1 /\ started_numbers os = [1; 2].
Proof. eexists. eexists. split; [vm_compute; reflexivity|]. vm_compute. repeat split. Qed.

(** C09: run numbers strictly increase over the life of the runner, *)
Theorem C09_numbers_increase : forall conds wait p ls s os, runs_to conds wait p ls s os ->
  StronglySorted lt (assigned_numbers os).
Proof. exact numbers_increase. Qed.
Print Assumptions C09_numbers_increase.

(** and two runs without an explicit run_filename get different file names, even for different
    circuit files as long as these have the same extension. *)
Theorem C09_file_names_distinct : forall conds wait p ls s os i j n1 q1 f1 n2 q2 f2,
  runs_to conds wait p ls s os -> i <> j ->
  nth_error (assigned os) i = Some (n1, false, q1, f1) ->
  nth_error (assigned os) j = Some (n2, false, q2, f2) ->
  snd (split_suffix q1) = snd (split_suffix q2) -> f1 <> f2.
Proof. exact file_names_distinct. Qed.
Print Assumptions C09_file_names_distinct.

Example C09_nonvacuous : exists s os,
  runs_to CNone true 4 [LRun rq0; LPoll; LRun rq0; LGiveUp; LRun rq0; LPoll] s os /\
  map (fun x => l2s (snd x)) (assigned os) = ["a_1.net"; "a_2.net"; "a_3.net"] /\ started_numbers os = [1; 3].
Proof. eexists. eexists. split; [vm_compute; reflexivity|]. vm_compute. repeat split. Qed.

(** C10: the tasks known to the runner are exactly the started ones, each in one place only, *)
Theorem C10_nothing_lost : forall conds wait p ls s os, runs_to conds wait p ls s os ->
  NoDup (map t_no (all_tasks s)) /\
  (forall n, In n (started_numbers os) <-> In n (map t_no (all_tasks s))) /\
  length (started_numbers os) = length (all_tasks s).
Proof. exact nothing_lost. Qed.
Print Assumptions C10_nothing_lost.

(** the completed list only grows, at its end, *)
Theorem C10_completed_only_grows : forall conds wait ls s s' o, exec conds wait s ls = Some (s', o) ->
  prefix (map t_no (completed (rn s))) (map t_no (completed (rn s'))).
Proof. exact exec_completed_prefix. Qed.
Print Assumptions C10_completed_only_grows.

(** the counters always add up to the number of completed simulations, *)
Theorem C10_counters_total : forall conds wait p ls s os, runs_to conds wait p ls s os ->
  okSim (rn s) + failSim (rn s) = length (completed (rn s)).
Proof. exact counters_total. Qed.
Print Assumptions C10_counters_total.

(** and count exactly the zero and non-zero return codes, unless a run_now() stopped waiting for its
    simulation. *)
Theorem C10_counters_exact : forall conds wait p ls s os, runs_to conds wait p ls s os ->
  no_join_timeout ls ->
  okSim (rn s) = length (filter (fun t => Z.eqb (t_ret t) 0) (completed (rn s))) /\
  failSim (rn s) = length (filter (fun t => negb (Z.eqb (t_ret t) 0)) (completed (rn s))).
Proof. exact counters_exact. Qed.
Print Assumptions C10_counters_exact.

(** With such a timeout the simulation is listed as completed and counted as failed while it is still
    running, and stays counted as failed when it then succeeds. *)
Theorem C125_join_timeout_refuted : exists ls s os, runs_to CNone true 4 ls s os /\
  length (completed (rn s)) = 1 /\ Forall (fun t => t_alive t = false /\ t_ret t = 0%Z) (completed (rn s)) /\
  okSim (rn s) = 0 /\ failSim (rn s) = 1.
Proof.
  exists ([LRunNow rq0; LThread 1 AStart; LJoinTimeout; LThread 1 (ARet 0); LThread 1 ADie]).
  eexists. eexists. split; [vm_compute; reflexivity|]. vm_compute. repeat split. repeat constructor.
Qed.
Print Assumptions C125_join_timeout_refuted.

Example C10_nonvacuous : exists s os,
  runs_to CNone true 4 ([LRun rq0; LPoll; LRun rq0; LPoll; LRunNow rq0] ++ finish 2 1 ++ finish 3 0
     ++ [LJoin; LUpdate]) s os /\
  map t_no (completed (rn s)) = [3; 2] /\ map t_no (active (rn s)) = [1] /\
  okSim (rn s) = 1 /\ failSim (rn s) = 1.
Proof. eexists. eexists. split; [vm_compute; reflexivity|]. vm_compute. repeat split. Qed.

(** C11: called without a timeout argument, wait_completion that returns with nothing left running
    returns True exactly when all simulations returned 0. *)
Theorem C11_wait_completion : forall conds wait p ls s os fuel env late rt r v,
  runs_to conds wait p ls s os -> no_join_timeout ls ->
  wait_completion fuel env late false rt (rn s) = Some (r, v) -> active r = [] ->
  (v = true <-> Forall (fun t => t_ret t = 0%Z) (completed r)).
Proof. exact wait_completion_result. Qed.
Print Assumptions C11_wait_completion.

(** With any arguments, True is never wrong. *)
Theorem C11_true_is_right : forall conds wait p ls s os fuel env late ht rt r,
  runs_to conds wait p ls s os -> no_join_timeout ls ->
  wait_completion fuel env late ht rt (rn s) = Some (r, true) ->
  active r = [] /\ Forall (fun t => t_ret t = 0%Z) (completed r).
Proof. exact wait_completion_true. Qed.
Print Assumptions C11_true_is_right.

(** With a timeout argument it can return False although everything has completed successfully: the
    clock is looked at after the last simulation was collected. *)
Theorem C126_timeout_argument_refuted : exists ls s os fuel env late r,
  runs_to CNone true 4 ls s os /\
  wait_completion fuel env late true true (rn s) = Some (r, false) /\
  active r = [] /\ length (completed r) = 1 /\ Forall (fun t => t_ret t = 0%Z) (completed r).
Proof.
  exists [LRun rq0; LPoll; LThread 1 AStart]. eexists. eexists.
  exists 1, (fun _ => [(1, ARet 0); (1, ADie)]), (fun _ => true). eexists.
  split; [vm_compute; reflexivity|]. split; [vm_compute; reflexivity|].
  vm_compute. repeat split. repeat constructor.
Qed.
Print Assumptions C126_timeout_argument_refuted.

Example C11_nonvacuous : exists s os r,
  runs_to CNone true 4 [LRun rq0; LPoll; LRun rq0; LPoll] s os /\
  wait_completion 5 (fun i => [(i + 1, AStart); (i + 1, ARet (Z.of_nat i)); (i + 1, ADie)]) (fun _ => false)
    false true (rn s) = Some (r, false) /\ active r = [] /\ map t_ret (completed r) = [0; 1]%Z.
Proof.
  eexists. eexists. eexists. split; [vm_compute; reflexivity|].
  split; [vm_compute; reflexivity|]. vm_compute. repeat split.
Qed.

(** C12: at any moment what an iterator has handed out are, in order of completion, exactly the
    wanted tasks among those it has gone past; *)
Theorem C12_yields_in_order : forall conds wait p ls s os,
  no_join_timeout ls -> runs_to conds wait p ls s os ->
  exists sel, selects (wanted conds) (firstn (counter s) (completed (rn s))) sel /\
    yielded os = map t_no sel.
Proof. exact iterator_prefix. Qed.
Print Assumptions C12_yields_in_order.

(** when it ends, it has handed out all wanted tasks of the runner, and nothing is left running
    (unless it was created not to wait); *)
Theorem C12_yields_all_at_the_end : forall conds wait p ls s os, no_join_timeout ls ->
  runs_to conds wait p (ls ++ [LNext]) s (os ++ [OStop]) ->
  counter s = length (completed (rn s)) /\ (active (rn s) = [] \/ wait = false) /\
  exists sel, selects (wanted conds) (completed (rn s)) sel /\ yielded os = map t_no sel.
Proof. exact iterator_end. Qed.
Print Assumptions C12_yields_all_at_the_end.

(** in every history whatsoever it goes past each completed task at most once, in completion order. *)
Theorem C12_each_task_once : forall conds wait p ls s os, runs_to conds wait p ls s os ->
  NoDup (map t_no (completed (rn s))) /\ prefix (consumed os) (map t_no (completed (rn s))).
Proof. exact consumed_in_order. Qed.
Print Assumptions C12_each_task_once.

Definition rqe (v : string) : request :=
  Request (s2l "a.net") None true [Upd "R1" (VStr v) UpUpdateComponentValue].

Example C12_nonvacuous : exists s os,
  runs_to (CDict [("R1", CSet [VStr "1k"; VStr "2k"])]) true 4
    (([LRun (rqe "1k"); LPoll; LRun (rqe "2k"); LPoll; LRun (rqe "5k"); LPoll; LRun (rqe "1k"); LPoll]
     ++ finish 2 0 ++ finish 1 7 ++ finish 3 0 ++ [LNext] ++ finish 4 0 ++ [LNext; LNext; LNext]) ++ [LNext])
    s (os ++ [OStop]) /\ yielded os = [2; 4].
Proof.
  eexists. exists [OAssigned 1 false (s2l "a.net") (s2l "a_1.net"); OStarted 1 Waited;
    OAssigned 2 false (s2l "a.net") (s2l "a_2.net"); OStarted 2 Waited;
    OAssigned 3 false (s2l "a.net") (s2l "a_3.net"); OStarted 3 Waited;
    OAssigned 4 false (s2l "a.net") (s2l "a_4.net"); OStarted 4 Waited;
    OSkip 1; OYield 2; OSkip 3; OYield 4].
  split; [vm_compute; reflexivity|]. reflexivity.
Qed.
