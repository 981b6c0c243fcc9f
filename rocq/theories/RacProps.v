(** Properties of a runner used by several threads (C299-C304). *)
From Coq Require Import List Bool Arith Lia Permutation.
From Verif Require Import RacModel RacSpec RacProofs RacProofs2.
Import ListNotations.

(** Whatever the threads do, every simulation started is on exactly one of the three lists, once, or held by exactly one thread. *)
Theorem C299_none_lost : forall es k, let s := run_events es start in
  (k < created s -> (places s k = 1 /\ forall t, ~ holds s t k) \/ (places s k = 0 /\ exists t, holds s t k /\ forall t', holds s t' k -> t' = t)) /\
  (created s <= k -> places s k = 0 /\ forall t, ~ holds s t k).
Proof.
  intros es k s. destruct (kept_run es start kept_start k) as (A & B). fold s in A, B. split.
  - intros L. destruct (B L) as [(B1 & B2)|(B1 & t & B2 & B3)]; [left|right]; (split; [exact B1|]).
    + intros t H. apply holds_iff in H. exact (B2 t H).
    + exists t. split; [apply holds_iff; exact B2|]. intros t' H. apply B3. apply holds_iff. exact H.
  - intros L. destruct (A L) as (A1 & A2). split; [exact A1|]. intros t H. apply holds_iff in H. exact (A2 t H).
Qed.
Print Assumptions C299_none_lost.
(** So when no thread is inside a call, the lists together are the simulations started. *)
Theorem C299_none_lost_at_rest : forall es, let s := run_events es start in (forall t, threads s t = Idle \/ threads s t = Dead) ->
  Permutation (active s ++ completed s ++ map fst (collected s)) (seq 0 (created s)).
Proof.
  intros es s R. apply (Permutation_count_occ Nat.eq_dec). intros k. rewrite !count_occ_app.
  destruct (C299_none_lost es k) as (A & B). fold s in A, B. unfold places in *.
  assert (forall t, ~ holds s t k) as NH by (intros t H; unfold holds in H; destruct (R t) as [E|E]; rewrite E in H; exact H).
  destruct (le_lt_dec (created s) k) as [L|L].
  - destruct (B L) as (B1 & _). rewrite (proj1 (count_occ_not_In Nat.eq_dec (seq 0 (created s)) k)); [lia|]. intros I. apply in_seq in I. lia.
  - assert (count_occ Nat.eq_dec (seq 0 (created s)) k = 1) as ->.
    { apply (proj1 (NoDup_count_occ' Nat.eq_dec _) (seq_NoDup _ _)). apply in_seq. lia. }
    destruct (A L) as [(A1 & _)|(_ & t & H & _)]; [lia|destruct (NH t H)].
Qed.
Print Assumptions C299_none_lost_at_rest.
(** Two threads: one updates while the other starts a second simulation; the first has ended. *)
Definition two_threads : list event :=
  [Call 1 Run; Step 1; Step 1; Sim 0 SetTime; Sim 0 (SetCode true); Call 1 Run; Call 0 Update; Step 0; Sim 0 End; Step 0; Step 1; Step 0; Step 0; Step 0; Step 0; Step 0;
   Step 1; Step 0].
Example C299_nonvacuous : let s := run_events two_threads start in created s = 2 /\ active s = [1] /\ completed s = [0] /\ okSim s = 1.
Proof. vm_compute. repeat split. Qed.

(** When one thread makes all the calls, whatever the simulations do meanwhile: there is no exception, only simulations that have ended are
    moved, and with their result; and between two calls the counters are the numbers of successful and failed ones. *)
Theorem C300_one_thread : forall t es, only t es -> let s := run_events es start in
  (forall u, threads s u <> Dead) /\ (forall k, In k (completed s) -> ended s k) /\ (forall k z, In (k, z) (collected s) -> tasks s k = Over z) /\
  (threads s t = Idle -> okSim s = count_ok s (completed s ++ map fst (collected s)) /\
                         okSim s + failSim s = length (completed s) + length (collected s)).
Proof.
  intros t es O s. destruct (one_run t es start (one_start t) O) as (I & A & C & D & OK & BAD & P). fold s in I, A, C, D, OK, BAD, P.
  split; [|split; [exact C|split; [exact D|]]].
  - intros u E. destruct (Nat.eq_dec u t) as [->|U]; [rewrite E in P; exact P|rewrite (I u U) in E; discriminate].
  - intros E. rewrite E in OK, BAD. cbn [pending app] in OK, BAD. split.
    + rewrite OK. unfold cnt, count_ok. f_equal. apply filter_ext. intros k. destruct (code_zero (tasks s k)); reflexivity.
    + rewrite OK, BAD. rewrite <- (map_length fst (collected s)), <- app_length. unfold cnt. generalize (completed s ++ map fst (collected s)). intros l.
      induction l as [|k l IH]; [reflexivity|]. cbn [filter length]. destruct (code_zero (tasks s k)); cbn [Bool.eqb length]; lia.
Qed.
Print Assumptions C300_one_thread.
Definition one_thread : list event :=
  [Call 5 Run; Step 5; Step 5; Sim 0 SetTime; Call 5 Run; Step 5; Step 5; Sim 1 SetTime; Sim 1 (SetCode true); Sim 1 End; Call 5 Update].
Example C300_nonvacuous : let s := run_events (one_thread ++ repeat (Step 5) 11) start in
  only 5 (one_thread ++ repeat (Step 5) 11) /\ threads s 5 = Idle /\ active s = [0] /\ completed s = [1] /\ okSim s = 1 /\ failSim s = 0.
Proof.
  split; [|vm_compute; repeat split]. intros u c I. apply in_app_or in I as [I|I]; [|apply repeat_spec in I; discriminate].
  unfold one_thread in I. repeat (destruct I as [I|I]; [first [discriminate I|injection I; congruence]|]). destruct I.
Qed.

(** When one thread makes all the calls, a pass of update_completed moves every simulation that had ended when it was called. *)
Theorem C301_pass_complete : forall t es es2 k, only t es -> (forall u c, ~ In (Call u c) es2) ->
  let s := run_events es start in let s' := run_events (Call t Update :: es2) s in
  threads s t = Idle -> In k (active s) -> ended s k -> threads s' t = Idle -> In k (completed s').
Proof.
  intros t es es2 k O NC s s' R I E R'.
  pose proof (one_run t es start (one_start t) O) as H. fold s in H.
  assert (one t (do (Call t Update) s)) as H1 by (apply one_do; [exact H|intros u c X; injection X; congruence]).
  assert (do (Call t Update) s = at_pc t (Test 0) s) as EQ by (cbn [do]; unfold thread_call; rewrite R; reflexivity).
  assert (covered t k (do (Call t Update) s)) as G.
  { rewrite EQ. unfold covered. rewrite at_pc_here. right. exact I. }
  assert (ended (do (Call t Update) s) k) as E1 by (rewrite EQ; exact E).
  pose proof (covered_run t k es2 _ H1 E1 G NC) as F. change (run_events es2 (do (Call t Update) s)) with s' in F. unfold covered in F. rewrite R' in F. exact F.
Qed.
Print Assumptions C301_pass_complete.
Example C301_nonvacuous : let s := run_events (removelast one_thread) start in let s' := run_events (Call 5 Update :: repeat (Step 5) 11) s in
  threads s 5 = Idle /\ In 1 (active s) /\ ended s 1 /\ threads s' 5 = Idle.
Proof. vm_compute. split; [reflexivity|]. split; [right; left; reflexivity|]. split; [exists true; reflexivity|reflexivity]. Qed.

(** In the server one thread (0, the manager) updates and collects, another (1, for the clients) starts simulations.  A simulation just
    being started is moved to the completed ones while it runs, counted and collected as failed, although it then succeeds. *)
Theorem C302_running_reported_refuted : exists es,
  (forall t c, In (Call t c) es -> (t = 0 /\ (c = Update \/ c = Collect)) \/ (t = 1 /\ c = Run)) /\
  let s := run_events es start in
  In (0, false) (collected s) /\ failSim s = 1 /\ is_alive (tasks s 0) = true /\
  (forall t, threads s t = Idle) /\ let s2 := run_events [Sim 0 (SetCode true); Sim 0 End] s in tasks s2 0 = Over true /\ collected s2 = [(0, false)].
Proof.
  exists [Call 1 Run; Step 1; Call 0 Update; Step 0; Step 0; Step 1; Sim 0 SetTime; Step 0; Step 0; Step 0; Step 0; Step 0; Step 0; Step 0;
     Call 0 Collect; Step 0; Step 0; Step 0].
  split.
  { intros t c I. repeat (destruct I as [I|I]; [first [discriminate I|injection I as <- <-; auto]|]). destruct I. }
  vm_compute. split; [left; reflexivity|]. split; [reflexivity|]. split; [reflexivity|]. split; [|split; reflexivity].
  intros [|[|t]]; reflexivity.
Qed.
Print Assumptions C302_running_reported_refuted.
(** The same when both threads update (starting a simulation does): another simulation, in the middle of its run, is moved. *)
Theorem C302_wrong_task_refuted : exists es, let s := run_events es start in
  In 1 (completed s) /\ tasks s 1 = Up true false /\ In 0 (completed s) /\ tasks s 0 = Over true /\ okSim s = 1 /\ failSim s = 1.
Proof.
  exists [Call 1 Run; Step 1; Step 1; Sim 0 SetTime; Call 1 Run; Step 1; Step 1; Sim 1 SetTime; Sim 0 (SetCode true); Sim 0 End;
     Call 0 Update; Step 0; Step 0; Step 0;
     Call 1 Update; Step 1; Step 1; Step 1; Step 1; Step 1; Step 1; Step 1; Step 1;
     Step 0; Step 0; Step 0; Step 0; Step 0].
  vm_compute. repeat split; auto.
Qed.
Print Assumptions C302_wrong_task_refuted.
Example C302_nonvacuous : only 1 [Call 1 Run] /\ ended (run_events [Call 1 Run; Step 1; Step 1; Sim 0 SetTime; Sim 0 End] start) 0.
Proof. split; [intros t c [I|[]]; injection I; congruence|exists false; vm_compute; reflexivity]. Qed.

(** Two updates at once can end the manager thread with an IndexError; from then on no simulation, whenever it is started or ends,
    is ever collected: its client is never told that it has finished. *)
Theorem C303_manager_dies_refuted : exists es, let s := run_events es start in
  threads s 0 = Dead /\ collected s = [] /\
  forall later, (forall u, In (Call u Collect) later -> u = 0) -> collected (run_events later s) = [] /\ threads (run_events later s) 0 = Dead.
Proof.
  exists [Call 1 Run; Step 1; Step 1; Sim 0 SetTime; Sim 0 (SetCode true); Sim 0 End;
     Call 0 Update; Step 0; Step 0; Step 0;
     Call 1 Update; Step 1; Step 1; Step 1; Step 1; Step 1; Step 1; Step 1; Step 0].
  cbv zeta. match goal with |- threads ?x 0 = _ /\ _ => remember x as s eqn:ES; vm_compute in ES end.
  assert (threads s 0 = Dead) as T0 by (rewrite ES; reflexivity). assert (collected s = []) as C0 by (rewrite ES; reflexivity).
  assert (no_collector s) as NC by (intros u; rewrite ES; destruct u as [|[|u]]; split; discriminate). clear ES.
  split; [exact T0|]. split; [exact C0|]. intros later O. destruct (silent_run 0 later s T0 NC O) as (A & B). split; [congruence|exact B].
Qed.
Print Assumptions C303_manager_dies_refuted.
Example C303_nonvacuous : forall u, In (Call u Collect) [Call 1 Run; Step 1; Call 0 Collect] -> u = 0.
Proof. intros u [I|[I|[I|[]]]]; try discriminate. injection I. congruence. Qed.

(** Two updates at once can count a simulation twice, and can lose one of two. *)
Theorem C304_counters_refuted :
  (exists es, let s := run_events es start in created s = 1 /\ completed s = [0] /\ okSim s = 2) /\
  (exists es, let s := run_events es start in (forall t, threads s t = Idle) /\ completed s = [0; 1] /\
     (forall k, In k (completed s) -> tasks s k = Over true) /\ okSim s = 1 /\ failSim s = 0).
Proof.
  split.
  - exists [Call 1 Run; Step 1; Step 1; Sim 0 SetTime; Sim 0 (SetCode true); Sim 0 End;
      Call 0 Update; Step 0; Step 0; Step 0; Step 0;
      Call 1 Update; Step 1; Step 1; Step 1; Step 1; Step 1; Step 1; Step 1; Step 1; Step 0; Step 0].
    vm_compute. repeat split.
  - exists [Call 1 Run; Step 1; Step 1; Sim 0 SetTime; Sim 0 (SetCode true); Sim 0 End; Call 1 Run; Step 1; Step 1; Sim 1 SetTime; Sim 1 (SetCode true); Sim 1 End;
      Call 0 Update; Step 0; Step 0; Step 0; Step 0; Step 0;
      Call 1 Update; Step 1; Step 1; Step 1; Step 1; Step 1; Step 1; Step 0;
      Step 0; Step 0; Step 1; Step 1; Step 0; Step 1].
    vm_compute. split; [intros [|[|t]]; reflexivity|]. split; [reflexivity|]. split; [|split; reflexivity].
    intros k [<- |[<- |[]]]; reflexivity.
Qed.
Print Assumptions C304_counters_refuted.
Example C304_nonvacuous : okSim (run_events (one_thread ++ repeat (Step 5) 11) start) = 1.
Proof. vm_compute. reflexivity. Qed.
