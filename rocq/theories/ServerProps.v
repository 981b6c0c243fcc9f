(** C15-C17, C57: the simulation server and its client. *)
From Coq Require Import List Bool Arith Lia.
From Verif Require Import ServerModel ServerSpec ServerProofs.
Import ListNotations.

(** * C15.  Sessions are isolated. *)
Theorem C15_runs_belong_to_one_session : forall os v h n s s', sexec server0 os = Some (v, h) ->
  owner h n s -> owner h n s' -> s = s'.
Proof. exact one_owner. Qed.
Print Assumptions C15_runs_belong_to_one_session.

Theorem C15_status_lists_own_runs : forall os v h s l n, sexec server0 os = Some (v, h) ->
  In (OpStatus s, RStatus l) h -> In n l -> owner h n s.
Proof. exact status_own. Qed.
Print Assumptions C15_status_lists_own_runs.

Theorem C15_files_of_own_runs : forall os v h s n a, sexec server0 os = Some (v, h) ->
  In (OpGet s n, RFiles a) h -> owner h n s /\ ended h n (Some a).
Proof. exact get_own. Qed.
Print Assumptions C15_files_of_own_runs.

(** A request of one session changes nothing that belongs to another: neither its results, nor its
    run list, nor its running simulations. *)
Theorem C15_requests_leave_others_alone : forall os v h s o v' r, sexec server0 os = Some (v, h) ->
  request_of s o -> sstep v o = Some (v', r) ->
  (forall m z, ~ owner h m s -> (In (m, z) (finished v') <-> In (m, z) (finished v))) /\
  (forall s', s' <> s -> lookup s' (sessions v') = lookup s' (sessions v)) /\
  (forall m, ~ owner h m s -> m <= next_run v -> (In m (pending v') <-> In m (pending v))).
Proof. exact frame_others. Qed.
Print Assumptions C15_requests_leave_others_alone.

Theorem C15_unknown_session_refused : forall os v h s o v' r, sexec server0 os = Some (v, h) ->
  request_of s o -> ~ is_open h s -> sstep v o = Some (v', r) -> v' = v /\ refusal r.
Proof. exact unknown_refused. Qed.
Print Assumptions C15_unknown_session_refused.

Definition two_clients : list op :=
  [OpStart 7; OpStart 8; OpRun 7 true; OpRun 8 true; OpFinish 2 (Some 22); OpFinish 1 (Some 11);
   OpStatus 7; OpStatus 8; OpGet 7 2; OpGet 7 1; OpGet 7 1; OpClose 8; OpStatus 8].
Example C15_nonvacuous : exists v h, sexec server0 two_clients = Some (v, h) /\
  map snd h = [RNone; RNone; RRun 1; RRun 2; RNone; RNone; RStatus [1]; RStatus [2]; REmpty; RFiles 11; REmpty;
               RBool true; RStatus []] /\
  owner h 1 7 /\ owner h 2 8 /\ ~ is_open h 8 /\ is_open h 7.
Proof.
  eexists. eexists. split; [vm_compute; reflexivity|]. split; [reflexivity|].
  unfold owner, is_open. split; [simpl; tauto|]. split; [simpl; tauto|]. split.
  - intros [_ G]. apply G. simpl. tauto.
  - split; [simpl; tauto|]. simpl. intuition discriminate.
Qed.

(** * C16.  A result is delivered at most once, and offered until then. *)
Theorem C16_delivered_at_most_once : forall os v h, sexec server0 os = Some (v, h) -> NoDup (deliveries h).
Proof. exact delivered_once. Qed.
Print Assumptions C16_delivered_at_most_once.

Theorem C16_delivered_not_reported : forall os v h s v' l n, sexec server0 os = Some (v, h) ->
  sstep v (OpStatus s) = Some (v', RStatus l) -> In n l -> ~ delivered h n.
Proof. exact status_not_delivered. Qed.
Print Assumptions C16_delivered_not_reported.

Theorem C16_reported_until_delivered : forall os v h s n z, sexec server0 os = Some (v, h) ->
  is_open h s -> owner h n s -> ended h n z -> ~ delivered h n ->
  exists l, sstep v (OpStatus s) = Some (v, RStatus l) /\ In n l.
Proof. exact status_complete. Qed.
Print Assumptions C16_reported_until_delivered.

Theorem C16_available_until_delivered : forall os v h s n a, sexec server0 os = Some (v, h) ->
  is_open h s -> owner h n s -> ended h n (Some a) -> ~ delivered h n ->
  exists v', sstep v (OpGet s n) = Some (v', RFiles a).
Proof. exact get_available. Qed.
Print Assumptions C16_available_until_delivered.

Example C16_nonvacuous : exists v h, sexec server0 (firstn 6 two_clients) = Some (v, h) /\
  is_open h 7 /\ owner h 1 7 /\ ended h 1 (Some 11) /\ ~ delivered h 1 /\ deliveries h = [] /\
  exists v2 h2, sexec server0 two_clients = Some (v2, h2) /\ deliveries h2 = [1].
Proof.
  eexists. eexists. split; [vm_compute; reflexivity|]. unfold is_open, owner, ended, delivered.
  split; [split; [simpl; tauto|simpl; intuition discriminate]|]. split; [simpl; tauto|]. split; [simpl; tauto|].
  split; [intros [s [a G]]; simpl in G; intuition discriminate|]. split; [reflexivity|].
  eexists. eexists. split; [vm_compute; reflexivity|reflexivity].
Qed.

(** * C17.  Iterating over the client. *)
(** Under the documented loop, with every run accepted and leaving an archive: no error, every job is
    handed out at most once and is a job of this client, the iteration only stops when all jobs have
    been handed out, and only waits while no undelivered job has finished.  Outside it: C128. *)
Theorem C17_documented_loop : forall osv v h me j0 ls j os, sexec server0 osv = Some (v, h) ->
  connected me v = Some j0 -> jexec me j0 ls = Some (j, os) -> polite [] None ls os ->
  good_iteration ls os.
Proof. exact client_good. Qed.
Print Assumptions C17_documented_loop.

Definition loop_example : list jlabel :=
  [JRun true; JRun true; JNext; JOther (OpStart 8); JOther (OpRun 8 true); JOther (OpFinish 3 None);
   JOther (OpFinish 2 (Some 22)); JNext; JGet 2; JOther (OpFinish 1 (Some 11)); JNext; JGet 1; JNext].
Example C17_nonvacuous : exists j0 j os, connected 7 server0 = Some j0 /\
  jexec 7 j0 loop_example = Some (j, os) /\ polite [] None loop_example os /\
  os = [JRan (Some 1); JRan (Some 2); JAsleep; JQuiet; JQuiet; JQuiet; JQuiet; JReturned 2; JData (Some 22);
        JQuiet; JReturned 1; JData (Some 11); JStopped].
Proof.
  eexists. eexists. eexists. split; [vm_compute; reflexivity|]. split; [vm_compute; reflexivity|].
  split; [|reflexivity]. simpl. intuition discriminate.
Qed.

(** Asking the iterator twice without downloading in between fails (KeyError). *)
Theorem C128_next_before_download_refuted : exists ls j0 j os, connected 7 server0 = Some j0 /\
  jexec 7 j0 ls = Some (j, os) /\
  (forall n z, In (JOther (OpFinish n z)) ls -> z <> None) /\
  os = [JRan (Some 1); JRan (Some 2); JQuiet; JQuiet; JReturned 1; JFailed].
Proof.
  exists [JRun true; JRun true; JOther (OpFinish 1 (Some 11)); JOther (OpFinish 2 (Some 22)); JNext; JNext].
  eexists. eexists. eexists. split; [vm_compute; reflexivity|]. split; [vm_compute; reflexivity|].
  split; [|reflexivity]. intros n z G. simpl in G. intuition congruence.
Qed.
Print Assumptions C128_next_before_download_refuted.

(** A run that leaves no archive keeps being listed: the documented loop then fails. *)
Theorem C128_crashed_run_refuted : exists ls j0 j os, connected 7 server0 = Some j0 /\
  jexec 7 j0 ls = Some (j, os) /\
  ls = [JRun true; JRun true; JOther (OpFinish 1 None); JNext; JGet 1; JNext] /\
  os = [JRan (Some 1); JRan (Some 2); JQuiet; JReturned 1; JData None; JFailed].
Proof.
  eexists. eexists. eexists. eexists. split; [vm_compute; reflexivity|].
  split; [|split; reflexivity]. vm_compute. reflexivity.
Qed.
Print Assumptions C128_crashed_run_refuted.

(** A run refused by the server is recorded as a started job: the iteration then never stops. *)
Theorem C128_refused_run_never_stops_refuted : forall k, exists j0 j os, connected 7 server0 = Some j0 /\
  jexec 7 j0 (JRun false :: repeat JNext k) = Some (j, os) /\ os = JRan None :: repeat JAsleep k.
Proof.
  intros k. eexists. set (j1 := Joint (Server [(7, [])] [] [] 1 [7]) (Client [None] [] [])).
  exists j1. eexists. split; [vm_compute; reflexivity|]. split; [|reflexivity].
  cbn [jexec]. change (jstep 7 _ (JRun false)) with (Some (j1, JRan None)). cbn iota beta.
  assert (jexec 7 j1 (repeat JNext k) = Some (j1, repeat JAsleep k)) as ->.
  { induction k as [|k IH]; [reflexivity|]. cbn [repeat jexec]. change (jstep 7 j1 JNext) with (Some (j1, JAsleep)).
    cbn iota beta. rewrite IH. reflexivity. }
  reflexivity.
Qed.
Print Assumptions C128_refused_run_never_stops_refuted.

(** * C57.  Closing a session. *)
(** Every result already there is discarded.  Runs that finish later: C140. *)
Theorem C57_close_discards_finished : forall os v h s v', sexec server0 os = Some (v, h) ->
  sstep v (OpClose s) = Some (v', RBool true) ->
  forall n z, owner h n s -> ~ In (n, z) (finished v').
Proof. exact close_discards. Qed.
Print Assumptions C57_close_discards_finished.

(** A run still executing when its session is closed leaves its result on the server, and no request
    of anybody can remove it any more. *)
Theorem C140_late_result_stays_refuted : exists os v h, sexec server0 os = Some (v, h) /\
  os = [OpStart 7; OpRun 7 true; OpClose 7; OpFinish 1 (Some 11)] /\
  In (OpClose 7, RBool true) h /\
  forall os' v' h', sexec v os' = Some (v', h') -> In (1, Some 11) (finished v').
Proof.
  exists [OpStart 7; OpRun 7 true; OpClose 7; OpFinish 1 (Some 11)].
  destruct (sexec server0 [OpStart 7; OpRun 7 true; OpClose 7; OpFinish 1 (Some 11)]) as [[v h]|] eqn:E; [|discriminate].
  exists v, h. split; [reflexivity|]. split; [reflexivity|]. assert (Hx := E). vm_compute in E. injection E as <- <-.
  split; [simpl; tauto|]. intros os' v' h' H.
  eapply (orphan_stays _ _ _ 1 (Some 11) 7 _ _ _ Hx H); unfold owner; simpl; tauto.
Qed.
Print Assumptions C140_late_result_stays_refuted.

Example C57_nonvacuous : exists v h v', sexec server0 (firstn 6 two_clients) = Some (v, h) /\
  finished v = [(2, Some 22); (1, Some 11)] /\ sstep v (OpClose 7) = Some (v', RBool true) /\
  finished v' = [(2, Some 22)].
Proof. do 3 eexists. split; [vm_compute; reflexivity|]. repeat split. Qed.
