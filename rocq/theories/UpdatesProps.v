(** C01, C02 - the log of edits (spicelib/editor/updates.py). *)
From Coq Require Import String List Bool ZArith.
From Verif Require Import UpdatesModel UpdatesSpec UpdatesProofs.
Import ListNotations.
Local Open Scope string_scope.

(** C01: at most one entry per key. *)
Theorem C01_log_one_entry_per_key : forall h,
  valid_history h -> NoDup (map key_of (log_of h)).
Proof. exact log_nodup. Qed.
Print Assumptions C01_log_one_entry_per_key.

(** C01: the entries of the log are exactly the last writes of the history. *)
Theorem C01_log_last_write_wins : forall h, valid_history h ->
  forall u, In u (log_of h) <-> last_write h (key_of u) = Some u.
Proof. exact log_last. Qed.
Print Assumptions C01_log_last_write_wins.

(** C01: an edit changes no entry with another key. *)
Theorem C01_log_frame : forall h e u, valid_history (h ++ [e]) -> key_of u <> key_of e ->
  (In u (log_of (h ++ [e])) <-> In u (log_of h)).
Proof. exact log_frame. Qed.
Print Assumptions C01_log_frame.

(** C01: entries stay in order of first recording. *)
Theorem C01_log_order_of_first_recording : forall h, valid_history h ->
  map key_of (log_of h) = first_occurrences [] h.
Proof. exact log_order. Qed.
Print Assumptions C01_log_order_of_first_recording.

Definition sample_history : list update :=
  [ Upd "R1" (VStr "1k") UpUpdateComponentValue;
    Upd "INSTRUCTION" (VStr ".tran 1m") UpAddInstruction;
    Upd "INSTRUCTION" (VStr ".op") UpAddInstruction;
    Upd "R1" (VStr "2k") UpUpdateComponentValue;
    Upd "temp" (VNum 27) UpAddParameter;
    Upd "R1" VNone UpDeleteComponent ].

Example C01_nonvacuous :
  valid_history sample_history /\
  log_of sample_history =
  [ Upd "R1" (VStr "2k") UpUpdateComponentValue;
    Upd "INSTRUCTION" (VStr ".tran 1m") UpAddInstruction;
    Upd "INSTRUCTION" (VStr ".op") UpAddInstruction;
    Upd "temp" (VNum 27) UpAddParameter;
    Upd "R1" VNone UpDeleteComponent ].
Proof.
  split; [|reflexivity].
  intros e H. unfold sample_history in H. simpl in H.
  repeat (destruct H as [<-|H]; [discriminate|]). destruct H.
Qed.

(** C02: [Updates.value] returns the last value given to the component. *)
Theorem C02_value_returns_last : forall h n,
  valid_history h -> n <> "INSTRUCTION" ->
  log_value (log_of h) n = match last_component_value h n with Some v => v | None => VNone end.
Proof. exact value_returns_last. Qed.
Print Assumptions C02_value_returns_last.

(** C02: [Updates.parameter] does the same as long as the history does not both add and update the
    parameter (the mixed case is C122). *)
Theorem C02_parameter_returns_last : forall h n k,
  valid_history h -> n <> "INSTRUCTION" -> one_param_kind h n k ->
  log_parameter (log_of h) n = match last_param_value h n with Some v => v | None => VNone end.
Proof. exact parameter_returns_last_partial. Qed.
Print Assumptions C02_parameter_returns_last.

(** C02 is false in general: after adding a parameter and updating it (what two set_parameter calls
    on a new parameter record) the query returns the first, stale, value. *)
Theorem C122_parameter_mixed_refuted : exists h n v,
  valid_history h /\ last_param_value h n = Some v /\ log_parameter (log_of h) n <> v.
Proof.
  exists [Upd "res" (VStr "1k") UpAddParameter; Upd "res" (VStr "2k") UpUpdateParameter], "res", (VStr "2k").
  split; [|split; [reflexivity|vm_compute; discriminate]].
  intros e H; simpl in H. destruct H as [<-|[<-|[]]]; discriminate.
Qed.
Print Assumptions C122_parameter_mixed_refuted.

Example C02_nonvacuous :
  last_component_value sample_history "R1" = Some (VStr "2k") /\
  one_param_kind sample_history "temp" UpAddParameter.
Proof.
  split; [reflexivity|]. split; [reflexivity|].
  intros e H; simpl in H. repeat (destruct H as [<-|H]; [simpl; intros; (reflexivity || discriminate)|]).
  destruct H.
Qed.
