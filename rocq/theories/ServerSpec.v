(** Vocabulary for C15-C17, C57 over the history of requests and answers. *)
From Coq Require Import List Bool Arith.
From Verif Require Import ServerModel.
Import ListNotations.

Definition history := list (op * resp).

(** [s] started run [n]. *)
Definition owner (h : history) (n : nat) (s : sid) : Prop := In (OpRun s true, RRun n) h.
(** Run [n] has ended, leaving [z]. *)
Definition ended (h : history) (n : nat) (z : option archive) : Prop := In (OpFinish n z, RNone) h.
(** The archive of [n] has been handed out. *)
Definition delivered (h : history) (n : nat) : Prop := exists s a, In (OpGet s n, RFiles a) h.
(** Session [s] was started and not closed. *)
Definition is_open (h : history) (s : sid) : Prop :=
  In (OpStart s, RNone) h /\ ~ In (OpClose s, RBool true) h.

Definition deliveries (h : history) : list nat :=
  flat_map (fun e => match e with (OpGet _ n, RFiles _) => [n] | _ => [] end) h.

(** A request made by session [s]. *)
Definition request_of (s : sid) (o : op) : Prop :=
  match o with OpRun s' _ | OpStatus s' | OpGet s' _ | OpClose s' => s' = s | _ => False end.

(** The answers an unknown session gets. *)
Definition refusal (r : resp) : Prop :=
  r = RMinusOne \/ r = RKeyError \/ r = RStatus [] \/ r = RBool false.

(** * Client side (C17) *)
(** The documented loop: every job returned by the iterator is downloaded before the next request to
    the iterator; every run() is accepted, and every run of this client leaves an archive.
    [mine]: the runs of this client so far; [due]: the job returned and not yet downloaded. *)
Fixpoint polite (mine : list nat) (due : option nat) (ls : list jlabel) (os : list jout) : Prop :=
  match ls, os with
  | [], [] => True
  | JOther (OpFinish n z) :: ls', _ :: os' => (In n mine -> z <> None) /\ polite mine due ls' os'
  | JOther _ :: ls', _ :: os' => polite mine due ls' os'
  | JRun a :: ls', o :: os' =>
      a = true /\ match o with JRan (Some n) => polite (mine ++ [n]) due ls' os' | _ => polite mine due ls' os' end
  | JNext :: ls', o :: os' =>
      due = None /\
      match o with JReturned n => polite mine (Some n) ls' os' | _ => polite mine None ls' os' end
  | JGet n :: ls', _ :: os' => due = Some n /\ polite mine None ls' os'
  | _, _ => False
  end.

(** The runs started, and the jobs handed out by the iterator, in the outcomes [os]. *)
Definition runs_of (os : list jout) : list nat :=
  flat_map (fun o => match o with JRan (Some n) => [n] | _ => [] end) os.
Definition jobs_returned (os : list jout) : list nat :=
  flat_map (fun o => match o with JReturned n => [n] | _ => [] end) os.

(** What the loop of the user must see. *)
Record good_iteration (ls : list jlabel) (os : list jout) : Prop := {
  gi_no_error : ~ In JFailed os;
  gi_data : ~ In (JData None) os;
  gi_once : NoDup (jobs_returned os);
  gi_mine : incl (jobs_returned os) (runs_of os);
  gi_stop : forall os1 os2, os = os1 ++ JStopped :: os2 -> incl (runs_of os1) (jobs_returned os1);
  gi_sleep : forall ls1 l ls2 os1 os2, ls = ls1 ++ l :: ls2 -> os = os1 ++ JAsleep :: os2 ->
    length ls1 = length os1 ->
    forall n z, In n (runs_of os1) -> ~ In n (jobs_returned os1) -> ~ In (JOther (OpFinish n z)) ls1 }.
