(** What a runner promises to several threads. *)
From Coq Require Import List Bool Arith.
From Verif Require Import RacModel.
Import ListNotations.

(** The thread t holds the task k: it has made it and not yet put it on the list of active tasks, or has taken it from there and
    not yet put it on the list of completed tasks. *)
Definition holds (s : sys) (t k : nat) : Prop :=
  match threads s t with Enlist j => j = k | Append j _ => j = k | _ => False end.
(** How often a task is on the three lists. *)
Definition places (s : sys) (k : nat) : nat :=
  count_occ Nat.eq_dec (active s) k + count_occ Nat.eq_dec (completed s) k + count_occ Nat.eq_dec (map fst (collected s)) k.
(** Only the thread t calls anything. *)
Definition only (t : nat) (es : list event) : Prop := forall t' c, In (Call t' c) es -> t' = t.
Definition ended (s : sys) (k : nat) : Prop := exists z, tasks s k = Over z.
Definition count_ok (s : sys) (l : list nat) : nat := length (filter (fun k => code_zero (tasks s k)) l).
