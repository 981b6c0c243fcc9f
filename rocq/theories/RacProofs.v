(** Proofs about a runner used by several threads. *)
From Coq Require Import List Bool Arith Lia.
From Verif Require Import RacModel RacSpec.
Import ListNotations.

Definition hold_of (p : pc) : option nat := match p with Enlist k | Append k _ => Some k | _ => None end.
Lemma holds_iff : forall s t k, holds s t k <-> hold_of (threads s t) = Some k.
Proof.
  intros s t k. unfold holds. destruct (threads s t); cbn [hold_of]; split; intros H; try contradiction; try discriminate; try congruence.
Qed.
Lemma put_same : forall A (f : nat -> A) k v, put f k v k = v.
Proof. intros. unfold put. rewrite Nat.eqb_refl. reflexivity. Qed.
Lemma put_other : forall A (f : nat -> A) k v j, j <> k -> put f k v j = f j.
Proof. intros A f k v j H. unfold put. apply Nat.eqb_neq in H. rewrite H. reflexivity. Qed.

(** Every task made is on one list, or held by one thread. *)
Definition kept (s : sys) : Prop := forall k,
  (created s <= k -> places s k = 0 /\ forall t, hold_of (threads s t) <> Some k) /\
  (k < created s -> (places s k = 1 /\ forall t, hold_of (threads s t) <> Some k) \/
                    (places s k = 0 /\ exists t, hold_of (threads s t) = Some k /\ forall t', hold_of (threads s t') = Some k -> t' = t)).
Section Moves.
Variables (s s' : sys) (t : nat) (p : pc).
Hypothesis T : forall j, threads s' j = put (threads s) t p j.
Hypothesis K : kept s.
Lemma old_holds : forall t' (k : nat), t' <> t -> hold_of (threads s' t') = hold_of (threads s t').
Proof. intros t' k N. rewrite T, put_other by exact N. reflexivity. Qed.
Lemma new_holds : hold_of (threads s' t) = hold_of p.
Proof. rewrite T, put_same. reflexivity. Qed.
Lemma move_quiet : created s' = created s -> (forall k, places s' k = places s k) -> hold_of (threads s t) = hold_of p -> kept s'.
Proof.
  intros C P H.
  assert (forall t', hold_of (threads s' t') = hold_of (threads s t')) as E.
  { intros t'. destruct (Nat.eq_dec t' t) as [->|N]; [rewrite new_holds; symmetry; exact H|apply old_holds; [exact 0|exact N]]. }
  intros k. destruct (K k) as (A & B). rewrite C, P. split.
  - intros L. destruct (A L) as (A1 & A2). split; [exact A1|]. intros t'. rewrite E. apply A2.
  - intros L. destruct (B L) as [(B1 & B2)|(B1 & t' & B2 & B3)]; [left|right].
    + split; [exact B1|]. intros t'. rewrite E. apply B2.
    + split; [exact B1|]. exists t'. rewrite E. split; [exact B2|]. intros u. rewrite E. apply B3.
Qed.
Lemma move_take : forall k, created s' = created s -> hold_of (threads s t) = None -> hold_of p = Some k ->
  (forall j, j <> k -> places s' j = places s j) -> places s k = S (places s' k) -> kept s'.
Proof.
  intros k C O N PO PK j. destruct (K j) as (A & B). rewrite C.
  destruct (Nat.eq_dec j k) as [->|NJ].
  - split; [intros L; destruct (A L) as (A1 & _); lia|]. intros L. right. destruct (B L) as [(B1 & B2)|(B1 & _)]; [|lia].
    split; [lia|]. exists t. rewrite new_holds. split; [exact N|]. intros u U. destruct (Nat.eq_dec u t) as [->|NU]; [reflexivity|]. exfalso.
    rewrite (old_holds u 0 NU) in U. exact (B2 u U).
  - rewrite (PO j NJ).
    assert (forall u, hold_of (threads s' u) = Some j <-> hold_of (threads s u) = Some j) as E.
    { intros u. destruct (Nat.eq_dec u t) as [->|NU]; [rewrite new_holds, N, O; split; congruence|rewrite (old_holds u 0 NU); reflexivity]. }
    split.
    + intros L. destruct (A L) as (A1 & A2). split; [exact A1|]. intros u U. apply E in U. exact (A2 u U).
    + intros L. destruct (B L) as [(B1 & B2)|(B1 & u & B2 & B3)]; [left|right].
      * split; [exact B1|]. intros u U. apply E in U. exact (B2 u U).
      * split; [exact B1|]. exists u. split; [apply E; exact B2|]. intros w W. apply E in W. exact (B3 w W).
Qed.
Lemma move_give : forall k, created s' = created s -> hold_of (threads s t) = Some k -> hold_of p = None ->
  (forall j, j <> k -> places s' j = places s j) -> places s' k = S (places s k) -> kept s'.
Proof.
  intros k C O N PO PK j. destruct (K j) as (A & B). rewrite C.
  destruct (Nat.eq_dec j k) as [->|NJ].
  - split; [intros L; destruct (A L) as (_ & A2); exfalso; exact (A2 t O)|]. intros L. left. destruct (B L) as [(B1 & B2)|(B1 & u & B2 & B3)]; [exfalso; exact (B2 t O)|].
    split; [lia|]. intros w W. destruct (Nat.eq_dec w t) as [->|NW]; [rewrite new_holds, N in W; discriminate|]. rewrite (old_holds w 0 NW) in W.
    apply NW. rewrite (B3 w W). symmetry. apply B3. exact O.
  - rewrite (PO j NJ).
    assert (forall u, hold_of (threads s' u) = Some j <-> hold_of (threads s u) = Some j) as E.
    { intros u. destruct (Nat.eq_dec u t) as [->|NU]; [rewrite new_holds, N, O; split; congruence|rewrite (old_holds u 0 NU); reflexivity]. }
    split.
    + intros L. destruct (A L) as (A1 & A2). split; [exact A1|]. intros u U. apply E in U. exact (A2 u U).
    + intros L. destruct (B L) as [(B1 & B2)|(B1 & u & B2 & B3)]; [left|right].
      * split; [exact B1|]. intros u U. apply E in U. exact (B2 u U).
      * split; [exact B1|]. exists u. split; [apply E; exact B2|]. intros w W. apply E in W. exact (B3 w W).
Qed.
Lemma move_make : created s' = S (created s) -> hold_of (threads s t) = None -> hold_of p = Some (created s) -> (forall k, places s' k = places s k) -> kept s'.
Proof.
  intros C O N P j. destruct (K j) as (A & B). rewrite C, P.
  destruct (Nat.eq_dec j (created s)) as [->|NJ].
  - destruct (A (le_n _)) as (A1 & A2). split; [lia|]. intros _. right. split; [exact A1|]. exists t. rewrite new_holds. split; [exact N|].
    intros u U. destruct (Nat.eq_dec u t) as [->|NU]; [reflexivity|]. rewrite (old_holds u 0 NU) in U. exfalso. exact (A2 u U).
  - assert (forall u, hold_of (threads s' u) = Some j <-> hold_of (threads s u) = Some j) as E.
    { intros u. destruct (Nat.eq_dec u t) as [->|NU]; [rewrite new_holds, N, O; split; congruence|rewrite (old_holds u 0 NU); reflexivity]. }
    split.
    + intros L. destruct (A ltac:(lia)) as (A1 & A2). split; [exact A1|]. intros u U. apply E in U. exact (A2 u U).
    + intros L. destruct (B ltac:(lia)) as [(B1 & B2)|(B1 & u & B2 & B3)]; [left|right].
      * split; [exact B1|]. intros u U. apply E in U. exact (B2 u U).
      * split; [exact B1|]. exists u. split; [apply E; exact B2|]. intros w W. apply E in W. exact (B3 w W).
Qed.
End Moves.
Lemma remove_at_count : forall l i k, nth_error l i = Some k -> forall j, count_occ Nat.eq_dec l j = (if Nat.eq_dec k j then 1 else 0) + count_occ Nat.eq_dec (remove_at i l) j.
Proof.
  unfold remove_at. induction l as [|x l IH]; intros [|i] k H j; try discriminate.
  - cbn in H. injection H as ->. cbn. destruct (Nat.eq_dec k j); reflexivity.
  - cbn [nth_error] in H. specialize (IH i k H j). cbn [firstn skipn app count_occ]. cbn [skipn] in IH. rewrite IH. destruct (Nat.eq_dec x j); destruct (Nat.eq_dec k j); lia.
Qed.
Lemma kept_do : forall e s, kept s -> kept (do e s).
Proof.
  intros e s K. destruct e as [k a|t c|t]; cbn [do].
  - intros j. exact (K j).
  - unfold thread_call. destruct (threads s t) eqn:E; try exact K. destruct c.
    + apply (move_quiet s _ t (Test 0)); [reflexivity|exact K|reflexivity|reflexivity|rewrite E; reflexivity].
    + apply (move_make s _ t (Enlist (created s))); [reflexivity|exact K|reflexivity|rewrite E; reflexivity|reflexivity|reflexivity].
    + apply (move_quiet s _ t CTest); [reflexivity|exact K|reflexivity|reflexivity|rewrite E; reflexivity].
  - unfold thread_step. destruct (threads s t) as [|i|i|i|i|z i|z v i|i|k i|k|k| | |] eqn:E; try exact K.
    + destruct (i <? length (active s)); (eapply (move_quiet s); [intros j; reflexivity|exact K|reflexivity|reflexivity|rewrite E; reflexivity]).
    + destruct (nth_error (active s) i); [destruct (is_alive _)|]; (eapply (move_quiet s); [intros j; reflexivity|exact K|reflexivity|reflexivity|rewrite E; reflexivity]).
    + destruct (nth_error (active s) i); [destruct (no_time _)|]; (eapply (move_quiet s); [intros j; reflexivity|exact K|reflexivity|reflexivity|rewrite E; reflexivity]).
    + destruct (nth_error (active s) i); (eapply (move_quiet s); [intros j; reflexivity|exact K|reflexivity|reflexivity|rewrite E; reflexivity]).
    + eapply (move_quiet s); [intros j; reflexivity|exact K|reflexivity|reflexivity|rewrite E; reflexivity].
    + eapply (move_quiet s); [intros j; reflexivity|exact K|reflexivity|reflexivity|rewrite E; reflexivity].
    + destruct (nth_error (active s) i) as [k|] eqn:N.
      * eapply (move_take s); [intros j; reflexivity|exact K|reflexivity|rewrite E; reflexivity|reflexivity| |].
        -- intros j NJ. unfold places. cbn -[Nat.eq_dec]. rewrite (remove_at_count _ _ _ N j). destruct (Nat.eq_dec k j); [congruence|reflexivity].
        -- unfold places. cbn -[Nat.eq_dec]. rewrite (remove_at_count _ _ _ N k). destruct (Nat.eq_dec k k); [reflexivity|congruence].
      * eapply (move_quiet s); [intros j; reflexivity|exact K|reflexivity|reflexivity|rewrite E; reflexivity].
    + eapply (move_give s); [intros j; reflexivity|exact K|reflexivity|rewrite E; reflexivity|reflexivity| |].
      * intros j NJ. unfold places. cbn -[Nat.eq_dec]. rewrite count_occ_app. cbn -[Nat.eq_dec]. destruct (Nat.eq_dec k j); [congruence|lia].
      * unfold places. cbn -[Nat.eq_dec]. rewrite count_occ_app. cbn -[Nat.eq_dec]. destruct (Nat.eq_dec k k); [lia|congruence].
    + eapply (move_give s); [intros j; reflexivity|exact K|reflexivity|rewrite E; reflexivity|reflexivity| |].
      * intros j NJ. unfold places. cbn -[Nat.eq_dec]. rewrite count_occ_app. cbn -[Nat.eq_dec]. destruct (Nat.eq_dec k j); [congruence|lia].
      * unfold places. cbn -[Nat.eq_dec]. rewrite count_occ_app. cbn -[Nat.eq_dec]. destruct (Nat.eq_dec k k); [lia|congruence].
    + eapply (move_quiet s); [intros j; reflexivity|exact K|reflexivity|reflexivity|rewrite E; reflexivity].
    + destruct (completed s); (eapply (move_quiet s); [intros j; reflexivity|exact K|reflexivity|reflexivity|rewrite E; reflexivity]).
    + destruct (completed s) as [|k r] eqn:C; (eapply (move_quiet s); [intros j; reflexivity|exact K|reflexivity| |rewrite E; reflexivity]).
      * intros j. unfold places. cbn -[Nat.eq_dec]. rewrite ?C. reflexivity.
      * intros j. unfold places. cbn -[Nat.eq_dec]. rewrite map_app, count_occ_app, C. cbn -[Nat.eq_dec]. destruct (Nat.eq_dec k j); lia.
Qed.
Lemma kept_run : forall es s, kept s -> kept (run_events es s).
Proof. induction es as [|e es IH]; intros s K; [exact K|]. unfold run_events in *. cbn [fold_left]. apply IH. apply kept_do. exact K. Qed.
Lemma kept_start : kept start.
Proof. intros k. split; [intros _; split; [reflexivity|intros t; discriminate]|cbn; lia]. Qed.
