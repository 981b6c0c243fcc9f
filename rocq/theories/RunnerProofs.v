From Coq Require Import String Ascii List Bool Arith ZArith Lia Permutation Sorted.
From Verif Require Import PyStr UpdatesModel RunnerModel RunnerSpec.
Import ListNotations.

(** * Permutations and filters *)
Lemma perm_filter : forall A (f : A -> bool) l l', Permutation l l' ->
  Permutation (filter f l) (filter f l').
Proof.
  intros A f l l' H. induction H; simpl.
  - constructor.
  - destruct (f x); [constructor; assumption|assumption].
  - destruct (f x), (f y); try apply Permutation_refl. constructor.
  - eapply Permutation_trans; eassumption.
Qed.

Lemma filter_app_len : forall A (f : A -> bool) a b,
  length (filter f (a ++ b)) = length (filter f a) + length (filter f b).
Proof. intros A f a b. rewrite filter_app, app_length. reflexivity. Qed.

Lemma filter_split_perm : forall A (f : A -> bool) l,
  Permutation l (filter f l ++ filter (fun x => negb (f x)) l).
Proof.
  intros A f l. induction l as [|x l IH]; simpl; [constructor|].
  destruct (f x); simpl.
  - constructor. exact IH.
  - apply Permutation_cons_app. exact IH.
Qed.

(** * update_completed *)
Lemma update_loop_spec : forall rest acc r,
  let r' := update_loop acc rest r in
  parallel r' = parallel r /\ runno r' = runno r /\
  active r' = acc ++ filter busy rest /\
  completed r' = completed r ++ filter (fun t => negb (busy t)) rest /\
  okSim r' = okSim r + length (filter succeeded (filter (fun t => negb (busy t)) rest)) /\
  failSim r' = failSim r
    + length (filter (fun t => negb (succeeded t)) (filter (fun t => negb (busy t)) rest)).
Proof.
  induction rest as [|t rest IH]; intros acc r; simpl.
  - rewrite !app_nil_r. repeat split; lia.
  - destruct (busy t) eqn:B; simpl.
    + specialize (IH (acc ++ [t]) r). simpl in IH.
      destruct IH as (H1 & H2 & H3 & H4 & H5 & H6).
      repeat split; try assumption. rewrite H3, <- app_assoc. reflexivity.
    + match goal with |- context [update_loop acc rest ?r0] => specialize (IH acc r0) end.
      simpl in IH. destruct IH as (H1 & H2 & H3 & H4 & H5 & H6).
      repeat split; try assumption.
      * rewrite H4, <- app_assoc. reflexivity.
      * rewrite H5. destruct (succeeded t); simpl; lia.
      * rewrite H6. destruct (succeeded t); simpl; lia.
Qed.

Lemma update_completed_spec : forall r,
  let r' := update_completed r in
  parallel r' = parallel r /\ runno r' = runno r /\
  active r' = filter busy (active r) /\
  completed r' = completed r ++ filter (fun t => negb (busy t)) (active r) /\
  okSim r' = okSim r + length (filter succeeded (filter (fun t => negb (busy t)) (active r))) /\
  failSim r' = failSim r
    + length (filter (fun t => negb (succeeded t)) (filter (fun t => negb (busy t)) (active r))).
Proof.
  intros r. unfold update_completed. pose proof (update_loop_spec (active r) [] r) as H.
  simpl in H. exact H.
Qed.

Lemma update_completed_perm : forall r rest,
  Permutation (active r ++ completed r ++ rest)
    (active (update_completed r) ++ completed (update_completed r) ++ rest).
Proof.
  intros r rest. destruct (update_completed_spec r) as (_ & _ & Ha & Hc & _ & _).
  rewrite Ha, Hc.
  rewrite (Permutation_app_tail (completed r ++ rest) (filter_split_perm _ busy (active r))).
  rewrite <- !app_assoc. apply Permutation_app_head.
  rewrite !app_assoc. apply Permutation_app_tail. apply Permutation_app_comm.
Qed.

Lemma succ_fail_len : forall l,
  length (filter succeeded l) + length (filter (fun t => negb (succeeded t)) l) = length l.
Proof.
  induction l as [|t l IH]; simpl; [reflexivity|]. destruct (succeeded t); simpl; lia.
Qed.

(** * The effect of thread actions *)
Lemma act_on_no : forall k a t, t_no (act_on k a t) = t_no t.
Proof.
  intros k a t. unfold act_on, th_act. destruct (Nat.eqb (t_no t) k); [|reflexivity].
  destruct a; destruct (t_alive t); simpl; try reflexivity; destruct (t_started t); reflexivity.
Qed.
Lemma act_on_now : forall k a t, t_now (act_on k a t) = t_now t.
Proof.
  intros k a t. unfold act_on, th_act. destruct (Nat.eqb (t_no t) k); [|reflexivity].
  destruct a; destruct (t_alive t); simpl; try reflexivity; destruct (t_started t); reflexivity.
Qed.
Lemma act_on_dead : forall k a t, t_alive t = false -> act_on k a t = t.
Proof.
  intros k a t H. unfold act_on, th_act. destruct (Nat.eqb (t_no t) k); [|reflexivity].
  destruct a; rewrite H; reflexivity.
Qed.
Lemma act_on_alive_back : forall k a t, t_alive (act_on k a t) = true -> t_alive t = true.
Proof.
  intros k a t. unfold act_on, th_act. destruct (Nat.eqb (t_no t) k); [|auto].
  destruct (t_alive t) eqn:E; [reflexivity|]. destruct a; simpl; rewrite ?E; auto.
Qed.
Lemma act_on_live : forall k a t, t_alive t || t_started t = true ->
  t_alive (act_on k a t) || t_started (act_on k a t) = true.
Proof.
  intros k a t H. unfold act_on, th_act. destruct (Nat.eqb (t_no t) k); [|exact H].
  destruct a; destruct (t_alive t) eqn:E; simpl in *; rewrite ?E; simpl; auto;
    destruct (t_started t) eqn:E2; simpl; rewrite ?E, ?E2; auto.
Qed.

Lemma acts_no : forall l t, t_no (acts l t) = t_no t.
Proof. induction l as [|[k a] l IH]; intros t; simpl; [reflexivity|]. rewrite IH. apply act_on_no. Qed.
Lemma acts_now : forall l t, t_now (acts l t) = t_now t.
Proof. induction l as [|[k a] l IH]; intros t; simpl; [reflexivity|]. rewrite IH. apply act_on_now. Qed.
Lemma acts_dead : forall l t, t_alive t = false -> acts l t = t.
Proof.
  induction l as [|[k a] l IH]; intros t H; simpl; [reflexivity|].
  rewrite (act_on_dead k a t H). apply IH. exact H.
Qed.
Lemma acts_live : forall l t, t_alive t || t_started t = true ->
  t_alive (acts l t) || t_started (acts l t) = true.
Proof.
  induction l as [|[k a] l IH]; intros t H; simpl; [exact H|]. apply IH. apply act_on_live. exact H.
Qed.

Lemma map_no : forall g l, (forall t, t_no (g t) = t_no t) -> map t_no (map g l) = map t_no l.
Proof. intros g l H. rewrite map_map. apply map_ext. exact H. Qed.

(** * The invariant of every reachable state *)
Definition lived (t : task) : Prop := t_alive t || t_started t = true.

Record Inv (p : nat) (s : sys) (os : list out) : Prop := MkInv {
  i_par : parallel (rn s) = p;
  i_lived : Forall lived (all_tasks s);
  i_now : Forall (fun t => t_now t = false) (active (rn s));
  i_dead : Forall (fun t => t_now t = false -> t_alive t = false) (completed (rn s));
  i_join : match cl s with Joining t => t_now t = true /\ (t_no t <= runno (rn s)) | _ => True end;
  i_nodup : NoDup (map t_no (all_tasks s));
  i_le : Forall (fun t => t_no t <= runno (rn s)) (all_tasks s);
  i_wait : match cl s with
           | Waiting n _ _ => n = runno (rn s) /\ Forall (fun t => t_no t < n) (all_tasks s)
           | _ => True end;
  i_count : okSim (rn s) + failSim (rn s) = length (completed (rn s));
  i_started : Permutation (started_numbers os) (map t_no (all_tasks s));
  i_sorted : StronglySorted lt (assigned_numbers os);
  i_asg_le : Forall (fun n => n <= runno (rn s)) (assigned_numbers os);
  i_live_count : length (running s) <= p + forced_starts os }.

Lemma started_numbers_app : forall a b, started_numbers (a ++ b) = started_numbers a ++ started_numbers b.
Proof. intros a b. unfold started_numbers. apply flat_map_app. Qed.
Lemma assigned_numbers_app : forall a b,
  assigned_numbers (a ++ b) = assigned_numbers a ++ assigned_numbers b.
Proof. intros a b. unfold assigned_numbers. apply flat_map_app. Qed.
Lemma assigned_app : forall a b, assigned (a ++ b) = assigned a ++ assigned b.
Proof. intros a b. unfold assigned. apply flat_map_app. Qed.
Lemma forced_starts_app : forall a b, forced_starts (a ++ b) = forced_starts a + forced_starts b.
Proof. intros a b. unfold forced_starts. apply filter_app_len. Qed.
Lemma yielded_app : forall a b, yielded (a ++ b) = yielded a ++ yielded b.
Proof. intros a b. unfold yielded. apply flat_map_app. Qed.

Lemma sorted_snoc : forall l n, StronglySorted lt l -> Forall (fun m => m <= n) l ->
  StronglySorted lt (l ++ [S n]).
Proof.
  intros l n H. induction H as [|a l H IH Ha]; simpl; intros Hn.
  - constructor; constructor.
  - inversion Hn; subst. constructor; [apply IH; assumption|].
    apply Forall_app. split; [assumption|]. constructor; [lia|constructor].
Qed.

Definition joined (c : client) : list task := match c with Joining t => [t] | _ => [] end.

Lemma all_tasks_eq : forall s, all_tasks s = active (rn s) ++ completed (rn s) ++ joined (cl s).
Proof. reflexivity. Qed.

(** update_completed only rearranges. *)
Lemma inv_update : forall p s os c', Inv p s os ->
  cl s = c' ->
  Inv p (Sys (update_completed (rn s)) c' (counter s)) os.
Proof.
  intros p s os c' H Hc. subst c'.
  assert (Permutation (all_tasks s) (all_tasks (Sys (update_completed (rn s)) (cl s) (counter s)))) as P.
  { rewrite !all_tasks_eq. simpl. apply update_completed_perm. }
  destruct (update_completed_spec (rn s)) as (U1 & U2 & U3 & U4 & U5 & U6).
  destruct H as [H1 H2 H3 H4 H5 H6 H7 H8 H9 H10 H11 H12 H13].
  constructor; cbn [rn cl].
  - rewrite U1. exact H1.
  - rewrite <- P. exact H2.
  - rewrite U3. rewrite Forall_forall in *. intros t Ht. apply filter_In in Ht. apply H3, Ht.
  - rewrite U4. apply Forall_app. split; [exact H4|].
    rewrite Forall_forall. intros t Ht _. apply filter_In in Ht. destruct Ht as [_ Ht].
    unfold busy in Ht. destruct (t_alive t); [discriminate|reflexivity].
  - rewrite U2. exact H5.
  - rewrite <- P. exact H6.
  - rewrite <- P, U2. exact H7.
  - destruct (cl s); try exact I. rewrite U2. rewrite <- P. exact H8.
  - rewrite U4, U5, U6, app_length. pose proof (succ_fail_len (filter (fun t => negb (busy t)) (active (rn s)))).
    lia.
  - rewrite H10. apply Permutation_map. exact P.
  - exact H11.
  - rewrite U2. exact H12.
  - unfold running in *. rewrite <- (Permutation_length (perm_filter _ _ _ _ P)). exact H13.
Qed.

Lemma filter_all : forall A (f : A -> bool) l, Forall (fun x => f x = true) l -> filter f l = l.
Proof.
  intros A f l H. induction H as [|x l Hx H IH]; simpl; [reflexivity|]. rewrite Hx, IH. reflexivity.
Qed.
Lemma filter_none : forall A (f : A -> bool) l, Forall (fun x => f x = false) l -> filter f l = [].
Proof.
  intros A f l H. induction H as [|x l Hx H IH]; simpl; [reflexivity|]. rewrite Hx, IH. reflexivity.
Qed.

(** When every finished task has been moved away, the active list is exactly the running ones. *)
Lemma running_is_active : forall p s os, Inv p s os -> Forall (fun t => busy t = true) (active (rn s)) ->
  length (running s) = length (active (rn s)).
Proof.
  intros p s os H Hb. destruct H as [H1 H2 H3 H4 H5 H6 H7 H8 H9 H10 H11 H12 H13].
  unfold running. rewrite all_tasks_eq, !filter_app.
  rewrite (filter_all _ _ (active (rn s))).
  - rewrite (filter_none _ _ (completed (rn s))).
    + rewrite (filter_none _ _ (joined (cl s))).
      * rewrite !app_nil_r. reflexivity.
      * destruct (cl s); simpl; constructor; [|constructor]. destruct H5 as [H5 _]. rewrite H5.
        apply andb_false_r.
    + rewrite Forall_forall in *. intros t Ht. specialize (H4 t Ht).
      destruct (t_now t); [apply andb_false_r|]. rewrite H4; reflexivity.
  - rewrite Forall_forall in *. intros t Ht. rewrite (H3 t Ht). simpl. rewrite andb_true_r.
    specialize (Hb t Ht). unfold busy in Hb.
    assert (lived t) as L. { apply H2. rewrite all_tasks_eq. apply in_or_app. left. exact Ht. }
    unfold lived in L. destruct (t_alive t); [reflexivity|]. simpl in *. rewrite L in Hb. discriminate.
Qed.

Lemma active_busy_after_update : forall r,
  Forall (fun t => busy t = true) (active (update_completed r)).
Proof.
  intros r. destruct (update_completed_spec r) as (_ & _ & U3 & _). rewrite U3.
  rewrite Forall_forall. intros t Ht. apply filter_In in Ht. apply Ht.
Qed.

(** A new simulation started by run(). *)
Lemma inv_start : forall p s os n f rq h c, Inv p s os -> cl s = Waiting n f rq ->
  (h = Forced \/ (h = Waited /\ length (running s) < p)) ->
  Inv p (Sys (add_active (new_task n f rq false) (rn s)) Idle c) (os ++ [OStarted n h]).
Proof.
  intros p s os n f rq h c H Hw Hh.
  destruct H as [H1 H2 H3 H4 H5 H6 H7 H8 H9 H10 H11 H12 H13]. rewrite Hw in *.
  assert (P : Permutation (new_task n f rq false :: all_tasks s)
                (all_tasks (Sys (add_active (new_task n f rq false) (rn s)) Idle c))).
  { rewrite !all_tasks_eq, Hw. simpl. rewrite app_nil_r, <- app_assoc. simpl.
    apply Permutation_middle. }
  destruct H8 as [H8a H8b].
  constructor; cbn [rn cl].
  - exact H1.
  - rewrite <- P. constructor; [reflexivity|exact H2].
  - simpl. apply Forall_app. split; [exact H3|]. constructor; [reflexivity|constructor].
  - exact H4.
  - exact I.
  - rewrite <- P. simpl. constructor; [|exact H6].
    intros Hi. apply in_map_iff in Hi. destruct Hi as [t [Et Ht]].
    rewrite Forall_forall in H8b. specialize (H8b t Ht). lia.
  - rewrite <- P. simpl. constructor; [simpl; lia|exact H7].
  - exact I.
  - exact H9.
  - rewrite started_numbers_app. rewrite <- P. simpl.
    rewrite <- Permutation_cons_append. constructor. exact H10.
  - rewrite assigned_numbers_app. simpl. rewrite app_nil_r. exact H11.
  - rewrite assigned_numbers_app. simpl. rewrite app_nil_r. exact H12.
  - unfold running in *. rewrite <- (Permutation_length (perm_filter _ _ _ _ P)).
    rewrite forced_starts_app. simpl.
    destruct Hh as [->|[-> Hl]]; unfold forced_starts at 2; simpl; lia.
Qed.

Lemma inv_thread : forall p s os k a, Inv p s os -> Inv p (on_threads (act_on k a) s) os.
Proof.
  intros p s os k a H.
  destruct H as [H1 H2 H3 H4 H5 H6 H7 H8 H9 H10 H11 H12 H13].
  assert (all_tasks (on_threads (act_on k a) s) = map (act_on k a) (all_tasks s)) as E.
  { rewrite !all_tasks_eq. unfold on_threads, on_runner, on_client. simpl. rewrite !map_app.
    destruct (cl s); reflexivity. }
  constructor.
  - exact H1.
  - rewrite E. rewrite Forall_forall in *. intros t Ht. apply in_map_iff in Ht.
    destruct Ht as [t0 [<- Ht]]. apply act_on_live. apply H2. exact Ht.
  - simpl. rewrite Forall_forall in *. intros t Ht. apply in_map_iff in Ht.
    destruct Ht as [t0 [<- Ht]]. rewrite act_on_now. apply H3. exact Ht.
  - simpl. rewrite Forall_forall in *. intros t Ht. apply in_map_iff in Ht.
    destruct Ht as [t0 [<- Ht]]. rewrite act_on_now. intros Hn. specialize (H4 t0 Ht Hn).
    rewrite act_on_dead; exact H4.
  - simpl. destruct (cl s); simpl; try exact I. rewrite act_on_now, act_on_no. exact H5.
  - rewrite E, map_no; [exact H6|]. intros t. apply act_on_no.
  - rewrite E. rewrite Forall_forall in *. intros t Ht. apply in_map_iff in Ht.
    destruct Ht as [t0 [<- Ht]]. rewrite act_on_no. simpl. apply H7. exact Ht.
  - rewrite E. simpl. destruct (cl s); simpl; try exact I. destruct H8 as [H8a H8b]. split; [exact H8a|].
    rewrite Forall_forall in *. intros t Ht. apply in_map_iff in Ht.
    destruct Ht as [t0 [<- Ht]]. rewrite act_on_no. apply H8b. exact Ht.
  - simpl. rewrite map_length. exact H9.
  - rewrite E, map_no; [exact H10|]. intros t. apply act_on_no.
  - exact H11.
  - exact H12.
  - unfold running in *. rewrite E. eapply Nat.le_trans; [|exact H13].
    clear. induction (all_tasks s) as [|t l IH]; simpl; [lia|].
    rewrite act_on_now. destruct (t_alive (act_on k a t)) eqn:A; simpl.
    + apply act_on_alive_back in A. rewrite A. simpl.
      destruct (negb (t_now t)); simpl; lia.
    + destruct (t_alive t && negb (t_now t)); simpl; lia.
Qed.

Lemma inv_add_completed : forall p s os t c, Inv p s os -> cl s = Joining t ->
  Inv p (Sys (add_completed t (rn s)) Idle c) os.
Proof.
  intros p s os t c H Hj.
  destruct H as [H1 H2 H3 H4 H5 H6 H7 H8 H9 H10 H11 H12 H13]. rewrite Hj in *.
  assert (all_tasks (Sys (add_completed t (rn s)) Idle c) = all_tasks s) as E.
  { rewrite !all_tasks_eq, Hj. simpl. rewrite app_nil_r. reflexivity. }
  constructor; rewrite ?E; cbn [rn cl]; try assumption; try exact I.
  - simpl. apply Forall_app. split; [exact H4|]. constructor; [|constructor].
    destruct H5 as [H5 _]. rewrite H5. discriminate.
  - simpl. rewrite app_length. simpl. destruct (succeeded t); lia.
  - unfold running in *. rewrite E. exact H13.
Qed.

Lemma step_inv : forall conds wait p s os l s' o, Inv p s os ->
  step conds wait s l = Some (s', o) -> Inv p s' (os ++ o).
Proof.
  intros conds wait p s os l s' o H Hs.
  pose proof H as Hsave.
  destruct H as [H1 H2 H3 H4 H5 H6 H7 H8 H9 H10 H11 H12 H13].
  destruct l as [rq| | |rq| | | | |k a]; unfold step in Hs; destruct (cl s) as [|wn wf wrq|jt] eqn:Ec;
    try discriminate.
  - (* LRun *)
    injection Hs as <- <-.
    assert (all_tasks (Sys (bump (rn s)) (Waiting (S (runno (rn s)))
             (prepared_name (S (runno (rn s))) rq) rq) (counter s)) = all_tasks s) as E.
    { rewrite !all_tasks_eq, Ec. reflexivity. }
    constructor; rewrite ?E; cbn [rn cl]; try assumption; try exact I.
    + rewrite Forall_forall in *. intros t Ht. specialize (H7 t Ht). simpl. lia.
    + split; [reflexivity|]. rewrite Forall_forall in *. intros t Ht. specialize (H7 t Ht). simpl. lia.
    + rewrite started_numbers_app. simpl. rewrite app_nil_r. exact H10.
    + rewrite assigned_numbers_app. simpl. apply sorted_snoc; assumption.
    + rewrite assigned_numbers_app. apply Forall_app. split.
      * rewrite Forall_forall in *. intros n Hn. specialize (H12 n Hn). simpl. lia.
      * simpl. constructor; [lia|constructor].
    + rewrite forced_starts_app. unfold running in *. rewrite E.
      unfold forced_starts at 2. simpl. lia.
  - (* LPoll *)
    destruct (q_wait_resource wrq) eqn:Eq; cbn [negb] in Hs.
    + pose proof (inv_update p s os (cl s) Hsave eq_refl) as HI.
      destruct (length (active (update_completed (rn s))) <? parallel (update_completed (rn s))) eqn:El.
      * injection Hs as <- <-.
        apply Nat.ltb_lt in El.
        rewrite (i_par _ _ _ HI : parallel (update_completed (rn s)) = p) in El.
        pose proof (running_is_active p _ os HI (active_busy_after_update (rn s))) as HR.
        cbn [rn] in HR.
        apply (inv_start p (Sys (update_completed (rn s)) (cl s) (counter s)) os wn wf wrq Waited);
          [exact HI|exact Ec|]. right. split; [reflexivity|]. rewrite HR. exact El.
      * injection Hs as <- <-. rewrite app_nil_r. rewrite <- Ec. exact HI.
    + injection Hs as <- <-. apply inv_start; [exact Hsave|exact Ec|]. left. reflexivity.
  - (* LGiveUp *)
    injection Hs as <- <-. rewrite app_nil_r.
    assert (all_tasks (Sys (rn s) Idle (counter s)) = all_tasks s) as E.
    { rewrite !all_tasks_eq, Ec. reflexivity. }
    constructor; rewrite ?E; cbn [rn cl]; try assumption; try exact I.
    unfold running in *. rewrite E. exact H13.
  - (* LRunNow *)
    injection Hs as <- <-. cbn [runno bump] in *. set (t := new_task (S (runno (rn s))) (prepared_name (S (runno (rn s))) rq) rq true).
    assert (all_tasks (Sys (bump (rn s)) (Joining t) (counter s)) = all_tasks s ++ [t]) as E.
    { rewrite !all_tasks_eq, Ec. simpl. rewrite app_nil_r, app_assoc. reflexivity. }
    assert (t_no t = S (runno (rn s))) as Et by reflexivity.
    constructor; rewrite ?E; cbn [rn cl]; try assumption; try exact I.
    + apply Forall_app. split; [assumption|]. constructor; [reflexivity|constructor].
    + split; [reflexivity|]. rewrite Et. simpl. lia.
    + rewrite map_app. simpl. apply (Permutation_NoDup (l := t_no t :: map t_no (all_tasks s))).
      * apply Permutation_cons_append.
      * constructor; [|exact H6]. intros Hi. apply in_map_iff in Hi. destruct Hi as [u [Eu Hu]].
        rewrite Forall_forall in H7. specialize (H7 u Hu). lia.
    + apply Forall_app. split.
      * rewrite Forall_forall in *. intros u Hu. specialize (H7 u Hu). simpl. lia.
      * constructor; [rewrite Et; simpl; lia|constructor].
    + rewrite started_numbers_app, map_app. simpl. apply Permutation_app; [exact H10|apply Permutation_refl].
    + rewrite assigned_numbers_app. simpl. apply sorted_snoc; assumption.
    + rewrite assigned_numbers_app. apply Forall_app. split.
      * rewrite Forall_forall in *. intros n Hn. specialize (H12 n Hn). simpl. lia.
      * simpl. constructor; [lia|constructor].
    + rewrite forced_starts_app. unfold running in *. rewrite E, filter_app_len. simpl.
      unfold forced_starts at 2. simpl. lia.
  - (* LJoin *)
    destruct (t_alive jt) eqn:Ea; [discriminate|]. injection Hs as <- <-. rewrite app_nil_r.
    apply inv_add_completed; assumption.
  - (* LJoinTimeout *)
    destruct (t_alive jt) eqn:Ea; [|discriminate]. injection Hs as <- <-. rewrite app_nil_r.
    apply inv_add_completed; assumption.
  - (* LUpdate *)
    injection Hs as <- <-. rewrite app_nil_r. apply inv_update; assumption.
  - (* LNext *)
    assert (forall c o', (started_numbers o' = [] /\ assigned_numbers o' = [] /\ forced_starts o' = 0) ->
       Inv p (Sys (update_completed (rn s)) Idle c) (os ++ o')) as G.
    { intros c o' (E1 & E2 & E3). pose proof (inv_update p s os Idle Hsave Ec) as HI.
      destruct HI as [J1 J2 J3 J4 J5 J6 J7 J8 J9 J10 J11 J12 J13].
      constructor; try assumption.
      - rewrite started_numbers_app, E1, app_nil_r. exact J10.
      - rewrite assigned_numbers_app, E2, app_nil_r. exact J11.
      - rewrite assigned_numbers_app, E2, app_nil_r. exact J12.
      - rewrite forced_starts_app, E3, Nat.add_0_r. exact J13. }
    destruct (nth_error (completed (update_completed (rn s))) (counter s)) as [t|].
    + injection Hs as <- <-. apply G.
      destruct (match_conditions conds t); [destruct (succeeded t)|]; repeat split.
    + destruct (active (update_completed (rn s))) as [|ta la]; [|destruct wait];
        injection Hs as <- <-; apply G; repeat split.
  - (* LThread *) injection Hs as <- <-. rewrite app_nil_r. apply inv_thread. exact Hsave.
  - injection Hs as <- <-. rewrite app_nil_r. apply inv_thread. exact Hsave.
  - injection Hs as <- <-. rewrite app_nil_r. apply inv_thread. exact Hsave.
Qed.

Lemma start_inv : forall p, Inv p (start_sys p) [].
Proof.
  intros p. constructor; simpl; try constructor; try reflexivity; try exact I.
  unfold running. simpl. lia.
Qed.

Lemma exec_inv : forall conds wait p ls s os s' o, Inv p s os ->
  exec conds wait s ls = Some (s', o) -> Inv p s' (os ++ o).
Proof.
  intros conds wait p ls. induction ls as [|l ls IH]; intros s os s' o H Hx; simpl in Hx.
  - injection Hx as <- <-. rewrite app_nil_r. exact H.
  - destruct (step conds wait s l) as [[s1 o1]|] eqn:Es; [|discriminate].
    destruct (exec conds wait s1 ls) as [[s2 o2]|] eqn:Ex; [|discriminate].
    injection Hx as <- <-. rewrite app_assoc. apply (IH s1); [|exact Ex].
    eapply step_inv; eassumption.
Qed.

Lemma reach_inv : forall conds wait p ls s os, runs_to conds wait p ls s os -> Inv p s os.
Proof.
  intros conds wait p ls s os H. change os with ([] ++ os). eapply exec_inv; [apply start_inv|exact H].
Qed.

(** * C08 *)
Lemma parallel_bound : forall conds wait p ls s os, runs_to conds wait p ls s os ->
  length (running s) <= p + forced_starts os.
Proof. intros conds wait p ls s os H. exact (i_live_count _ _ _ (reach_inv _ _ _ _ _ _ H)). Qed.

Lemma parallel_limit : forall conds wait p ls s os, runs_to conds wait p ls s os ->
  (forall n, ~ In (OStarted n Forced) os) -> length (running s) <= p.
Proof.
  intros conds wait p ls s os H Hf. pose proof (parallel_bound _ _ _ _ _ _ H) as B.
  replace (forced_starts os) with 0 in B; [lia|].
  symmetry. unfold forced_starts. rewrite filter_none; [reflexivity|].
  rewrite Forall_forall. intros o Ho. destruct o as [ | n []| | | | ]; try reflexivity.
  exfalso. exact (Hf n Ho).
Qed.

Lemma gate_opens : forall conds wait p ls s os n f rq, runs_to conds wait p ls s os ->
  cl s = Waiting n f rq -> length (running s) < p ->
  exists s' h, step conds wait s LPoll = Some (s', [OStarted n h]).
Proof.
  intros conds wait p ls s os n f rq H Hw Hl.
  pose proof (reach_inv _ _ _ _ _ _ H) as HI.
  unfold step. rewrite Hw. destruct (q_wait_resource rq); cbn [negb].
  - pose proof (inv_update p s os (cl s) HI eq_refl) as HU.
    pose proof (running_is_active p _ os HU (active_busy_after_update (rn s))) as HR. cbn [rn] in HR.
    assert (length (running (Sys (update_completed (rn s)) (cl s) (counter s))) = length (running s)) as HE.
    { unfold running. apply Permutation_length. apply Permutation_sym. apply perm_filter.
      rewrite !all_tasks_eq. simpl. apply update_completed_perm. }
    pose proof (i_par _ _ _ HU) as HP. cbn [rn] in HP. rewrite HP.
    replace (length (active (update_completed (rn s))) <? p) with true;
      [|symmetry; apply Nat.ltb_lt; lia].
    eexists. exists Waited. reflexivity.
  - eexists. exists Forced. reflexivity.
Qed.

(** * C09 *)
Lemma numbers_increase : forall conds wait p ls s os, runs_to conds wait p ls s os ->
  StronglySorted lt (assigned_numbers os).
Proof. intros conds wait p ls s os H. exact (i_sorted _ _ _ (reach_inv _ _ _ _ _ _ H)). Qed.

Lemma assigned_fst : forall os, map (fun x => fst (fst (fst x))) (assigned os) = assigned_numbers os.
Proof.
  induction os as [|o os IH]; simpl; [reflexivity|]. destruct o; simpl; rewrite ?IH; reflexivity.
Qed.

Lemma step_names : forall conds wait s l s' o, step conds wait s l = Some (s', o) ->
  Forall (fun x => match x with (n, e, q, f) => e = false -> f = run_file_name n q end) (assigned o).
Proof.
  intros conds wait s l s' o Hs.
  destruct l as [rq| | |rq| | | | |k a]; unfold step in Hs; destruct (cl s) as [|wn wf wrq|jt] eqn:Ec;
    try discriminate.
  - injection Hs as <- <-. simpl. constructor; [|constructor]. unfold prepared_name.
    destruct (q_run_filename rq); simpl; [discriminate|reflexivity].
  - destruct (negb (q_wait_resource wrq)); [injection Hs as <- <-; constructor|].
    destruct (_ <? _); injection Hs as <- <-; constructor.
  - injection Hs as <- <-. constructor.
  - injection Hs as <- <-. simpl. constructor; [|constructor]. unfold prepared_name.
    destruct (q_run_filename rq); simpl; [discriminate|reflexivity].
  - destruct (t_alive jt); [discriminate|]. injection Hs as <- <-. constructor.
  - destruct (t_alive jt); [|discriminate]. injection Hs as <- <-. constructor.
  - injection Hs as <- <-. constructor.
  - destruct (nth_error _ _) as [t|].
    + injection Hs as <- <-. destruct (match_conditions conds t); [destruct (succeeded t)|]; constructor.
    + destruct (active _); [|destruct wait]; injection Hs as <- <-; constructor.
  - injection Hs as <- <-. constructor.
  - injection Hs as <- <-. constructor.
  - injection Hs as <- <-. constructor.
Qed.

Lemma exec_names : forall conds wait ls s s' o, exec conds wait s ls = Some (s', o) ->
  Forall (fun x => match x with (n, e, q, f) => e = false -> f = run_file_name n q end) (assigned o).
Proof.
  intros conds wait ls. induction ls as [|l ls IH]; intros s s' o Hx; simpl in Hx.
  - injection Hx as <- <-. constructor.
  - destruct (step conds wait s l) as [[s1 o1]|] eqn:Es; [|discriminate].
    destruct (exec conds wait s1 ls) as [[s2 o2]|] eqn:Ex; [|discriminate].
    injection Hx as <- <-. rewrite assigned_app. apply Forall_app. split.
    + eapply step_names. exact Es.
    + eapply IH. exact Ex.
Qed.

Lemma run_file_name_inj : forall n1 n2 q1 q2,
  snd (split_suffix q1) = snd (split_suffix q2) ->
  run_file_name n1 q1 = run_file_name n2 q2 -> n1 = n2.
Proof.
  intros n1 n2 q1 q2 Hs H. unfold run_file_name in H.
  destruct (split_suffix q1) as [st1 sf1]. destruct (split_suffix q2) as [st2 sf2].
  simpl in Hs. subst sf2.
  set (sf := if str_eqb sf1 (s2l ".qsch") then s2l ".net" else sf1) in *.
  change (st1 ++ under :: dec n1 ++ sf) with (st1 ++ (under :: dec n1) ++ sf) in H.
  change (st2 ++ under :: dec n2 ++ sf) with (st2 ++ (under :: dec n2) ++ sf) in H.
  rewrite !app_assoc in H. apply app_inv_tail in H.
  pose proof (split_at_last_app under st1 (dec n1) (dec_no_char under n1 eq_refl)) as E1.
  pose proof (split_at_last_app under st2 (dec n2) (dec_no_char under n2 eq_refl)) as E2.
  rewrite H in E1. rewrite E1 in E2. injection E2 as _ E. apply dec_inj. exact E.
Qed.

Lemma sorted_nth : forall l i j a b, StronglySorted lt l -> i < j ->
  nth_error l i = Some a -> nth_error l j = Some b -> a < b.
Proof.
  intros l. induction l as [|x l IH]; intros i j a b H Hij Ha Hb.
  - destruct i; discriminate.
  - inversion H as [|? ? Hl Hx]; subst. destruct i as [|i]; destruct j as [|j]; try lia; simpl in *.
    + injection Ha as <-. rewrite Forall_forall in Hx. apply Hx. eapply nth_error_In. exact Hb.
    + apply (IH i j); [exact Hl|lia|exact Ha|exact Hb].
Qed.

Lemma file_names_distinct : forall conds wait p ls s os i j n1 q1 f1 n2 q2 f2,
  runs_to conds wait p ls s os -> i <> j ->
  nth_error (assigned os) i = Some (n1, false, q1, f1) ->
  nth_error (assigned os) j = Some (n2, false, q2, f2) ->
  snd (split_suffix q1) = snd (split_suffix q2) -> f1 <> f2.
Proof.
  intros conds wait p ls s os i j n1 q1 f1 n2 q2 f2 H Hij H1 H2 Hs Hf.
  pose proof (exec_names _ _ _ _ _ _ H) as HN. rewrite Forall_forall in HN.
  pose proof (HN _ (nth_error_In _ _ H1) eq_refl) as E1.
  pose proof (HN _ (nth_error_In _ _ H2) eq_refl) as E2. simpl in E1, E2.
  pose proof (numbers_increase _ _ _ _ _ _ H) as HS.
  assert (nth_error (assigned_numbers os) i = Some n1) as A1.
  { rewrite <- assigned_fst. rewrite (map_nth_error _ _ _ H1). reflexivity. }
  assert (nth_error (assigned_numbers os) j = Some n2) as A2.
  { rewrite <- assigned_fst. rewrite (map_nth_error _ _ _ H2). reflexivity. }
  assert (n1 = n2) as En. { apply (run_file_name_inj n1 n2 q1 q2 Hs). congruence. }
  destruct (Nat.lt_gt_cases i j) as [G _]. destruct (G Hij) as [L|L].
  - pose proof (sorted_nth _ _ _ _ _ HS L A1 A2). lia.
  - pose proof (sorted_nth _ _ _ _ _ HS L A2 A1). lia.
Qed.

(** * C10 *)
Lemma nothing_lost : forall conds wait p ls s os, runs_to conds wait p ls s os ->
  NoDup (map t_no (all_tasks s)) /\
  (forall n, In n (started_numbers os) <-> In n (map t_no (all_tasks s))) /\
  length (started_numbers os) = length (all_tasks s).
Proof.
  intros conds wait p ls s os H. pose proof (reach_inv _ _ _ _ _ _ H) as HI.
  split; [exact (i_nodup _ _ _ HI)|]. pose proof (i_started _ _ _ HI) as P. split.
  - intros n. split; intros Hn; [rewrite <- P; exact Hn|rewrite P; exact Hn].
  - rewrite (Permutation_length P). apply map_length.
Qed.

Lemma step_completed_prefix : forall conds wait s l s' o, step conds wait s l = Some (s', o) ->
  prefix (map t_no (completed (rn s))) (map t_no (completed (rn s'))).
Proof.
  intros conds wait s l s' o Hs.
  assert (forall x, prefix (map t_no x) (map t_no x)) as Prefl.
  { intros x. exists []. rewrite app_nil_r. reflexivity. }
  assert (prefix (map t_no (completed (rn s))) (map t_no (completed (update_completed (rn s))))) as PU.
  { destruct (update_completed_spec (rn s)) as (_ & _ & _ & U4 & _). rewrite U4.
    eexists. apply map_app. }
  destruct l as [rq| | |rq| | | | |k a]; unfold step in Hs; destruct (cl s) as [|wn wf wrq|jt] eqn:Ec;
    try discriminate.
  - injection Hs as <- <-. apply Prefl.
  - destruct (negb (q_wait_resource wrq)); [injection Hs as <- <-; apply Prefl|].
    destruct (_ <? _); injection Hs as <- <-; exact PU.
  - injection Hs as <- <-. apply Prefl.
  - injection Hs as <- <-. apply Prefl.
  - destruct (t_alive jt); [discriminate|]. injection Hs as <- <-. simpl. eexists. apply map_app.
  - destruct (t_alive jt); [|discriminate]. injection Hs as <- <-. simpl. eexists. apply map_app.
  - injection Hs as <- <-. exact PU.
  - destruct (nth_error _ _) as [t|].
    + injection Hs as <- <-. exact PU.
    + destruct (active _); [|destruct wait]; injection Hs as <- <-; exact PU.
  - injection Hs as <- <-. simpl. rewrite map_no; [apply Prefl|]. apply act_on_no.
  - injection Hs as <- <-. simpl. rewrite map_no; [apply Prefl|]. apply act_on_no.
  - injection Hs as <- <-. simpl. rewrite map_no; [apply Prefl|]. apply act_on_no.
Qed.

Lemma prefix_trans : forall A (a b c : list A), prefix a b -> prefix b c -> prefix a c.
Proof. intros A a b c [x ->] [y ->]. exists (x ++ y). rewrite app_assoc. reflexivity. Qed.

Lemma exec_completed_prefix : forall conds wait ls s s' o, exec conds wait s ls = Some (s', o) ->
  prefix (map t_no (completed (rn s))) (map t_no (completed (rn s'))).
Proof.
  intros conds wait ls. induction ls as [|l ls IH]; intros s s' o Hx; simpl in Hx.
  - injection Hx as <- <-. exists []. rewrite app_nil_r. reflexivity.
  - destruct (step conds wait s l) as [[s1 o1]|] eqn:Es; [|discriminate].
    destruct (exec conds wait s1 ls) as [[s2 o2]|] eqn:Ex; [|discriminate].
    injection Hx as <- <-. eapply prefix_trans; [eapply step_completed_prefix; exact Es|].
    eapply IH. exact Ex.
Qed.

Lemma counters_total : forall conds wait p ls s os, runs_to conds wait p ls s os ->
  okSim (rn s) + failSim (rn s) = length (completed (rn s)).
Proof. intros conds wait p ls s os H. exact (i_count _ _ _ (reach_inv _ _ _ _ _ _ H)). Qed.

(** Without run_now() timeouts, completed tasks are dead, hence frozen, and the counters are exact. *)
Record Exact (r : runner) : Prop := MkExact {
  e_dead : Forall (fun t => t_alive t = false) (completed r);
  e_ok : okSim r = length (filter succeeded (completed r));
  e_fail : failSim r = length (filter (fun t => negb (succeeded t)) (completed r)) }.

Lemma exact_update : forall r, Exact r -> Exact (update_completed r).
Proof.
  intros r [H1 H2 H3]. destruct (update_completed_spec r) as (_ & _ & _ & U4 & U5 & U6).
  constructor.
  - rewrite U4. apply Forall_app. split; [exact H1|].
    rewrite Forall_forall. intros t Ht. apply filter_In in Ht. destruct Ht as [_ Ht].
    unfold busy in Ht. destruct (t_alive t); [discriminate|reflexivity].
  - rewrite U4, U5, filter_app_len. lia.
  - rewrite U4, U6, filter_app_len. lia.
Qed.

Lemma map_fix : forall A (g : A -> A) l, Forall (fun x => g x = x) l -> map g l = l.
Proof.
  intros A g l H. induction H as [|x l Hx H IH]; simpl; [reflexivity|]. rewrite Hx, IH. reflexivity.
Qed.

Lemma completed_frozen : forall g r, Forall (fun t => t_alive t = false) (completed r) ->
  (forall t, t_alive t = false -> g t = t) -> completed (on_runner g r) = completed r.
Proof.
  intros g r H Hg. simpl. apply map_fix. rewrite Forall_forall in *. intros t Ht. apply Hg, H, Ht.
Qed.

Lemma exact_threads : forall g r, Exact r -> (forall t, t_alive t = false -> g t = t) ->
  Exact (on_runner g r).
Proof.
  intros g r [H1 H2 H3] Hg. pose proof (completed_frozen g r H1 Hg) as E.
  constructor; rewrite E; assumption.
Qed.

Lemma exact_add : forall r t, Exact r -> t_alive t = false -> Exact (add_completed t r).
Proof.
  intros r t [H1 H2 H3] Ht. constructor; simpl.
  - apply Forall_app. split; [exact H1|]. constructor; [exact Ht|constructor].
  - rewrite filter_app_len. simpl. destruct (succeeded t); simpl; lia.
  - rewrite filter_app_len. simpl. destruct (succeeded t); simpl; lia.
Qed.

Lemma exact_step : forall conds wait s l s' o, l <> LJoinTimeout -> Exact (rn s) ->
  step conds wait s l = Some (s', o) -> Exact (rn s').
Proof.
  intros conds wait s l s' o Hl HE Hs. pose proof (exact_update _ HE) as HU.
  assert (forall t f rq r, Exact r -> Exact (add_active (new_task t f rq false) r)) as GA.
  { intros t f rq r [A B C]. constructor; assumption. }
  destruct l as [rq| | |rq| | | | |k a]; unfold step in Hs; destruct (cl s) as [|wn wf wrq|jt] eqn:Ec;
    try discriminate; try contradiction.
  - injection Hs as <- <-. destruct HE as [A B C]. constructor; assumption.
  - destruct (negb (q_wait_resource wrq)); [injection Hs as <- <-; apply GA; exact HE|].
    destruct (_ <? _); injection Hs as <- <-; [apply GA|]; exact HU.
  - injection Hs as <- <-. exact HE.
  - injection Hs as <- <-. destruct HE as [A B C]. constructor; assumption.
  - destruct (t_alive jt) eqn:Ea; [discriminate|]. injection Hs as <- <-. apply exact_add; assumption.
  - injection Hs as <- <-. exact HU.
  - destruct (nth_error _ _) as [t|].
    + injection Hs as <- <-. exact HU.
    + destruct (active _); [|destruct wait]; injection Hs as <- <-; exact HU.
  - injection Hs as <- <-. apply exact_threads; [exact HE|]. intros t. apply act_on_dead.
  - injection Hs as <- <-. apply exact_threads; [exact HE|]. intros t. apply act_on_dead.
  - injection Hs as <- <-. apply exact_threads; [exact HE|]. intros t. apply act_on_dead.
Qed.

Lemma exact_exec : forall conds wait ls s s' o, no_join_timeout ls -> Exact (rn s) ->
  exec conds wait s ls = Some (s', o) -> Exact (rn s').
Proof.
  intros conds wait ls. induction ls as [|l ls IH]; intros s s' o Hn HE Hx; simpl in Hx.
  - injection Hx as <- <-. exact HE.
  - destruct (step conds wait s l) as [[s1 o1]|] eqn:Es; [|discriminate].
    destruct (exec conds wait s1 ls) as [[s2 o2]|] eqn:Ex; [|discriminate].
    injection Hx as <- <-. apply (IH s1 s2 o2).
    + intros Hi. apply Hn. right. exact Hi.
    + eapply exact_step; [|exact HE|exact Es]. intros ->. apply Hn. left. reflexivity.
    + exact Ex.
Qed.

Lemma exact_start : forall p, Exact (rn (start_sys p)).
Proof. intros p. constructor; simpl; constructor. Qed.

Lemma counters_exact : forall conds wait p ls s os, runs_to conds wait p ls s os ->
  no_join_timeout ls ->
  okSim (rn s) = length (filter (fun t => Z.eqb (t_ret t) 0) (completed (rn s))) /\
  failSim (rn s) = length (filter (fun t => negb (Z.eqb (t_ret t) 0)) (completed (rn s))).
Proof.
  intros conds wait p ls s os H Hn.
  destruct (exact_exec _ _ _ _ _ _ Hn (exact_start p) H) as [_ E1 E2]. split; assumption.
Qed.

(** * C11 *)
Lemma wait_loop_exact : forall fuel i env late ht rt r r' v, Exact r ->
  wait_loop fuel i env late ht rt r = Some (r', v) -> Exact r' /\
   ((active r' = [] /\ v = Nat.eqb (failSim r') 0) \/
    (v = false /\ (ht = true \/ active r' <> []))).
Proof.
  induction fuel as [|f IH]; intros i env late ht rt r r' v HE H; cbn [wait_loop] in H.
  - destruct (active r) eqn:Ea; [|discriminate]. injection H as <- <-. split; [exact HE|].
    left. split; [exact Ea|reflexivity].
  - destruct (active r) eqn:Ea.
    + injection H as <- <-. split; [exact HE|]. left. split; [exact Ea|reflexivity].
    + set (r1 := update_completed (on_runner (acts (env i)) r)) in *.
      assert (Exact r1) as HE1.
      { apply exact_update. apply exact_threads; [exact HE|]. intros u. apply acts_dead. }
      destruct ((ht || maximum_stop_time_exists rt r1) && late i) eqn:E.
      * injection H as <- <-. split; [exact HE1|]. right. split; [reflexivity|].
        destruct ht; [left; reflexivity|]. right. simpl in E. apply andb_true_iff in E.
        destruct E as [E _]. unfold maximum_stop_time_exists in E. apply andb_true_iff in E.
        destruct E as [_ E]. intros Hn. rewrite Hn in E. discriminate.
      * eapply IH; [exact HE1|exact H].
Qed.

Lemma succ_all : forall l, length (filter (fun t => negb (succeeded t)) l) = 0 <->
  Forall (fun t => t_ret t = 0%Z) l.
Proof.
  induction l as [|t l IH]; simpl.
  - split; [constructor|reflexivity].
  - unfold succeeded at 1. destruct (Z.eqb (t_ret t) 0) eqn:E; simpl.
    + rewrite IH. apply Z.eqb_eq in E. split.
      * intros H. constructor; assumption.
      * intros H. inversion H; assumption.
    + split; [discriminate|]. intros H. inversion H; subst. apply Z.eqb_neq in E. contradiction.
Qed.

Lemma wait_completion_result : forall conds wait p ls s os fuel env late rt r v,
  runs_to conds wait p ls s os -> no_join_timeout ls ->
  wait_completion fuel env late false rt (rn s) = Some (r, v) -> active r = [] ->
  (v = true <-> Forall (fun t => t_ret t = 0%Z) (completed r)).
Proof.
  intros conds wait p ls s os fuel env late rt r v H Hn Hw Ha.
  pose proof (exact_exec _ _ _ _ _ _ Hn (exact_start p) H) as HE.
  destruct (wait_loop_exact _ _ _ _ _ _ _ _ _ (exact_update _ HE) Hw) as [HE' [[_ Hv]|[_ [Hv|Hv]]]].
  - subst v. rewrite Nat.eqb_eq, (e_fail _ HE'). apply succ_all.
  - discriminate.
  - contradiction.
Qed.

Lemma wait_completion_true : forall conds wait p ls s os fuel env late ht rt r,
  runs_to conds wait p ls s os -> no_join_timeout ls ->
  wait_completion fuel env late ht rt (rn s) = Some (r, true) ->
  active r = [] /\ Forall (fun t => t_ret t = 0%Z) (completed r).
Proof.
  intros conds wait p ls s os fuel env late ht rt r H Hn Hw.
  pose proof (exact_exec _ _ _ _ _ _ Hn (exact_start p) H) as HE.
  destruct (wait_loop_exact _ _ _ _ _ _ _ _ _ (exact_update _ HE) Hw) as [HE' [[Ha Hv]|[Hv _]]].
  - split; [exact Ha|]. symmetry in Hv. rewrite Nat.eqb_eq, (e_fail _ HE') in Hv. apply succ_all. exact Hv.
  - discriminate.
Qed.

(** * C12 *)
Lemma uval_eqb_eq : forall a b, uval_eqb a b = true <-> a = b.
Proof.
  intros [|s|z] [|s'|z']; simpl; split; intros H; try reflexivity; try discriminate.
  - apply String.eqb_eq in H. congruence.
  - injection H as ->. apply String.eqb_refl.
  - apply Z.eqb_eq in H. congruence.
  - injection H as ->. apply Z.eqb_refl.
Qed.

Lemma condval_matches_spec : forall c v, condval_matches c v = true <->
  match c with CVal w => v = w | CSet vs => In v vs end.
Proof.
  intros [w|ws] v; simpl.
  - rewrite uval_eqb_eq. split; intros; congruence.
  - rewrite existsb_exists. split.
    + intros [x [Hx E]]. apply uval_eqb_eq in E. subst. exact Hx.
    + intros Hi. exists v. split; [exact Hi|]. apply uval_eqb_eq. reflexivity.
Qed.

Lemma match_dict_spec : forall d edits, match_dict d edits = true <-> satisfies edits d.
Proof.
  induction d as [|[name c] d IH]; intros edits; cbn [match_dict].
  - split; [intros _ n c []|reflexivity].
  - destruct (existsb _ edits) eqn:E.
    + apply existsb_exists in E. destruct E as [u [Hu E]]. apply andb_true_iff in E.
      destruct E as [E1 E2]. apply String.eqb_eq in E1. apply condval_matches_spec in E2.
      rewrite IH. split.
      * intros H n c' [Hi|Hi]; [|apply H; exact Hi]. injection Hi as <- <-.
        exists u. repeat split; [exact Hu|congruence|]. exact E2.
      * intros H n c' Hi. apply H. right. exact Hi.
    + split; [discriminate|]. intros H. exfalso.
      destruct (H name c (or_introl eq_refl)) as [u (Hu & Hn & Hv)].
      assert (existsb (fun u => String.eqb name (u_name u) && condval_matches c (u_value u)) edits = true) as G.
      { apply existsb_exists. exists u. split; [exact Hu|]. rewrite Hn, String.eqb_refl. simpl.
        apply condval_matches_spec. exact Hv. }
      rewrite G in E. discriminate.
Qed.

Definition handed_out (c : conditions) (t : task) : bool := match_conditions c t && succeeded t.

Lemma handed_out_spec : forall c t, handed_out c t = true <-> wanted c t.
Proof.
  intros c t. unfold handed_out, wanted, succeeded. rewrite andb_true_iff, Z.eqb_eq.
  rewrite and_comm. apply and_iff_compat_l.
  destruct c as [|d|f]; simpl.
  - split; [intros _; exact I|reflexivity].
  - destruct (t_edits t) as [[|e es]|].
    + split; [discriminate|intros (e & es & H & _); discriminate].
    + rewrite match_dict_spec. split.
      * intros H. exists e, es. split; [reflexivity|exact H].
      * intros (e' & es' & E & H). injection E as <- <-. exact H.
    + split; [discriminate|intros (e & es & H & _); discriminate].
  - destruct (t_edits t) as [[|e es]|].
    + split; [discriminate|intros (e & es & H & _); discriminate].
    + split.
      * intros H. exists e, es. split; [reflexivity|exact H].
      * intros (e' & es' & E & H). exact H.
    + split; [discriminate|intros (e & es & H & _); discriminate].
Qed.

Lemma selects_filter : forall c l, selects (wanted c) l (filter (handed_out c) l).
Proof.
  intros c l. induction l as [|t l IH]; simpl; [constructor|].
  destruct (handed_out c t) eqn:E.
  - constructor; [apply handed_out_spec; exact E|exact IH].
  - constructor; [|exact IH]. rewrite <- handed_out_spec, E. discriminate.
Qed.

Record ItInv (c : conditions) (s : sys) (os : list out) : Prop := MkItInv {
  it_exact : Exact (rn s);
  it_le : counter s <= length (completed (rn s));
  it_yield : yielded os = map t_no (filter (handed_out c) (firstn (counter s) (completed (rn s)))) }.

Lemma firstn_app_le : forall A n (a b : list A), n <= length a -> firstn n (a ++ b) = firstn n a.
Proof.
  intros A n a b H. rewrite firstn_app. replace (n - length a) with 0 by lia.
  simpl. apply app_nil_r.
Qed.

Lemma firstn_snoc : forall A n (l : list A) x, nth_error l n = Some x -> firstn (S n) l = firstn n l ++ [x].
Proof.
  intros A n. induction n as [|n IH]; intros [|y l] x H; simpl in *; try discriminate.
  - injection H as ->. reflexivity.
  - f_equal. apply IH. exact H.
Qed.

(** Anything that only appends to the completed list keeps the iterator invariant. *)
Lemma it_append : forall c s os s' o, ItInv c s os -> Exact (rn s') ->
  counter s' = counter s -> prefix (completed (rn s)) (completed (rn s')) -> yielded o = [] ->
  ItInv c s' (os ++ o).
Proof.
  intros c s os s' o [H1 H2 H3] HE Hc [x Hp] Ho. constructor.
  - exact HE.
  - rewrite Hc, Hp, app_length. lia.
  - rewrite yielded_app, Ho, app_nil_r, Hc, Hp, firstn_app_le by exact H2. exact H3.
Qed.

Lemma it_step : forall conds wait s l s' os o, l <> LJoinTimeout -> ItInv conds s os ->
  step conds wait s l = Some (s', o) -> ItInv conds s' (os ++ o).
Proof.
  intros conds wait s l s' os o Hl HI Hs.
  pose proof (exact_step _ _ _ _ _ _ Hl (it_exact _ _ _ HI) Hs) as HE.
  assert (forall A (x : list A), prefix x x) as Prefl.
  { intros A x. exists []. rewrite app_nil_r. reflexivity. }
  assert (prefix (completed (rn s)) (completed (update_completed (rn s)))) as PU.
  { destruct (update_completed_spec (rn s)) as (_ & _ & _ & U4 & _). rewrite U4. eexists. reflexivity. }
  destruct l as [rq| | |rq| | | | |k a]; unfold step in Hs; destruct (cl s) as [|wn wf wrq|jt] eqn:Ec;
    try discriminate; try contradiction.
  - injection Hs as <- <-. eapply it_append; [exact HI|exact HE|reflexivity|apply Prefl|reflexivity].
  - destruct (negb (q_wait_resource wrq)).
    + injection Hs as <- <-. eapply it_append; [exact HI|exact HE|reflexivity|apply Prefl|reflexivity].
    + destruct (_ <? _); injection Hs as <- <-;
        (eapply it_append; [exact HI|exact HE|reflexivity|exact PU|reflexivity]).
  - injection Hs as <- <-. eapply it_append; [exact HI|exact HE|reflexivity|apply Prefl|reflexivity].
  - injection Hs as <- <-. eapply it_append; [exact HI|exact HE|reflexivity|apply Prefl|reflexivity].
  - destruct (t_alive jt) eqn:Ea; [discriminate|]. injection Hs as <- <-.
    eapply it_append; [exact HI|exact HE|reflexivity|eexists; reflexivity|reflexivity].
  - injection Hs as <- <-. eapply it_append; [exact HI|exact HE|reflexivity|exact PU|reflexivity].
  - (* LNext *)
    destruct (nth_error (completed (update_completed (rn s))) (counter s)) as [t|] eqn:En.
    + injection Hs as <- <-. cbn [rn] in HE. destruct HI as [H1 H2 H3].
      constructor; cbn [rn counter].
      * exact HE.
      * apply Nat.le_succ_l. apply nth_error_Some. rewrite En. discriminate.
      * rewrite (firstn_snoc _ _ _ _ En), filter_app, map_app, yielded_app.
        destruct PU as [x Hx]. rewrite Hx at 1. rewrite firstn_app_le by exact H2. rewrite <- H3.
        f_equal. simpl. unfold handed_out.
        destruct (match_conditions conds t); [destruct (succeeded t)|]; reflexivity.
    + destruct (active (update_completed (rn s))) eqn:Ea; [|destruct wait]; injection Hs as <- <-;
        (eapply it_append; [exact HI|exact HE|reflexivity|exact PU|reflexivity]).
  - injection Hs as <- <-. eapply it_append; [exact HI|exact HE|reflexivity| |reflexivity].
    simpl. rewrite map_fix; [apply Prefl|]. destruct HI as [[D _ _] _ _]. rewrite Forall_forall in *.
    intros t Ht. apply act_on_dead, D, Ht.
  - injection Hs as <- <-. eapply it_append; [exact HI|exact HE|reflexivity| |reflexivity].
    simpl. rewrite map_fix; [apply Prefl|]. destruct HI as [[D _ _] _ _]. rewrite Forall_forall in *.
    intros t Ht. apply act_on_dead, D, Ht.
  - injection Hs as <- <-. eapply it_append; [exact HI|exact HE|reflexivity| |reflexivity].
    simpl. rewrite map_fix; [apply Prefl|]. destruct HI as [[D _ _] _ _]. rewrite Forall_forall in *.
    intros t Ht. apply act_on_dead, D, Ht.
Qed.

Lemma it_exec : forall conds wait ls s s' os o, no_join_timeout ls -> ItInv conds s os ->
  exec conds wait s ls = Some (s', o) -> ItInv conds s' (os ++ o).
Proof.
  intros conds wait ls. induction ls as [|l ls IH]; intros s s' os o Hn HI Hx; simpl in Hx.
  - injection Hx as <- <-. rewrite app_nil_r. exact HI.
  - destruct (step conds wait s l) as [[s1 o1]|] eqn:Es; [|discriminate].
    destruct (exec conds wait s1 ls) as [[s2 o2]|] eqn:Ex; [|discriminate].
    injection Hx as <- <-. rewrite app_assoc. apply (IH s1 s2 (os ++ o1) o2).
    + intros Hi. apply Hn. right. exact Hi.
    + eapply it_step; [|exact HI|exact Es]. intros ->. apply Hn. left. reflexivity.
    + exact Ex.
Qed.

Lemma it_reach : forall conds wait p ls s os, no_join_timeout ls -> runs_to conds wait p ls s os ->
  ItInv conds s os.
Proof.
  intros conds wait p ls s os Hn H. change os with ([] ++ os). eapply it_exec; [exact Hn| |exact H].
  constructor; [apply exact_start|simpl; lia|reflexivity].
Qed.

Lemma iterator_prefix : forall conds wait p ls s os, no_join_timeout ls -> runs_to conds wait p ls s os ->
  exists sel, selects (wanted conds) (firstn (counter s) (completed (rn s))) sel /\
    yielded os = map t_no sel.
Proof.
  intros conds wait p ls s os Hn H. exists (filter (handed_out conds) (firstn (counter s) (completed (rn s)))).
  split; [apply selects_filter|]. exact (it_yield _ _ _ (it_reach _ _ _ _ _ _ Hn H)).
Qed.

Lemma exec_snoc : forall conds wait ls l s s' os, exec conds wait s (ls ++ [l]) = Some (s', os) ->
  exists s1 o1 o2, exec conds wait s ls = Some (s1, o1) /\ step conds wait s1 l = Some (s', o2) /\
    os = o1 ++ o2.
Proof.
  intros conds wait ls l. induction ls as [|x ls IH]; intros s s' os H; simpl in H.
  - destruct (step conds wait s l) as [[s1 o1]|] eqn:E; [|discriminate].
    injection H as <- <-. exists s, [], o1. rewrite app_nil_r. split; [reflexivity|]. split; [exact E|reflexivity].
  - destruct (step conds wait s x) as [[s1 o1]|] eqn:E; [|discriminate].
    destruct (exec conds wait s1 (ls ++ [l])) as [[s2 o2]|] eqn:Ex; [|discriminate].
    injection H as <- <-. destruct (IH _ _ _ Ex) as (s3 & o3 & o4 & A & B & C).
    exists s3, (o1 ++ o3), o4. simpl. rewrite E, A. subst o2. rewrite app_assoc.
    split; [reflexivity|]. split; [exact B|reflexivity].
Qed.

Lemma iterator_end : forall conds wait p ls s os, no_join_timeout ls ->
  runs_to conds wait p (ls ++ [LNext]) s (os ++ [OStop]) ->
  counter s = length (completed (rn s)) /\ (active (rn s) = [] \/ wait = false) /\
  exists sel, selects (wanted conds) (completed (rn s)) sel /\ yielded os = map t_no sel.
Proof.
  intros conds wait p ls s os Hn H.
  assert (no_join_timeout (ls ++ [LNext])) as Hn'.
  { intros Hi. apply in_app_or in Hi. destruct Hi as [Hi|[Hi|[]]]; [exact (Hn Hi)|discriminate]. }
  destruct (it_reach _ _ _ _ _ _ Hn' H) as [I1 I2 I3].
  destruct (exec_snoc _ _ _ _ _ _ _ H) as (s1 & o1 & o2 & A & B & C).
  assert (counter s = length (completed (rn s)) /\ (active (rn s) = [] \/ wait = false)) as [G1 G2].
  { unfold step in B. destruct (cl s1); try discriminate.
    destruct (nth_error (completed (update_completed (rn s1))) (counter s1)) as [t|] eqn:En.
    - exfalso. injection B as <- <-.
      destruct (match_conditions conds t); [destruct (succeeded t)|];
        apply app_inj_tail in C; destruct C as [_ C]; discriminate.
    - apply nth_error_None in En.
      destruct (active (update_completed (rn s1))) eqn:Ea; [|destruct wait eqn:Ew].
      + injection B as <- <-. simpl in *. split; [lia|left; exact Ea].
      + injection B as <- <-. apply app_inj_tail in C. destruct C as [_ C]. discriminate.
      + injection B as <- <-. simpl in *. split; [lia|right; reflexivity]. }
  split; [exact G1|]. split; [exact G2|].
  exists (filter (handed_out conds) (completed (rn s))). split; [apply selects_filter|].
  rewrite G1, firstn_all in I3. rewrite yielded_app in I3. simpl in I3. rewrite app_nil_r in I3. exact I3.
Qed.

(** Anything the iterator hands out, in any history (even with run_now timeouts), was in order of
    completion and at most once. *)
Lemma counter_step : forall conds wait s l s' o, step conds wait s l = Some (s', o) ->
  counter s <= length (completed (rn s)) ->
  counter s' <= length (completed (rn s')) /\
  (flat_map (fun x => match x with OYield n | OSkip n => [n] | _ => [] end) o
   = firstn (counter s' - counter s) (skipn (counter s) (map t_no (completed (rn s'))))) /\
  counter s <= counter s'.
Proof.
  intros conds wait s l s' o Hs Hc.
  pose proof (step_completed_prefix _ _ _ _ _ _ Hs) as [x Hp].
  assert (length (map t_no (completed (rn s))) <= length (map t_no (completed (rn s')))) as Hlen.
  { rewrite Hp, app_length. lia. }
  rewrite !map_length in Hlen.
  assert (counter s' = counter s -> flat_map (fun x => match x with OYield n | OSkip n => [n] | _ => [] end) o = []
    -> counter s' <= length (completed (rn s')) /\
       (flat_map (fun x => match x with OYield n | OSkip n => [n] | _ => [] end) o
       = firstn (counter s' - counter s) (skipn (counter s) (map t_no (completed (rn s'))))) /\
       counter s <= counter s') as G.
  { intros E Eo. rewrite E, Nat.sub_diag, Eo. simpl. repeat split; lia. }
  destruct l as [rq| | |rq| | | | |k a]; unfold step in Hs; destruct (cl s) as [|wn wf wrq|jt] eqn:Ec;
    try discriminate; try contradiction.
  - injection Hs as <- <-. apply G; reflexivity.
  - destruct (negb (q_wait_resource wrq)); [injection Hs as <- <-; apply G; reflexivity|].
    destruct (_ <? _); injection Hs as <- <-; apply G; reflexivity.
  - injection Hs as <- <-. apply G; reflexivity.
  - injection Hs as <- <-. apply G; reflexivity.
  - destruct (t_alive jt); [discriminate|]. injection Hs as <- <-. apply G; reflexivity.
  - destruct (t_alive jt); [|discriminate]. injection Hs as <- <-. apply G; reflexivity.
  - injection Hs as <- <-. apply G; reflexivity.
  - destruct (nth_error _ _) as [t|] eqn:En.
    + injection Hs as <- <-. cbn [rn counter] in *.
      replace (S (counter s) - counter s) with 1 by lia.
      assert (counter s < length (completed (update_completed (rn s)))) as L.
      { apply nth_error_Some. rewrite En. discriminate. }
      pose proof (map_nth_error t_no _ _ En) as En'.
      apply nth_error_split in En'. destruct En' as (a & b & E & El).
      rewrite E. rewrite skipn_app, <- El, skipn_all, Nat.sub_diag. simpl.
      split; [lia|]. split; [|lia]. destruct (match_conditions conds t), (succeeded t); reflexivity.
    + destruct (active _); [|destruct wait]; injection Hs as <- <-; apply G; reflexivity.
  - injection Hs as <- <-. apply G; reflexivity.
  - injection Hs as <- <-. apply G; reflexivity.
  - injection Hs as <- <-. apply G; reflexivity.
Qed.

Lemma firstn_plus : forall A a b (l : list A), firstn (a + b) l = firstn a l ++ firstn b (skipn a l).
Proof.
  intros A a. induction a as [|a IH]; intros b l; simpl; [reflexivity|].
  destruct l as [|x l]; simpl; [destruct b; reflexivity|]. rewrite IH. reflexivity.
Qed.

Lemma consumed_exec : forall conds wait ls s s' os o, exec conds wait s ls = Some (s', o) ->
  counter s <= length (completed (rn s)) ->
  consumed os = firstn (counter s) (map t_no (completed (rn s))) ->
  counter s' <= length (completed (rn s')) /\
  consumed (os ++ o) = firstn (counter s') (map t_no (completed (rn s'))).
Proof.
  intros conds wait ls. induction ls as [|l ls IH]; intros s s' os o Hx Hc Ho; simpl in Hx.
  - injection Hx as <- <-. rewrite app_nil_r. split; assumption.
  - destruct (step conds wait s l) as [[s1 o1]|] eqn:Es; [|discriminate].
    destruct (exec conds wait s1 ls) as [[s2 o2]|] eqn:Ex; [|discriminate].
    injection Hx as <- <-. rewrite app_assoc.
    destruct (counter_step _ _ _ _ _ _ Es Hc) as (C1 & C2 & C3).
    apply (IH s1 s2 (os ++ o1) o2 Ex C1).
    unfold consumed. rewrite flat_map_app. fold (consumed os). rewrite C2, Ho.
    replace (counter s1) with (counter s + (counter s1 - counter s)) at 2 by lia.
    rewrite firstn_plus. f_equal.
    destruct (step_completed_prefix _ _ _ _ _ _ Es) as [x ->].
    rewrite firstn_app_le; [reflexivity|]. rewrite map_length. exact Hc.
Qed.

Lemma consumed_in_order : forall conds wait p ls s os, runs_to conds wait p ls s os ->
  NoDup (map t_no (completed (rn s))) /\
  prefix (consumed os) (map t_no (completed (rn s))).
Proof.
  intros conds wait p ls s os H. split.
  - pose proof (i_nodup _ _ _ (reach_inv _ _ _ _ _ _ H)) as N. rewrite all_tasks_eq in N.
    rewrite !map_app in N. clear -N. induction (map t_no (active (rn s))) as [|x l IH]; simpl in N.
    + induction (map t_no (completed (rn s))) as [|y l IH]; [constructor|].
      inversion N as [|? ? Hx N2]; subst. constructor; [|apply IH; exact N2].
      intros Hi. apply Hx. apply in_or_app. left. exact Hi.
    + inversion N; subst. apply IH. assumption.
  - destruct (consumed_exec _ _ _ _ _ [] _ H (Nat.le_0_l _) eq_refl) as [_ E]. simpl in E.
    exists (skipn (counter s) (map t_no (completed (rn s)))). rewrite E. symmetry. apply firstn_skipn.
Qed.
