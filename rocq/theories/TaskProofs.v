From Coq Require Import String Ascii List Bool Arith ZArith Lia Permutation.
From Verif Require Import PyStr RunnerModel TaskModel TaskSpec.
Import ListNotations.

Lemma callback_when_due : forall V (c : config) (w : world V),
  due c w -> exists args, r_calls (task_run c w) = [args] /\
     args = (r_raw (task_run c w), r_log (task_run c w)) /\
     get_results false true (c_callback c) (task_run c w)
       = FromCallback (value_of (w_callback w (fst args) (snd args))).
Proof.
  intros V c w [Hc Hd]. unfold task_run, ended_well, code_of in *.
  destruct (Z.eqb (match w_sim w with SimReturns z => z | SimRaises => (-2)%Z end) 0) eqn:E.
  - rewrite Hc. cbn [andb].
    destruct (c_callback_on_error c || negb (negb (w_exists w (with_suffix (c_netlist c) (c_raw_ext c))
       && w_exists w (with_suffix (c_netlist c) (s2l ".log"))))) eqn:G.
    + destruct (w_callback w _ _) eqn:W; eexists; split; try reflexivity; split; try reflexivity;
        simpl; rewrite W; reflexivity.
    + exfalso. apply orb_false_iff in G. destruct G as [G1 G2]. rewrite negb_involutive in G2.
      destruct Hd as [Hd|[_ [Ha Hb]]]; [congruence|]. rewrite Ha, Hb in G2. discriminate.
  - rewrite Hc. cbn [andb]. apply Z.eqb_neq in E.
    destruct Hd as [Hd|[Ha _]]; [|contradiction]. rewrite Hd. simpl.
    destruct (w_callback w _ _) eqn:W; eexists; split; try reflexivity; split; try reflexivity;
      simpl; rewrite W; reflexivity.
Qed.

Lemma no_callback_unless_due : forall V (c : config) (w : world V),
  ~ due c w -> r_calls (task_run c w) = [] /\ r_callback_return (task_run c w) = None.
Proof.
  intros V c w H. unfold task_run, due, ended_well, code_of in *.
  destruct (Z.eqb (match w_sim w with SimReturns z => z | SimRaises => (-2)%Z end) 0) eqn:E.
  - destruct (c_callback c && (c_callback_on_error c || negb (negb (w_exists w (with_suffix (c_netlist c) (c_raw_ext c))
       && w_exists w (with_suffix (c_netlist c) (s2l ".log")))))) eqn:G; [|split; reflexivity].
    exfalso. apply H. apply andb_true_iff in G. destruct G as [G1 G2]. split; [exact G1|].
    apply orb_true_iff in G2. destruct G2 as [G2|G2]; [left; exact G2|right].
    rewrite negb_involutive in G2. apply andb_true_iff in G2. apply Z.eqb_eq in E.
    split; [exact E|exact G2].
  - simpl. destruct (c_callback c && (c_callback_on_error c || false)) eqn:G; [|split; reflexivity].
    exfalso. apply H. apply andb_true_iff in G. destruct G as [G1 G2]. split; [exact G1|].
    rewrite orb_false_r in G2. left. exact G2.
Qed.

Lemma files_without_callback : forall V (c : config) (w : world V), c_callback c = false ->
  get_results false true (c_callback c) (task_run c w)
    = Files (if Z.eqb (code_of w) 0 then Some (with_suffix (c_netlist c) (c_raw_ext c)) else None)
            (Some (if Z.eqb (code_of w) 0 then with_suffix (c_netlist c) (s2l ".log")
                   else if w_exists w (with_suffix (c_netlist c) (s2l ".log"))
                        then with_suffix (with_suffix (c_netlist c) (s2l ".log")) (s2l ".fail")
                        else with_suffix (c_netlist c) (s2l ".log"))).
Proof.
  intros V c w Hc. unfold task_run, code_of.
  destruct (Z.eqb (match w_sim w with SimReturns z => z | SimRaises => (-2)%Z end) 0) eqn:E;
    rewrite Hc; reflexivity.
Qed.

Lemma wait_results_skip : forall n z obs, ends_with obs n z -> z <> (-1)%Z ->
  forall k i, i + k = n -> exists j, wait_results (S k) i obs = Some j.
Proof.
  intros n z obs H Hz k. induction k as [|k IH]; intros i Hi.
  - cbn [wait_results]. rewrite (H i) by lia. simpl. apply Z.eqb_neq in Hz. rewrite Hz.
    exists i. reflexivity.
  - cbn [wait_results]. destruct (obs i) as [[a b] r].
    destruct (a || negb b || Z.eqb r (-1)); [apply IH; lia|exists i; reflexivity].
Qed.

Lemma wait_results_returns : forall n z obs, ends_with obs n z -> z <> (-1)%Z ->
  exists fuel j, wait_results fuel 0 obs = Some j.
Proof. intros n z obs H Hz. exists (S n). apply (wait_results_skip n z obs H Hz n 0). lia. Qed.

Lemma wait_results_answer : forall fuel i obs j, wait_results fuel i obs = Some j ->
  fst (fst (obs j)) = false /\ snd (fst (obs j)) = true.
Proof.
  induction fuel as [|f IH]; intros i obs j H; cbn [wait_results] in H; [discriminate|].
  destruct (obs i) as [[a b] r] eqn:E. destruct (a || negb b || Z.eqb r (-1)) eqn:G.
  - eapply IH. exact H.
  - injection H as <-. rewrite E. destruct a, b; try discriminate. split; reflexivity.
Qed.

Lemma wait_results_stuck : forall obs, (forall i, snd (obs i) = (-1)%Z) ->
  forall fuel i, wait_results fuel i obs = None.
Proof.
  intros obs H. induction fuel as [|f IH]; intros i; cbn [wait_results]; [reflexivity|].
  specialize (H i) as Hi. destruct (obs i) as [[a b] r]. simpl in Hi. subst r.
  rewrite orb_true_r. apply IH.
Qed.

Lemma has_key_In : forall V k (d : list (str * V)), has_key k d = true <-> In k (map fst d).
Proof.
  intros V k d. unfold has_key. rewrite existsb_exists, in_map_iff. split.
  - intros [x [Hx E]]. apply str_eqb_eq in E. exists x. split; assumption.
  - intros [x [E Hx]]. exists x. split; [exact Hx|]. apply str_eqb_eq. exact E.
Qed.

Lemma map_fst_combine : forall A B (a : list A) (b : list B), length a = length b ->
  map fst (combine a b) = a.
Proof.
  intros A B a. induction a as [|x a IH]; intros [|y b] H; simpl in *; try reflexivity; try discriminate.
  rewrite IH by lia. reflexivity.
Qed.
Lemma map_snd_combine : forall A B (a : list A) (b : list B), length a = length b ->
  map snd (combine a b) = b.
Proof.
  intros A B a. induction a as [|x a IH]; intros [|y b] H; simpl in *; try reflexivity; try discriminate.
  rewrite IH by lia. reflexivity.
Qed.

Lemma NoDup_app_right : forall A (a b : list A), NoDup (a ++ b) -> NoDup b.
Proof.
  intros A a b. induction a as [|x a IH]; simpl; intros H; [exact H|]. inversion H; subst. apply IH. assumption.
Qed.

Lemma validated_binds_all : forall V args (a : option (cb_args V)) kw, NoDup args ->
  (match a with Some (ADict d) => NoDup (map fst d) | _ => True end) ->
  validate_callback_args (Some args) a = Accepted kw ->
  2 <= length args /\
  Permutation (skipn 2 args) (match kw with Some d => map fst d | None => [] end).
Proof.
  intros V args a kw Hn Hd H. unfold validate_callback_args in H.
  destruct (length args <? 2) eqn:E1; [discriminate|]. apply Nat.ltb_ge in E1.
  split; [exact E1|].
  destruct (2 <? length args) eqn:E2.
  - destruct a as [ca|]; [|discriminate].
    destruct (match ca with ADict d => _ | _ => false end) eqn:E3; [discriminate|].
    destruct (negb (Nat.eqb (length args - 2) (cb_args_len ca))) eqn:E4; [discriminate|].
    apply negb_false_iff in E4. apply Nat.eqb_eq in E4.
    destruct ca as [d|vs]; injection H as <-.
    + apply negb_false_iff in E3. rewrite forallb_forall in E3. cbn [cb_args_len] in E4.
      apply NoDup_Permutation_bis.
      * rewrite <- (firstn_skipn 2 args) in Hn. apply NoDup_app_right in Hn. exact Hn.
      * rewrite map_length, skipn_length. lia.
      * intros k Hk. apply has_key_In. apply E3. exact Hk.
    + cbn [cb_args_len] in E4. rewrite map_fst_combine; [apply Permutation_refl|]. pose proof (skipn_length 2 args) as SL. exact (eq_trans SL E4).
  - injection H as <-. apply Nat.ltb_ge in E2. rewrite skipn_all2 by lia. constructor.
Qed.
