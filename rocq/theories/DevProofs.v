(** Proofs about the results of a toleranced analysis. *)
From Coq Require Import String Ascii List Bool Arith QArith Qround Qabs ZArith Lia Lqa.
From Verif Require Import PyStr StepsModel StepsProofs LogModel DevModel DevSpec.
Import ListNotations.
Local Open Scope string_scope. Local Open Scope nat_scope. Local Open Scope list_scope.

Lemma round_near : forall q k, (Qabs (q - inject_Z k) < 1 # 2)%Q -> round q = k.
Proof.
  intros q k H. apply Qabs_Qlt_condition in H as (L & U). unfold round. pose proof (Qfloor_le q) as F1. pose proof (Qlt_floor q) as F2.
  set (f := Qfloor q) in *. rewrite inject_Z_plus in F2.
  assert (f = k \/ f = k - 1)%Z as FK.
  { assert (f < k + 1)%Z as A by (rewrite Zlt_Qlt, inject_Z_plus; change (inject_Z 1) with 1%Q; lra).
    assert (k < f + 2)%Z as B by (rewrite Zlt_Qlt, inject_Z_plus; change (inject_Z 2) with 2%Q; change (inject_Z 1) with 1%Q in F2; lra). lia. }
  destruct FK as [-> | ->].
  - destruct (Qle_bool (q - inject_Z k) (1 # 2)) eqn:E.
    + destruct (Qeq_bool (q - inject_Z k) (1 # 2)) eqn:E2; [|reflexivity]. apply Qeq_bool_iff in E2. lra.
    + exfalso. assert (~ (q - inject_Z k <= 1 # 2)%Q) as N by (intros K; apply Qle_bool_iff in K; congruence). lra.
  - unfold Z.sub in *. rewrite inject_Z_plus in *. change (inject_Z (- (1))) with (- (1))%Q in *.
    destruct (Qle_bool (q - (inject_Z k + - (1))) (1 # 2)) eqn:E; [apply Qle_bool_iff in E; lra|lia].
Qed.

Lemma dget_app : forall W (p : str) (a b : list (str * W)), dget p (a ++ b) = match dget p a with Some x => Some x | None => dget p b end.
Proof.
  intros W p a b. unfold dget. induction a as [|[k v] a IH]; [reflexivity|]. cbn [app find fst]. destruct (str_eqb k p); [reflexivity|exact IH].
Qed.
Lemma dget_extend : forall p cols q c, dget p (extend cols (q, c)) = if str_eqb q p then Some (match dget p cols with Some x => x ++ c | None => c end) else dget p cols.
Proof.
  intros p cols q c. unfold extend. cbn [fst snd]. destruct (dget q cols) as [x|] eqn:E.
  - rewrite dget_dset. destruct (str_eqb q p) eqn:N; [|reflexivity]. apply str_eqb_eq in N. subst q. rewrite E. reflexivity.
  - rewrite dget_app. unfold dget at 2. cbn [find fst]. destruct (str_eqb q p) eqn:N.
    + apply str_eqb_eq in N. subst q. rewrite E. reflexivity.
    + destruct (dget p cols); reflexivity.
Qed.
Lemma dget_none : forall W (p : str) (l : list (str * W)), ~ In p (map fst l) -> dget p l = None.
Proof.
  intros W p l. unfold dget. induction l as [|[k v] l IH]; intros H; [reflexivity|]. cbn [find fst]. destruct (str_eqb k p) eqn:E.
  - exfalso. apply H. left. apply str_eqb_eq in E. exact E.
  - apply IH. intros K. apply H. right. exact K.
Qed.
Lemma dget_some_in : forall W (p : str) (v : W) l, dget p l = Some v -> In p (map fst l).
Proof.
  intros W p v l. unfold dget. induction l as [|[k w] l IH]; intros H; [discriminate|]. cbn [find fst] in H. destruct (str_eqb k p) eqn:E.
  - left. apply str_eqb_eq in E. exact E.
  - right. apply IH. exact H.
Qed.
Lemma dget_cons : forall W (p q : str) (c : W) l, dget p ((q, c) :: l) = if str_eqb q p then Some c else dget p l.
Proof. intros W p q c l. unfold dget. cbn [find fst]. destruct (str_eqb q p); reflexivity. Qed.
Lemma dget_fold : forall l cols p, NoDup (map fst l) ->
  dget p (fold_left extend l cols) = match dget p l with None => dget p cols | Some c => Some (match dget p cols with Some x => x ++ c | None => c end) end.
Proof.
  induction l as [|[q c] l IH]; intros cols p ND; [reflexivity|]. inversion ND as [|? ? NI ND']. subst. cbn [fold_left]. rewrite IH by exact ND'.
  rewrite dget_extend, dget_cons. destruct (str_eqb q p) eqn:E; [|reflexivity].
  apply str_eqb_eq in E. subst q. rewrite (dget_none _ p l NI). reflexivity.
Qed.
(** The keys of the columns collected: those there were, and others. *)
Lemma fold_keys : forall l cols, (forall p, In p (map fst (fold_left extend l cols)) <-> In p (map fst cols) \/ In p (map fst l)).
Proof.
  induction l as [|[q c] l IH]; intros cols p; [cbn; tauto|]. cbn [fold_left]. rewrite IH.
  assert (In p (map fst (extend cols (q, c))) <-> In p (map fst cols) \/ q = p) as E.
  { unfold extend. cbn [fst snd]. destruct (dget q cols) as [x|] eqn:G.
    - assert (map fst (dset q (x ++ c) cols) = map fst cols) as K.
      { clear - G. revert G. induction cols as [|[k v] cols IH]; intros G; [discriminate|]. unfold dget in G. cbn [find fst] in G. cbn [dset].
        destruct (str_eqb k q) eqn:E; [cbn [map fst]; apply str_eqb_eq in E; subst; reflexivity|]. cbn [map fst]. f_equal. apply IH. exact G. }
      rewrite K. split; [tauto|]. intros [H| <-]; [exact H|]. apply dget_some_in in G. exact G.
    - rewrite map_app, in_app_iff. cbn. tauto. }
  rewrite E. cbn [map fst In]. tauto.
Qed.

(** The logs collected. *)
Definition collect (sims : list sim) : lg := fold_left add_log_data (map s_log sims) no_log.
Lemma collect_readable : forall sims c, fold_left add_log_data (map s_log sims) c = fold_left (fun c l => add_log_data c (Some l)) (readable sims) c.
Proof.
  induction sims as [|s sims IH]; intros c; [reflexivity|]. cbn [map fold_left readable flat_map]. rewrite IH. fold (readable sims).
  destruct (s_log s); reflexivity.
Qed.
Definition adding (ls : list lg) (c : lg) : lg := fold_left (fun c l => add_log_data c (Some l)) ls c.
Lemma adding_steps : forall ls c, Forall single ls -> steps (adding ls c) = steps c.
Proof.
  induction ls as [|l ls IH]; intros c F; [reflexivity|]. inversion F as [|? ? (S1 & _) F']. subst. cbn [adding fold_left]. fold (adding ls (add_log_data c (Some l))).
  rewrite IH by exact F'. cbn [add_log_data steps]. rewrite S1. reflexivity.
Qed.
Lemma adding_data : forall ls c p f, Forall single ls -> Forall (fun l => has l p (f l)) ls ->
  dget p (data (adding ls c)) = match ls with [] => dget p (data c) | _ => Some (match dget p (data c) with Some x => x | None => [] end ++ map f ls) end.
Proof.
  induction ls as [|l ls IH]; intros c p f F H; [reflexivity|]. inversion F as [|? ? (S1 & S2 & S3) F']. subst. inversion H as [|? ? H1 H']. subst.
  cbn [adding fold_left]. fold (adding ls (add_log_data c (Some l))). rewrite (IH _ p f F' H').
  assert (dget p (data (add_log_data c (Some l))) = Some (match dget p (data c) with Some x => x | None => [] end ++ [f l])) as E.
  { cbn [add_log_data data]. rewrite dget_fold by exact S2. rewrite H1. destruct (dget p (data c)); reflexivity. }
  rewrite E. destruct ls as [|l2 ls]; [reflexivity|]. rewrite <- app_assoc. reflexivity.
Qed.
Lemma adding_keys : forall ls c p, In p (map fst (data (adding ls c))) <-> In p (map fst (data c)) \/ exists l, In l ls /\ In p (map fst (data l)).
Proof.
  induction ls as [|l ls IH]; intros c p; [cbn; split; [tauto|intros [H|(l & [] & _)]; exact H]|].
  cbn [adding fold_left]. fold (adding ls (add_log_data c (Some l))). rewrite IH. cbn [add_log_data data]. rewrite fold_keys. split.
  - intros [[H|H]|(l2 & I & H)]; [tauto|right; exists l; split; [left; reflexivity|exact H]|right; exists l2; split; [right; exact I|exact H]].
  - intros [H|(l2 & [<- |I] & H)]; [tauto|tauto|right; exists l2; tauto].
Qed.

(** Looking a value up by its run. *)
Lemma indices_from : forall (c : list value) v i, indices_eq veq v i c = map fst (filter (fun e => veq (snd e) v) (combine (seq i (length c)) c)).
Proof.
  induction c as [|x c IH]; intros v i; [reflexivity|]. cbn [indices_eq length seq combine filter snd]. destruct (veq x v); [cbn [map fst]; f_equal|]; apply IH.
Qed.
Lemma indices_one : forall (c : list value) v j i, j < length c -> (forall k x, nth_error c k = Some x -> veq x v = true <-> k = j) -> indices_eq veq v i c = [i + j].
Proof.
  induction c as [|x c IH]; intros v j i L H; [cbn in L; lia|]. cbn [indices_eq]. destruct j as [|j].
  - destruct (H 0 x eq_refl) as (_ & H0). rewrite (H0 eq_refl). rewrite Nat.add_0_r. f_equal.
    assert (forall (c : list value) i, (forall k y, nth_error c k = Some y -> veq y v = false) -> indices_eq veq v i c = []) as Z.
    { clear. induction c as [|y c IH]; intros i H; [reflexivity|]. cbn [indices_eq]. rewrite (H 0 y eq_refl). apply IH. intros k z K. exact (H (S k) z K). }
    apply Z. intros k y K. destruct (veq y v) eqn:E; [|reflexivity]. apply (H (S k) y K) in E. discriminate.
  - destruct (veq x v) eqn:E; [apply (H 0 x eq_refl) in E; discriminate|]. rewrite (IH v j (S i)); [f_equal; lia|cbn in L; lia|].
    intros k y K. rewrite (H (S k) y K). lia.
Qed.
Lemma find_lower : forall m (cols : columns value), (forall n, In n (map fst cols) -> lower n = n) -> find_name m cols = dget (lower m) cols.
Proof.
  intros m cols. unfold find_name, dget. induction cols as [|[k c] cols IH]; intros H; [reflexivity|]. cbn [find fst].
  rewrite (H k (or_introl eq_refl)). destruct (str_eqb k (lower m)); [reflexivity|]. apply IH. intros n I. apply H. right. exact I.
Qed.
Lemma lookup_run : forall l m k runs col j v, dget (s2l "run") (steps l) = Some runs -> (forall n, In n (map fst (data l)) -> lower n = n) ->
  dget (lower m) (data l) = Some col -> nth_error col j = Some v -> j < length runs ->
  (forall i x, nth_error runs i = Some x -> veq x (Num (inject_Z k)) = true <-> i = j) -> value_in_run l m k = Some v.
Proof.
  intros l m k runs col j v R LW C N L U. unfold value_in_run, get_measure_value_where, seen. cbn [dataset]. rewrite find_lower by exact LW. rewrite C.
  unfold steps_with_conditions. cbn [conditions_loop]. unfold steps_equal. cbn [stepset]. change (lower (s2l "run")) with (s2l "run"). rewrite R.
  rewrite (indices_one runs _ j 0 L U). exact N.
Qed.
