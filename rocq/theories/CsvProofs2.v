From Coq Require Import String Ascii List Bool Arith Lia Permutation Sorted.
From Verif Require Import PyStr StepperModel StepperSpec StepperProofs CsvModel CsvSpec CsvProofs.
Import ListNotations.
Local Open Scope string_scope. Local Open Scope nat_scope. Local Open Scope list_scope.

Definition dname (d : dim) : string := snd (d_target d).

(** Two sweeps of the same name set the same thing. *)
Definition one_meaning (dims : list dim) : Prop :=
  forall d d', In d dims -> In d' dims -> dname d = dname d' -> d_target d = d_target d'.

(* ---- recorded runs ---- *)
Fixpoint records (o : outcomes) (k : nat) (cvs : list values) (i : info) : info :=
  match cvs with
  | [] => i
  | cv :: r => records o (S k) r (record_run (o k) cv i)
  end.

Lemma records_snoc o : forall cvs k i cv,
  records o k (cvs ++ [cv]) i = record_run (o (k + List.length cvs)) cv (records o k cvs i).
Proof.
  induction cvs as [|x cvs IH]; intros k i cv; cbn [app records List.length].
  - rewrite Nat.add_0_r. reflexivity.
  - rewrite IH. f_equal. f_equal. lia.
Qed.

Fixpoint recs (o : outcomes) (k : nat) (cvs : list values) : info :=
  match cvs with
  | [] => []
  | cv :: r => match o k with
               | Some (n, nm) => [(n, vset "netlist" (VText nm) cv)]
               | None => []
               end ++ recs o (S k) r
  end.

Definition increasing (o : outcomes) : Prop :=
  forall i j n m a b, i < j -> o i = Some (n, a) -> o j = Some (m, b) -> n < m.

Lemma iset_new k v i : ~ In k (map fst i) -> iset k v i = i ++ [(k, v)].
Proof.
  induction i as [|[x y] i IH]; intros H; [reflexivity|]. cbn [iset map fst app] in *.
  destruct (Nat.eqb_spec k x) as [->|N]; [elim H; left; reflexivity|].
  rewrite IH; [reflexivity|]. intros I. apply H. right. exact I.
Qed.

Lemma records_recs o : increasing o -> forall cvs k i,
  (forall j n a x, k <= j -> o j = Some (n, a) -> In x (map fst i) -> x < n) ->
  records o k cvs i = i ++ recs o k cvs.
Proof.
  intros O. induction cvs as [|cv cvs IH]; intros k i H; cbn [records recs].
  - rewrite app_nil_r. reflexivity.
  - destruct (o k) as [[n nm]|] eqn:E; cbn [record_run].
    + rewrite IH.
      * rewrite iset_new.
        -- rewrite <- app_assoc. reflexivity.
        -- intros I. apply (H k n nm n) in I; [lia|lia|exact E].
      * intros j m b x L Ej I. rewrite iset_new in I.
        -- rewrite map_app, in_app_iff in I. destruct I as [I|[<-|[]]].
           ++ apply (H j m b x); [lia|exact Ej|exact I].
           ++ cbn [fst]. eapply (O k j); [|exact E|exact Ej]. lia.
        -- intros I'. apply (H k n nm n) in I'; [lia|lia|exact E].
    + rewrite IH; [reflexivity|]. intros j m b x L. apply H. lia.
Qed.

Lemma recs_keys o : forall cvs k x, In x (map fst (recs o k cvs)) -> exists j a, k <= j /\ o j = Some (x, a).
Proof.
  induction cvs as [|cv cvs IH]; intros k x I; [destruct I|].
  cbn [recs] in I. rewrite map_app, in_app_iff in I. destruct I as [I|I].
  - destruct (o k) as [[n nm]|] eqn:E; [|destruct I]. destruct I as [<-|[]]. exists k, nm. auto.
  - apply IH in I as (j & a & L & E). exists j, a. split; [lia|exact E].
Qed.

Lemma recs_sorted o : increasing o -> forall cvs k, StronglySorted lt (map fst (recs o k cvs)).
Proof.
  intros O. induction cvs as [|cv cvs IH]; intros k; [constructor|]. cbn [recs].
  destruct (o k) as [[n nm]|] eqn:E; [|apply IH]. cbn [app map fst]. constructor; [apply IH|].
  apply Forall_forall. intros x I. apply recs_keys in I as (j & a & L & E').
  eapply (O k j); [|exact E|exact E']. lia.
Qed.

(* ---- the loop ---- *)
Section Run.
Variable dims : list dim.
Variable o : outcomes.
Variable cv0 : values.
Variable i0 : info.

Definition good_cv (m : nat) (cv : values) (n : netlist) : Prop :=
  (forall d, In d (firstn m dims) -> vget cv (dname d) = n (d_target d)) /\
  (forall k, ~ In k (map dname dims) -> vget cv k = vget cv0 k) /\
  map fst cv = names_after (map fst cv0) (firstn m dims).

Definition Inv (s : stepper) : Prop :=
  (exists m, m <= List.length dims /\ (forall i, iter_no (base s) = Some i -> i <= m) /\
     good_cv m (current_values s) (net (base s))) /\
  (exists cvs, Forall2 (fun r cv => good_cv (List.length dims) cv r) (runs (base s)) cvs /\
     sim_info s = records o 0 cvs i0).

Hypothesis OM : one_meaning dims.

Lemma firstn_In (m : nat) (d : dim) : In d (firstn m dims) -> In d dims.
Proof. intros H. rewrite <- (firstn_skipn m dims). apply in_app_iff. left. exact H. Qed.

Lemma firstn_nth : forall (l : list dim) i d, nth_error l i = Some d -> firstn (S i) l = firstn i l ++ [d].
Proof.
  induction l as [|x l IH]; intros [|i] d H; try discriminate.
  - injection H as <-. reflexivity.
  - cbn [nth_error] in H. change (firstn (S (S i)) (x :: l)) with (x :: firstn (S i) l).
    rewrite (IH _ _ H). reflexivity.
Qed.

Lemma nth_In_firstn : forall (l : list dim) i m d, nth_error l i = Some d -> i < m -> In d (firstn m l).
Proof.
  induction l as [|x l IH]; intros [|i] [|m] d H L; try discriminate; try lia.
  - injection H as <-. left. reflexivity.
  - right. apply (IH i); [exact H|lia].
Qed.

Lemma good_cv_set m cv n i d v : m <= List.length dims -> nth_error dims i = Some d -> i <= m ->
  good_cv m cv n ->
  good_cv (Nat.max m (S i)) (vset (dname d) v cv) (assign n (d_target d) v).
Proof.
  intros L N I (A & B & C).
  assert (In d dims) as Id by (eapply nth_error_In; eassumption).
  assert (forall d', In d' (firstn (Nat.max m (S i)) dims) -> d' = d \/ In d' (firstn m dims)) as Cases.
  { intros d' H. destruct (Nat.eq_dec i m) as [->|Ne].
    - replace (Nat.max m (S m)) with (S m) in H by lia. rewrite (firstn_nth _ _ _ N) in H.
      apply in_app_iff in H as [H|[<-|[]]]; auto.
    - replace (Nat.max m (S i)) with m in H by lia. auto. }
  split; [|split].
  - intros d' H. rewrite vget_vset. unfold assign.
    destruct (String.eqb (dname d') (dname d)) eqn:E.
    + apply String.eqb_eq in E. apply OM in E; [|eapply firstn_In; eassumption|exact Id].
      rewrite (proj2 (target_eqb_eq _ _) E). reflexivity.
    + destruct (target_eqb (d_target d') (d_target d)) eqn:E2.
      * apply target_eqb_eq in E2. unfold dname in E. rewrite E2, String.eqb_refl in E. discriminate.
      * apply Cases in H as [->|H]; [rewrite String.eqb_refl in E; discriminate|]. apply A, H.
  - intros k H. rewrite vget_vset. destruct (String.eqb k (dname d)) eqn:E.
    + apply String.eqb_eq in E. subst. elim H. apply in_map, Id.
    + apply B, H.
  - rewrite keys_vset, C. destruct (Nat.eq_dec i m) as [->|Ne].
    + replace (Nat.max m (S m)) with (S m) by lia. rewrite (firstn_nth _ _ _ N), names_after_snoc. reflexivity.
    + replace (Nat.max m (S i)) with m by lia. apply add_name_here. apply names_after_In. right.
      apply (in_map (fun d => snd (d_target d))). apply (nth_In_firstn dims i); [exact N|lia].
Qed.

Lemma Inv_step s s' : Inv s -> rec_step dims o s = Some s' -> Inv s' /\ step dims (base s) = Some (base s').
Proof.
  destruct s as [[it its nt rs] cv inf]. unfold rec_step. cbn [base current_values sim_info].
  intros ((m & L & Lv & G) & (cvs & F & R)) H. cbn [base current_values sim_info iter_no net runs iters] in *.
  unfold step in *. cbn [iter_no iters net runs] in *.
  destruct it as [i|]; [|discriminate].
  destruct (nth_error dims i) as [d|] eqn:N.
  - destruct (nth i its []) as [|v rest] eqn:Ni; injection H as <-; cbn [base]; (split; [|reflexivity]);
      (split; [|exists cvs; split; [exact F|exact R]]).
    + exists m. cbn [base iter_no net current_values]. split; [exact L|]. split; [|exact G].
      intros j E. destruct i as [|i]; [discriminate|]. injection E as <-. specialize (Lv _ eq_refl). lia.
    + exists (Nat.max m (S i)). cbn [base iter_no net current_values].
      assert (i < List.length dims) as Li by (apply nth_error_Some; congruence).
      split; [lia|]. split; [intros j E; injection E as <-; lia|].
      apply good_cv_set; auto.
  - injection H as <-. cbn [base]. split; [|reflexivity].
    apply nth_error_None in N. specialize (Lv _ eq_refl). assert (m = List.length dims) as -> by lia.
    split.
    + exists (List.length dims). cbn [base iter_no net current_values]. split; [lia|]. split; [|exact G].
      intros j E. destruct (List.length dims); [discriminate|]. injection E as <-. lia.
    + exists (cvs ++ [cv]). cbn [base runs sim_info]. split.
      * apply Forall2_app; [exact F|]. constructor; [exact G|constructor].
      * rewrite records_snoc. cbn [Nat.add]. rewrite <- R. f_equal.
        rewrite (Forall2_len _ _ _ F). reflexivity.
Qed.

Lemma rec_loop_runs : forall fuel s rs, Inv s -> loop fuel dims (base s) = Some rs ->
  exists s', rec_loop fuel dims o s = Some s' /\ Inv s' /\ runs (base s') = rs.
Proof.
  induction fuel as [|f IH]; intros s rs I H; [discriminate|]. cbn [loop rec_loop] in *.
  destruct (rec_step dims o s) as [s'|] eqn:E.
  - destruct (Inv_step _ _ I E) as [I' E']. rewrite E' in H. apply IH; assumption.
  - unfold rec_step in E. destruct (step dims (base s)) as [b|]; [discriminate|].
    injection H as <-. eauto.
Qed.

Lemma rec_loop_det : forall fuel k s s', rec_loop fuel dims o s = Some s' ->
  rec_loop (fuel + k) dims o s = Some s'.
Proof.
  induction fuel as [|f IH]; intros k s s' H; [discriminate|]. cbn [rec_loop Nat.add] in *.
  destruct (rec_step dims o s); [apply IH, H|exact H].
Qed.

Lemma Inv_start net0 : Inv (Stepper (St (Some 0) (map d_values dims) net0 []) cv0 i0).
Proof.
  split.
  - exists 0. split; [lia|]. split; [intros i E; injection E as <-; lia|].
    split; [intros d []|]. split; reflexivity.
  - exists []. split; [constructor|reflexivity].
Qed.

End Run.

Lemma combination_values : forall dims c n0 f t,
  (forall d, In d dims -> snd (d_target d) = snd t -> d_target d = t) ->
  List.length c = List.length dims ->
  (n0 t = f (snd t) \/ In t (map d_target dims)) ->
  with_combination n0 dims c t = values_in f dims c (snd t).
Proof.
  induction dims as [|d dims IH]; intros [|v c] n0 f t H L C; try discriminate.
  - destruct C as [C|[]]. exact C.
  - cbn [with_combination values_in]. apply IH.
    + intros d' I. apply H. right. exact I.
    + injection L as L. exact L.
    + destruct (target_eqb t (d_target d)) eqn:E.
      * left. unfold assign. rewrite E. apply target_eqb_eq in E. subst. rewrite String.eqb_refl. reflexivity.
      * destruct C as [C|[C|C]]; [|rewrite C, (proj2 (target_eqb_eq _ _) eq_refl) in E; discriminate|right; exact C].
        left. unfold assign. rewrite E. destruct (String.eqb (snd t) (snd (d_target d))) eqn:E2; [|exact C].
        apply String.eqb_eq in E2. rewrite <- (H d (or_introl eq_refl) (eq_sym E2)) in E.
        rewrite (proj2 (target_eqb_eq _ _) eq_refl) in E. discriminate.
Qed.

Lemma values_in_other : forall dims c f k, ~ In k (map dname dims) -> values_in f dims c k = f k.
Proof.
  induction dims as [|d dims IH]; intros [|v c] f k H; try reflexivity.
  cbn [values_in]. rewrite IH.
  - destruct (String.eqb k (snd (d_target d))) eqn:E; [|reflexivity].
    apply String.eqb_eq in E. elim H. left. symmetry. exact E.
  - intros I. apply H. right. exact I.
Qed.

Lemma values_in_known : forall dims c f k v, List.length c = List.length dims -> In k (map dname dims) ->
  values_in f dims c k = Some v -> exists d, In d dims /\ exists i, nth_error c i = Some v.
Proof.
  induction dims as [|d dims IH]; intros [|x c] f k v L I E; try discriminate; [destruct I|].
  cbn [values_in] in E. destruct (in_dec string_dec k (map dname dims)) as [J|J].
  - injection L as L. destruct (IH c _ k v L J E) as (d' & Id & i & Ei).
    exists d'. split; [right; exact Id|]. exists (S i). exact Ei.
  - rewrite values_in_other in E by exact J.
    destruct I as [I|I]; [|contradiction]. unfold dname in I. rewrite I, String.eqb_refl in E.
    injection E as ->. exists d. split; [left; reflexivity|]. exists 0. reflexivity.
Qed.
