(** Proofs about collecting logs (C155-C158). *)
From Coq Require Import String Ascii List Bool Arith Lia.
From Verif Require Import PyStr StepsModel StepsProofs ColModel ColSpec.
Import ListNotations.
Local Open Scope string_scope. Local Open Scope nat_scope. Local Open Scope list_scope.

Lemma nodup_snoc : forall A (l : list A) x, NoDup l -> ~ In x l -> NoDup (l ++ [x]).
Proof.
  induction l as [|y l IH]; intros x N H; cbn; [constructor; [intros []|constructor]|]. inversion N; subst. constructor; [rewrite in_app_iff; intros [K|[K|[]]]; [contradiction|subst; apply H; left; reflexivity]|]. apply IH; [assumption|intros K; apply H; right; exact K].
Qed.
Section Collect.
Context {V : Type}.
Implicit Types (h : heap V) (s : store V).
Lemma dget_app : forall W (k : str) (d e : list (str * W)), dget k (d ++ e) = match dget k d with Some v => Some v | None => dget k e end.
Proof.
  intros W k d e. unfold dget. induction d as [|[x v] d IH]; cbn; [reflexivity|]. destruct (str_eqb x k); [reflexivity|exact IH].
Qed.
Lemma dget_In' : forall W (k : str) (d : list (str * W)) v, dget k d = Some v -> In (k, v) d.
Proof.
  intros W k d v. unfold dget. induction d as [|[x w] d IH]; cbn; [discriminate|]. destruct (str_eqb x k) eqn:E; [|intros H; right; apply IH; exact H].
  intros H. injection H as <-. left. apply str_eqb_eq in E. subst. reflexivity.
Qed.
Lemma dget_one : forall W (k p : str) (v : W), dget k [(p, v)] = if str_eqb p k then Some v else None.
Proof. intros. unfold dget. cbn. destruct (str_eqb p k); reflexivity. Qed.
Lemma hset_same : forall h a l, hset h a l a = l. Proof. intros. unfold hset. rewrite Nat.eqb_refl. reflexivity. Qed.
Lemma hset_other : forall h a l b, b <> a -> hset h a l b = h b. Proof. intros. unfold hset. destruct (Nat.eqb_spec b a); [contradiction|reflexivity]. Qed.
Lemma snd_inj : forall (d : list (str * nat)) p q a, NoDup (map snd d) -> In (p, a) d -> In (q, a) d -> p = q.
Proof.
  induction d as [|[x b] d IH]; intros p q a ND P Q; [destruct P|]. cbn in ND. inversion ND as [|? ? NI ND']; subst. destruct P as [P|P], Q as [Q|Q].
  - congruence.
  - injection P as -> ->. exfalso. apply NI. apply in_map_iff. exists (q, a). auto.
  - injection Q as -> ->. exfalso. apply NI. apply in_map_iff. exists (p, a). auto.
  - eapply IH; eassumption.
Qed.
(** Values of p in a list of pairs. *)
Definition pick (h : heap V) (ps : list (str * nat)) (p : str) : option (list V) :=
  match filter (fun e => str_eqb (fst e) p) ps with [] => None | l => Some (flat_map (fun e => h (snd e)) l) end.
Lemma pick_snoc : forall h ps q a p, pick h (ps ++ [(q, a)]) p =
  if str_eqb q p then Some (match pick h ps p with Some c => c | None => [] end ++ h a) else pick h ps p.
Proof.
  intros h ps q a p. unfold pick. rewrite filter_app. cbn [filter fst]. destruct (str_eqb q p); [|rewrite app_nil_r; reflexivity].
  destruct (filter _ ps) as [|x l] eqn:E; [cbn; rewrite app_nil_r; reflexivity|]. cbn [app]. f_equal. change (x :: l ++ [(q, a)]) with ((x :: l) ++ [(q, a)]). rewrite flat_map_app. cbn. rewrite app_nil_r. reflexivity.
Qed.

(** The invariant: [ps] and [ms] are the pairs added so far, [h] the heap at the start. *)
Record inv h (n0 : nat) (ps ms : list (str * nat)) s : Prop := Inv {
  i_steps : forall p, column (st_heap s) (l_steps (st_log s)) p = pick h ps p;
  i_data : forall p, column (st_heap s) (l_data (st_log s)) p = pick h ms p;
  i_keep : forall a, a < n0 -> ~ In a (map snd ps) -> st_heap s a = h a;
  i_fresh : forall a, In a (map snd (l_data (st_log s))) -> n0 <= a < st_next s;
  i_nds : NoDup (map snd (l_steps (st_log s)));
  i_ndd : NoDup (map snd (l_data (st_log s)));
  i_own : incl (map snd (l_steps (st_log s))) (map snd ps);
  i_next : n0 <= st_next s }.

Lemma inv_step : forall h n0 ps ms s p a, inv h n0 ps ms s -> a < n0 -> ~ In a (map snd ps) -> Forall (fun b => b < n0) (map snd ps) -> inv h n0 (ps ++ [(p, a)]) ms (add_step s (p, a)).
Proof.
  intros h n0 ps ms s p a I HA HN HP. destruct I as [I1 I2 I3 I4 I5 I6 I7 I8]. unfold add_step. assert (EA : st_heap s a = h a) by (apply I3; assumption).
  assert (KS : forall b, In b (map snd (l_steps (st_log s))) -> b < n0) by (intros b B; rewrite Forall_forall in HP; apply HP, I7, B).
  destruct (dget p (l_steps (st_log s))) as [b|] eqn:EG.
  - assert (IB : In (p, b) (l_steps (st_log s))) by (apply dget_In'; exact EG). assert (IB' : In b (map snd (l_steps (st_log s)))) by (apply in_map_iff; exists (p, b); auto).
    constructor; cbn [st_heap st_log st_next]; try assumption.
    + intros q. rewrite pick_snoc. specialize (I1 q). unfold column in *. destruct (str_eqb p q) eqn:E.
      * apply str_eqb_eq in E. subst q. rewrite EG in *. cbn [option_map] in *. rewrite hset_same, <- I1, EA. reflexivity.
      * destruct (dget q (l_steps (st_log s))) as [c|] eqn:EQ; cbn [option_map] in *; [|exact I1]. rewrite hset_other; [exact I1|].
        intros ->. assert (q = p) by (eapply (snd_inj _ q p b I5); [apply dget_In'; exact EQ|exact IB]). subst. rewrite str_eqb_refl in E. discriminate E.
    + intros q. specialize (I2 q). unfold column in *. destruct (dget q (l_data (st_log s))) as [c|] eqn:EQ; cbn [option_map] in *; [|exact I2]. rewrite hset_other; [exact I2|].
      assert (n0 <= c < st_next s) by (apply I4; apply in_map_iff; exists (q, c); split; [reflexivity|apply dget_In'; exact EQ]). pose proof (KS b IB'). lia.
    + intros x X N. rewrite map_app, in_app_iff in N. rewrite hset_other; [apply I3; tauto|]. intros ->. apply N. left. apply I7. exact IB'.
    + intros x X. rewrite map_app, in_app_iff. left. apply I7. exact X.
  - constructor; cbn [st_heap st_log st_next l_steps l_data]; try assumption.
    + intros q. rewrite pick_snoc. specialize (I1 q). unfold column in *. rewrite dget_app, dget_one. destruct (str_eqb p q) eqn:E.
      * apply str_eqb_eq in E. subst q. rewrite EG in *. cbn [option_map] in *. rewrite <- I1, EA. reflexivity.
      * destruct (dget q (l_steps (st_log s))); exact I1.
    + intros x X N. apply I3; [exact X|]. rewrite map_app, in_app_iff in N. tauto.
    + rewrite map_app. apply nodup_snoc; [exact I5|]. intros X. apply HN, I7, X.
    + intros x X. rewrite map_app, in_app_iff in *. destruct X as [X|X]; [left; apply I7; exact X|right; exact X].
Qed.
Lemma inv_measure : forall h n0 ps ms s p a, inv h n0 ps ms s -> a < n0 -> ~ In a (map snd ps) -> Forall (fun b => b < n0) (map snd ps) -> inv h n0 ps (ms ++ [(p, a)]) (add_measure s (p, a)).
Proof.
  intros h n0 ps ms s p a I HA HN HP. destruct I as [I1 I2 I3 I4 I5 I6 I7 I8]. unfold add_measure. assert (EA : st_heap s a = h a) by (apply I3; assumption).
  assert (KS : forall b, In b (map snd (l_steps (st_log s))) -> b < n0) by (intros b B; rewrite Forall_forall in HP; apply HP, I7, B).
  assert (ST : forall b l, n0 <= b -> forall q, column (hset (st_heap s) b l) (l_steps (st_log s)) q = pick h ps q).
  { intros b l B q. specialize (I1 q). unfold column in *. destruct (dget q (l_steps (st_log s))) as [c|] eqn:EQ; cbn [option_map] in *; [|exact I1]. rewrite hset_other; [exact I1|].
    assert (c < n0) by (apply KS; apply in_map_iff; exists (q, c); split; [reflexivity|apply dget_In'; exact EQ]). lia. }
  destruct (dget p (l_data (st_log s))) as [b|] eqn:EG.
  - assert (IB : In (p, b) (l_data (st_log s))) by (apply dget_In'; exact EG). assert (IB' : In b (map snd (l_data (st_log s)))) by (apply in_map_iff; exists (p, b); auto). destruct (I4 b IB') as (B1 & B2).
    constructor; cbn [st_heap st_log st_next]; try assumption.
    + apply ST. exact B1.
    + intros q. rewrite pick_snoc. specialize (I2 q). unfold column in *. destruct (str_eqb p q) eqn:E.
      * apply str_eqb_eq in E. subst q. rewrite EG in *. cbn [option_map] in *. rewrite hset_same, <- I2, EA. reflexivity.
      * destruct (dget q (l_data (st_log s))) as [c|] eqn:EQ; cbn [option_map] in *; [|exact I2]. rewrite hset_other; [exact I2|].
        intros ->. assert (q = p) by (eapply (snd_inj _ q p b I6); [apply dget_In'; exact EQ|exact IB]). subst. rewrite str_eqb_refl in E. discriminate E.
    + intros x X N. rewrite hset_other; [apply I3; tauto|lia].
  - constructor; cbn [st_heap st_log st_next l_steps l_data]; try assumption.
    + apply ST. exact I8.
    + intros q. rewrite pick_snoc. specialize (I2 q). unfold column in *. rewrite dget_app, dget_one. destruct (str_eqb p q) eqn:E.
      * apply str_eqb_eq in E. subst q. rewrite EG in *. cbn [option_map] in *. rewrite hset_same, <- I2, EA. reflexivity.
      * destruct (dget q (l_data (st_log s))) as [c|] eqn:EQ; cbn [option_map] in *; [|exact I2]. rewrite hset_other; [exact I2|].
        assert (n0 <= c < st_next s) by (apply I4; apply in_map_iff; exists (q, c); split; [reflexivity|apply dget_In'; exact EQ]). lia.
    + intros x X N. rewrite hset_other; [apply I3; tauto|lia].
    + intros x X. rewrite map_app, in_app_iff in X. destruct X as [X|[<-|[]]]; [specialize (I4 x X); lia|cbn; lia].
    + rewrite map_app. apply nodup_snoc; [exact I6|]. cbn. intros X. specialize (I4 _ X). lia.
    + lia.
Qed.
Lemma inv_steps : forall h n0 l ps ms s, inv h n0 ps ms s -> NoDup (map snd (ps ++ l)) -> Forall (fun b => b < n0) (map snd (ps ++ l)) -> inv h n0 (ps ++ l) ms (fold_left add_step l s).
Proof.
  intros h n0 l. induction l as [|[p a] l IH]; intros ps ms s I ND FA; [rewrite app_nil_r; exact I|]. cbn [fold_left]. change (ps ++ (p, a) :: l) with (ps ++ [(p, a)] ++ l) in *. rewrite app_assoc in *.
  apply IH; [|exact ND|exact FA]. rewrite !map_app in *. apply Forall_app in FA. destruct FA as (FA & _). apply Forall_app in FA. destruct FA as (F1 & F2). inversion F2; subst.
  apply inv_step; try assumption. rewrite <- app_assoc in ND. cbn in ND. apply NoDup_remove_2 in ND. rewrite in_app_iff in ND. tauto.
Qed.
Lemma inv_measures : forall h n0 l ps ms s, inv h n0 ps ms s -> (forall a, In a (map snd l) -> ~ In a (map snd ps) /\ a < n0) -> Forall (fun b => b < n0) (map snd ps) -> inv h n0 ps (ms ++ l) (fold_left add_measure l s).
Proof.
  intros h n0 l. induction l as [|[p a] l IH]; intros ps ms s I HA FA; [rewrite app_nil_r; exact I|]. cbn [fold_left]. change (ms ++ (p, a) :: l) with (ms ++ [(p, a)] ++ l) in *. rewrite app_assoc in *.
  apply IH; [|intros b B; apply HA; right; exact B|exact FA]. destruct (HA a (or_introl eq_refl)). apply inv_measure; assumption.
Qed.
Lemma add_step_count : forall l s, l_count (st_log (fold_left add_step l s)) = l_count (st_log s).
Proof. induction l as [|[p a] l IH]; intros s; [reflexivity|]. cbn [fold_left]. rewrite IH. unfold add_step. destruct (dget p _); reflexivity. Qed.
Lemma add_measure_count : forall l s, l_count (st_log (fold_left add_measure l s)) = l_count (st_log s).
Proof. induction l as [|[p a] l IH]; intros s; [reflexivity|]. cbn [fold_left]. rewrite IH. unfold add_measure. destruct (dget p _); reflexivity. Qed.
Lemma inv_count : forall h n0 ps ms s k, inv h n0 ps ms s -> inv h n0 ps ms (Store (st_heap s) (st_next s) (Log (l_steps (st_log s)) (l_data (st_log s)) k)).
Proof. intros h n0 ps ms s k I. destruct I. constructor; assumption. Qed.

Lemma collect_inv : forall h n0 logs ps ms s, inv h n0 ps ms s ->
  NoDup (map snd ps ++ flat_map (fun l => map snd (l_steps l)) (found logs)) -> Forall (fun b => b < n0) (map snd ps) ->
  (forall l a, In l (found logs) -> In a (map snd (l_steps l) ++ map snd (l_data l)) -> a < n0) ->
  (forall l a, In l (found logs) -> In a (map snd (l_data l)) -> ~ In a (map snd ps) /\ forall l', In l' (found logs) -> ~ In a (map snd (l_steps l'))) ->
  let s' := fold_left add_log_data logs s in
  inv h n0 (ps ++ flat_map l_steps (found logs)) (ms ++ flat_map l_data (found logs)) s' /\ l_count (st_log s') = l_count (st_log s) + list_sum (map l_count (found logs)).
Proof.
  intros h n0 logs. induction logs as [|[l|] logs IH]; intros ps ms s I ND FA HB HD; cbv zeta.
  - cbn. rewrite !app_nil_r. split; [exact I|lia].
  - change (found (Some l :: logs)) with (l :: found logs) in *. cbn [fold_left flat_map] in *. rewrite app_assoc in ND. rewrite <- map_app in ND.
    assert (FL : Forall (fun b => b < n0) (map snd (ps ++ l_steps l))).
    { rewrite map_app. apply Forall_app. split; [exact FA|]. apply Forall_forall. intros a A. apply (HB l a); [left; reflexivity|apply in_app_iff; left; exact A]. }
    assert (I1 : inv h n0 (ps ++ l_steps l) (ms ++ l_data l) (add_log_data s (Some l))).
    { unfold add_log_data. cbv zeta. apply inv_count. apply inv_measures; [|intros a A|exact FL].
      - apply inv_steps; [exact I| |exact FL]. clear - ND. induction (map snd (ps ++ l_steps l)) as [|x m IHm]; [constructor|]. cbn in ND. inversion ND; subst. constructor; [rewrite in_app_iff in *; tauto|auto].
      - split; [|apply (HB l a); [left; reflexivity|apply in_app_iff; right; exact A]]. destruct (HD l a (or_introl eq_refl) A) as (X & Y). rewrite map_app, in_app_iff. intros [Z|Z]; [exact (X Z)|exact (Y l (or_introl eq_refl) Z)]. }
    destruct (IH (ps ++ l_steps l) (ms ++ l_data l) (add_log_data s (Some l)) I1 ND FL) as (J & K).
    + intros l' a L A. apply (HB l' a); [right; exact L|exact A].
    + intros l' a L A. destruct (HD l' a (or_intror L) A) as (X & Y). split; [|intros l'' L''; apply Y; right; exact L'']. rewrite map_app, in_app_iff. intros [Z|Z]; [exact (X Z)|exact (Y l (or_introl eq_refl) Z)].
    + split; [rewrite !app_assoc; exact J|]. rewrite K. unfold add_log_data. cbv zeta. cbn [st_log l_count]. rewrite add_measure_count, add_step_count. change (list_sum (map l_count (l :: found logs))) with (l_count l + list_sum (map l_count (found logs))). lia.
  - cbn [fold_left]. change (found (None :: logs)) with (found logs) in *. apply IH; assumption.
Qed.

Lemma filter_dget : forall (d : list (str * nat)) p, NoDup (map fst d) -> filter (fun e => str_eqb (fst e) p) d = match dget p d with Some a => [(p, a)] | None => [] end.
Proof.
  induction d as [|[q a] d IH]; intros p ND; [reflexivity|]. cbn in ND. inversion ND as [|? ? NI ND']; subst. unfold dget. cbn [filter find fst]. destruct (str_eqb q p) eqn:E; [|apply IH; exact ND'].
  apply str_eqb_eq in E. subst q. f_equal. rewrite IH by exact ND'. destruct (dget p d) as [b|] eqn:EG; [|reflexivity]. exfalso. apply NI. apply in_map_iff. exists (p, b). split; [reflexivity|apply dget_In'; exact EG].
Qed.
Lemma pick_logs : forall h cols logs p, Forall (fun l => NoDup (map fst (cols l))) logs ->
  pick h (flat_map cols logs) p = if existsb (fun l => match dget p (cols l) with Some _ => true | None => false end) logs then Some (gather h cols logs p) else None.
Proof.
  intros h cols logs p F. unfold pick. assert (G : filter (fun e => str_eqb (fst e) p) (flat_map cols logs) = flat_map (fun l => match dget p (cols l) with Some a => [(p, a)] | None => [] end) logs).
  { induction F as [|l logs H F IH]; [reflexivity|]. cbn [flat_map]. rewrite filter_app, IH, filter_dget by exact H. reflexivity. }
  rewrite G. clear G F. induction logs as [|l logs IH]; [reflexivity|]. cbn [flat_map existsb gather]. unfold column at 1. destruct (dget p (cols l)) as [a|]; cbn [option_map app orb]; [|exact IH].
  f_equal. cbn [flat_map snd]. f_equal. clear. induction logs as [|l logs IH]; [reflexivity|]. cbn [flat_map]. rewrite flat_map_app, IH. f_equal. unfold column. destruct (dget p (cols l)); cbn; rewrite ?app_nil_r; reflexivity.
Qed.

Lemma NoDup_app3 : forall A (l m : list A), NoDup (l ++ m) -> NoDup l /\ NoDup m /\ forall x, In x l -> ~ In x m.
Proof.
  induction l as [|x l IH]; intros m H; cbn in *; [split; [constructor|split; [exact H|intros x []]]|]. inversion H as [|? ? NI H']; subst. destruct (IH m H') as (A1 & A2 & A3). rewrite in_app_iff in NI.
  split; [constructor; tauto|]. split; [exact A2|]. intros y [<-|Y]; [tauto|apply A3; exact Y].
Qed.
Lemma separate_steps : forall logs : list log, NoDup (flat_map (fun l => map snd (l_steps l) ++ map snd (l_data l)) logs) ->
  NoDup (flat_map (fun l => map snd (l_steps l)) logs) /\ forall l l' a, In l logs -> In l' logs -> In a (map snd (l_data l)) -> ~ In a (map snd (l_steps l')).
Proof.
  assert (SUB : forall logs l a, In l logs -> In a (map snd (l_steps l) ++ map snd (l_data l)) -> In a (flat_map (fun l => map snd (l_steps l) ++ map snd (l_data l)) logs)) by (intros logs l a L A; apply in_flat_map; eauto).
  induction logs as [|l logs IH]; intros ND; cbn in *; [split; [constructor|intros l l' a []]|]. destruct (NoDup_app3 _ _ _ ND) as (N1 & N2 & N3). destruct (NoDup_app3 _ _ _ N1) as (M1 & M2 & M3). destruct (IH N2) as (I1 & I2). split.
  - clear - M1 I1 N3 SUB. assert (D : forall x, In x (map snd (l_steps l)) -> ~ In x (flat_map (fun l => map snd (l_steps l)) logs)).
    { intros x X Y. apply (N3 x); [apply in_app_iff; left; exact X|]. apply in_flat_map in Y. destruct Y as (l' & L & Y). apply (SUB _ l'); [exact L|apply in_app_iff; left; exact Y]. }
    clear N3 SUB. revert M1 D. induction (map snd (l_steps l)) as [|y m IHm]; intros M1 D; [exact I1|]. inversion M1; subst. cbn. constructor; [rewrite in_app_iff; intros [X|X]; [contradiction|exact (D y (or_introl eq_refl) X)]|].
    apply IHm; [assumption|]. intros x X. apply D. right. exact X.
  - intros l1 l2 a [<-|L1] [<-|L2] A B.
    + exact (M3 a B A).
    + apply (N3 a); [apply in_app_iff; right; exact A|]. apply (SUB _ l2 a L2). apply in_app_iff. left. exact B.
    + apply (N3 a); [apply in_app_iff; left; exact B|]. apply (SUB _ l1 a L1). apply in_app_iff. right. exact A.
    + exact (I2 l1 l2 a L1 L2 A B).
Qed.
Lemma collect_spec : forall h n logs, separate n (found logs) ->
  let s := read_logfiles h n logs in
  (forall p, column (st_heap s) (l_steps (st_log s)) p = if existsb (fun l => match dget p (l_steps l) with Some _ => true | None => false end) (found logs) then Some (gather h l_steps (found logs) p) else None) /\
  (forall p, column (st_heap s) (l_data (st_log s)) p = if existsb (fun l => match dget p (l_data l) with Some _ => true | None => false end) (found logs) then Some (gather h l_data (found logs) p) else None) /\
  l_count (st_log s) = list_sum (map l_count (found logs)).
Proof.
  intros h n logs (ND & FA). cbv zeta. destruct (separate_steps _ ND) as (S1 & S2). rewrite Forall_forall in FA.
  destruct (collect_inv h n logs [] [] (Store h n (Log [] [] 0))) as (I & C).
  - constructor; cbn; try reflexivity; try constructor; try (intros a []); try lia.
  - exact S1.
  - constructor.
  - intros l a L A. destruct (FA l L) as (F & _). rewrite Forall_forall in F. apply F. exact A.
  - intros l a L A. split; [intros []|]. intros l' L'. apply (S2 l l' a L L' A).
  - unfold read_logfiles. destruct I as [I1 I2 _ _ _ _ _ _]. cbn [app] in *. split; [|split; [|exact C]].
    + intros p. rewrite I1. apply pick_logs. apply Forall_forall. intros l L. apply (FA l L).
    + intros p. rewrite I2. apply pick_logs. apply Forall_forall. intros l L. apply (FA l L).
Qed.
(** Rows line up. *)
Lemma gather_rows : forall h ps ms logs, same_shape h ps ms logs -> forall i, (exists p c, In p ps /\ nth_error (gather h l_steps logs p) i = Some c) \/ (exists m c, In m ms /\ nth_error (gather h l_data logs m) i = Some c) ->
  exists l j, In l logs /\ (forall p, In p ps -> nth_error (gather h l_steps logs p) i = match column h (l_steps l) p with Some c => nth_error c j | None => None end) /\
    (forall m, In m ms -> nth_error (gather h l_data logs m) i = match column h (l_data l) m with Some c => nth_error c j | None => None end).
Proof.
  intros h ps ms logs F. induction F as [|l logs (n & HP & HM) F IH]; intros i H.
  - destruct H as [(p & c & _ & H)|(p & c & _ & H)]; destruct i; discriminate H.
  - destruct (Nat.lt_ge_cases i n) as [L|L].
    + exists l, i. split; [left; reflexivity|]. split; intros p P; cbn [gather flat_map]; [destruct (HP p P) as (c & -> & LC)|destruct (HM p P) as (c & -> & LC)]; apply nth_error_app1; lia.
    + assert (G1 : forall p, In p ps -> nth_error (gather h l_steps (l :: logs) p) i = nth_error (gather h l_steps logs p) (i - n)) by (intros p P; cbn [gather flat_map]; destruct (HP p P) as (c & -> & LC); rewrite nth_error_app2 by lia; rewrite LC; reflexivity).
      assert (G2 : forall p, In p ms -> nth_error (gather h l_data (l :: logs) p) i = nth_error (gather h l_data logs p) (i - n)) by (intros p P; cbn [gather flat_map]; destruct (HM p P) as (c & -> & LC); rewrite nth_error_app2 by lia; rewrite LC; reflexivity).
      destruct (IH (i - n)) as (l' & j & L' & A & B).
      { destruct H as [(p & c & P & H)|(p & c & P & H)]; [left; exists p, c; rewrite <- G1 by exact P; auto|right; exists p, c; rewrite <- G2 by exact P; auto]. }
      exists l', j. split; [right; exact L'|]. split; intros p P; [rewrite G1 by exact P; apply A; exact P|rewrite G2 by exact P; apply B; exact P].
Qed.
End Collect.
