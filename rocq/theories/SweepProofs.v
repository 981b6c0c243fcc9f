From Coq Require Import List QArith Qround Qfield Qpower Bool ZArith Lia Lqa.
From Verif Require Import SweepModel SweepSpec.
Import ListNotations.
Local Open Scope Q_scope.

Lemma Qltb_lt a b : Qltb a b = true <-> a < b.
Proof.
  unfold Qltb. rewrite negb_true_iff. split.
  - intros H. apply Qnot_le_lt. intros C. apply Qle_bool_iff in C. congruence.
  - intros H. destruct (Qle_bool b a) eqn:E; [|reflexivity].
    apply Qle_bool_iff in E. lra.
Qed.

Lemma Qltb_nlt a b : Qltb a b = false <-> b <= a.
Proof.
  unfold Qltb. rewrite negb_false_iff. apply Qle_bool_iff.
Qed.

Lemma sweep_next_spec s n :
  (not_past (sw_stop s) (sw_step s) (point (sw_start s) (sw_step s) n) ->
   sweep_next s n = Some (point (sw_start s) (sw_step s) n)) /\
  (~ not_past (sw_stop s) (sw_step s) (point (sw_start s) (sw_step s) n) ->
   sweep_next s n = None).
Proof.
  unfold sweep_next, not_past, point.
  set (v := sw_start s + inject_Z (Z.of_nat n) * sw_step s).
  destruct (Qltb 0 (sw_step s) && Qle_bool v (sw_stop s)
            || Qltb (sw_step s) 0 && Qle_bool (sw_stop s) v) eqn:E.
  - split; [reflexivity|]. intros H. exfalso; apply H.
    apply orb_true_iff in E. rewrite !andb_true_iff, !Qltb_lt, !Qle_bool_iff in E. assumption.
  - split; [|reflexivity]. intros H. exfalso.
    apply orb_false_iff in E as [E1 E2].
    destruct H as [[H1 H2]|[H1 H2]]; apply Qltb_lt in H1; apply Qle_bool_iff in H2;
      rewrite H1, H2 in *; discriminate.
Qed.

Lemma collect_first_none next g : forall m n fuel,
  (forall k, (k < m)%nat -> next (n + k)%nat = Some (g (n + k)%nat)) ->
  next (n + m)%nat = None -> (m < fuel)%nat ->
  collect fuel next n = Some (map g (seq n m)).
Proof.
  induction m as [|m IH]; intros n fuel HS HN HF; destruct fuel as [|fuel]; try lia.
  - simpl. rewrite Nat.add_0_r in HN. rewrite HN. reflexivity.
  - simpl. specialize (HS 0%nat) as H0. rewrite Nat.add_0_r in H0. rewrite H0 by lia.
    rewrite IH; [reflexivity| | |lia].
    + intros k Hk. replace (S n + k)%nat with (n + S k)%nat by lia. apply HS; lia.
    + replace (S n + m)%nat with (n + S m)%nat by lia. assumption.
Qed.

(** Least index at which a decidable predicate stops holding. *)
Lemma least_failure (P : nat -> Prop) (dec : forall k, {P k} + {~ P k}) : forall K,
  ~ P K -> exists m, (forall k, (k < m)%nat -> P k) /\ ~ P m.
Proof.
  intros K HK.
  assert (forall j, (forall k, (k < j)%nat -> P k) \/
                    exists m, (forall k, (k < m)%nat -> P k) /\ ~ P m) as H.
  { induction j as [|j IH]; [left; intros k Hk; lia|].
    destruct IH as [IH|IH]; [|right; assumption].
    destruct (dec j) as [D|D].
    - left. intros k Hk. destruct (Nat.eq_dec k j) as [->|]; [assumption|apply IH; lia].
    - right. exists j. split; assumption. }
  destruct (H (S K)) as [F|F]; [|assumption]. exfalso. apply HK, F. lia.
Qed.

Lemma archimedes (d x : Q) : 0 < d -> exists k : nat, forall j, (k <= j)%nat -> x < inject_Z (Z.of_nat j) * d.
Proof.
  intros Hd. exists (Z.to_nat (Qfloor (x / d) + 1)). intros j Hj.
  assert (x / d < inject_Z (Z.of_nat j)) as H.
  { apply Qlt_le_trans with (inject_Z (Qfloor (x / d) + 1)); [apply Qlt_floor|].
    rewrite <- Zle_Qle. lia. }
  apply (Qmult_lt_r _ _ d Hd) in H.
  setoid_replace (x / d * d) with x in H by (field; lra). assumption.
Qed.

Lemma not_past_dec limit d x : {not_past limit d x} + {~ not_past limit d x}.
Proof.
  unfold not_past.
  destruct (Qlt_le_dec 0 d) as [A|A].
  - destruct (Qlt_le_dec limit x) as [B|B].
    + right. intros [[_ H]|[H _]]; lra.
    + left; left; split; assumption.
  - destruct (Qlt_le_dec d 0) as [A'|A'].
    + destruct (Qlt_le_dec x limit) as [B|B].
      * right. intros [[H _]|[_ H]]; lra.
      * left; right; split; assumption.
    + right. intros [[H _]|[H _]]; lra.
Defined.

Lemma eventually_past origin limit d : ~ d == 0 ->
  exists K, forall j, (K <= j)%nat -> ~ not_past limit d (point origin d j).
Proof.
  intros Hd. unfold not_past, point.
  destruct (Qlt_le_dec 0 d) as [A|A].
  - destruct (archimedes d (limit - origin) A) as [K HK]. exists K. intros j Hj.
    specialize (HK j Hj). intros [[_ H]|[H _]]; lra.
  - assert (0 < - d) as A' by (apply Qle_lt_or_eq in A; destruct A; [lra|contradiction]).
    destruct (archimedes (- d) (origin - limit) A') as [K HK]. exists K. intros j Hj.
    specialize (HK j Hj).
    setoid_replace (inject_Z (Z.of_nat j) * - d) with (- (inject_Z (Z.of_nat j) * d)) in HK by ring.
    intros [[H _]|[_ H]]; lra.
Qed.

Lemma past_monotone origin limit d j k : (j <= k)%nat ->
  not_past limit d (point origin d k) -> not_past limit d (point origin d j).
Proof.
  unfold not_past, point. intros Hjk H.
  assert (inject_Z (Z.of_nat j) <= inject_Z (Z.of_nat k)) as L by (rewrite <- Zle_Qle; lia).
  destruct H as [[H1 H2]|[H1 H2]]; [left|right]; split; try assumption.
  - assert (inject_Z (Z.of_nat j) * d <= inject_Z (Z.of_nat k) * d)
      by (apply Qmult_le_compat_r; lra). lra.
  - assert (inject_Z (Z.of_nat j) * - d <= inject_Z (Z.of_nat k) * - d)
      by (apply Qmult_le_compat_r; lra).
    setoid_replace (inject_Z (Z.of_nat j) * - d) with (- (inject_Z (Z.of_nat j) * d)) in H by ring.
    setoid_replace (inject_Z (Z.of_nat k) * - d) with (- (inject_Z (Z.of_nat k) * d)) in H by ring.
    lra.
Qed.

Lemma sweep_obj_grid s : ~ sw_step s == 0 ->
  exists l m, (forall fuel, (m < fuel)%nat -> collect fuel (sweep_next s) 0 = Some l)
         /\ is_grid (sw_start s) (sw_stop s) (sw_step s) l.
Proof.
  intros Hd.
  destruct (eventually_past (sw_start s) (sw_stop s) (sw_step s) Hd) as [K HK].
  destruct (least_failure _ (fun k => not_past_dec (sw_stop s) (sw_step s)
                                        (point (sw_start s) (sw_step s) k)) K (HK K (le_n K)))
    as [m [Hlt Hm]].
  exists (map (point (sw_start s) (sw_step s)) (seq 0 m)), m. split.
  - intros fuel HF. apply collect_first_none; [| |assumption].
    + intros k Hk. apply sweep_next_spec, Hlt; assumption.
    + apply sweep_next_spec; assumption.
  - exists m. split; [reflexivity|]. split; [assumption|].
    intros k Hk C. apply Hm. eapply past_monotone; eassumption.
Qed.

Lemma sweep_correct start stop step :
  ~ step == 0 ->
  exists s l m, sweep_init start stop step = Some s
    /\ (forall fuel, (m < fuel)%nat -> collect fuel (sweep_next s) 0 = Some l)
    /\ ((step < 0 /\ start < stop) -> is_grid stop start step l)
    /\ ((0 < step /\ stop < start) -> is_grid start stop (- step) l)
    /\ ((0 < step /\ start <= stop) \/ (step < 0 /\ stop <= start) -> is_grid start stop step l).
Proof.
  intros Hs. unfold sweep_init.
  destruct (Qeq_bool step 0) eqn:E0; [apply Qeq_bool_iff in E0; contradiction|].
  assert (step < 0 \/ 0 < step) as Hsgn by (destruct (Q_dec step 0) as [[?|?]|?]; auto; contradiction).
  destruct (Qltb step 0 && Qltb start stop) eqn:E1.
  - apply andb_true_iff in E1. rewrite !Qltb_lt in E1.
    destruct (sweep_obj_grid (Sweep stop start step) Hs) as (l & m & H1 & H2).
    exists (Sweep stop start step), l, m. repeat split; auto; simpl in *.
    + intros; lra.
    + intros [?|?]; lra.
  - destruct (Qltb 0 step && Qltb stop start) eqn:E2.
    + apply andb_true_iff in E2. rewrite !Qltb_lt in E2.
      assert (~ - step == 0) as Hs' by lra.
      destruct (sweep_obj_grid (Sweep start stop (- step)) Hs') as (l & m & H1 & H2).
      exists (Sweep start stop (- step)), l, m. repeat split; auto; simpl in *.
      * intros; lra.
      * intros [?|?]; lra.
    + destruct (sweep_obj_grid (Sweep start stop step) Hs) as (l & m & H1 & H2).
      exists (Sweep start stop step), l, m. repeat split; auto; simpl in *.
      * intros [A B]. apply Qltb_lt in A, B. rewrite A, B in E1. discriminate.
      * intros [A B]. apply Qltb_lt in A, B. rewrite A, B in E2. discriminate.
Qed.

(** sweep_n *)
Lemma sweep_n_correct start stop (N : nat) :
  (2 <= N)%nat -> ~ start == stop ->
  exists s l m, sweep_n_init start stop N = Some s
    /\ (forall fuel, (m < fuel)%nat -> collect fuel (sweep_next s) 0 = Some l)
    /\ length l = N
    /\ (forall k x, nth_error l k = Some x ->
          x == start + inject_Z (Z.of_nat k) * ((stop - start) / inject_Z (Z.of_nat N - 1)))
    /\ (exists x, nth_error l 0 = Some x /\ x == start)
    /\ (exists x, nth_error l (N - 1) = Some x /\ x == stop).
Proof.
  intros HN Hne. set (d := (stop - start) / inject_Z (Z.of_nat N - 1)).
  assert (0 < inject_Z (Z.of_nat N - 1)) as HM by (replace 0 with (inject_Z 0) by reflexivity; rewrite <- Zlt_Qlt; lia).
  assert (d * inject_Z (Z.of_nat N - 1) == stop - start) as Hd by (unfold d; field; lra).
  assert (~ d == 0) as Hd0.
  { intros C. rewrite C in Hd. apply Hne. lra. }
  assert (sweep_n_init start stop N = Some (Sweep start stop d)) as HI.
  { unfold sweep_n_init, sweep_init.
    destruct N as [|[|N]]; [lia|lia|]. fold d.
    destruct (Qeq_bool d 0) eqn:E0; [apply Qeq_bool_iff in E0; contradiction|].
    assert (Qltb d 0 && Qltb start stop = false) as ->.
    { apply not_true_iff_false. rewrite andb_true_iff, !Qltb_lt. intros [A B].
      assert (0 < - d * inject_Z (Z.of_nat (S (S N)) - 1)) by (apply Qmult_lt_0_compat; lra).
      lra. }
    assert (Qltb 0 d && Qltb stop start = false) as ->.
    { apply not_true_iff_false. rewrite andb_true_iff, !Qltb_lt. intros [A B].
      assert (0 < d * inject_Z (Z.of_nat (S (S N)) - 1)) by (apply Qmult_lt_0_compat; lra).
      lra. }
    reflexivity. }
  destruct (sweep_obj_grid (Sweep start stop d) Hd0) as (l & m & HF & m' & Hl & Hin & Hout).
  cbn [sw_start sw_stop sw_step] in *.
  assert (point start d (N - 1) == stop) as Hlast.
  { unfold point. replace (Z.of_nat (N - 1)) with (Z.of_nat N - 1)%Z by lia. lra. }
  assert (m' = N) as ->.
  { destruct (lt_eq_lt_dec m' N) as [[L|L]|L]; [|assumption|].
    - exfalso. apply (Hout (N - 1)%nat); [lia|]. unfold not_past.
      destruct (Q_dec d 0) as [[A|A]|A]; [right|left|contradiction]; split; lra.
    - exfalso. specialize (Hin N L).
      assert (point start d N == stop + d) as HNx.
      { unfold point in *. 
        setoid_replace (inject_Z (Z.of_nat N)) with (inject_Z (Z.of_nat (N - 1)) + 1).
        + lra.
        + rewrite <- (inject_Z_plus _ 1). apply inject_Z_injective. lia. }
      unfold not_past in Hin. destruct Hin as [[A B]|[A B]]; lra. }
  exists (Sweep start stop d), l, m. split; [assumption|]. split; [assumption|].
  subst l. split; [rewrite map_length, seq_length; reflexivity|].
  assert (forall k x, nth_error (map (point start d) (seq 0 N)) k = Some x -> x = point start d k) as HP.
  { intros k x H. rewrite nth_error_map in H.
    destruct (nth_error (seq 0 N) k) as [j|] eqn:E; [|discriminate].
    simpl in H. injection H as <-.
    assert (k < N)%nat by (rewrite <- (seq_length N 0); apply nth_error_Some; congruence).
    apply nth_error_nth with (d := 0%nat) in E. rewrite seq_nth in E by assumption. subst j. reflexivity. }
  assert (forall k, (k < N)%nat -> nth_error (map (point start d) (seq 0 N)) k = Some (point start d k)) as HQ.
  { intros k Hk. destruct (nth_error (map (point start d) (seq 0 N)) k) as [x|] eqn:E.
    - rewrite (HP k x E). reflexivity.
    - apply nth_error_None in E. rewrite map_length, seq_length in E. lia. }
  split; [|split].
  - intros k x H. apply HP in H. subst x. unfold point. fold d. reflexivity.
  - exists (point start d 0). split; [apply HQ; lia|]. unfold point; simpl. ring.
  - exists (point start d (N - 1)). split; [apply HQ; lia|assumption].
Qed.

(** Geometric progressions. *)
Lemma gpoint_S o f k : ~ f == 0 -> gpoint o f (S k) == gpoint o f k * f.
Proof.
  intros Hf. unfold gpoint. rewrite Nat2Z.inj_succ. unfold Z.succ.
  rewrite Qpower_plus by assumption. simpl (f ^ 1). ring.
Qed.

Lemma gpoint_pos o f k : 0 < o -> 0 < f -> 0 < gpoint o f k.
Proof.
  intros Ho Hf. induction k as [|k IH].
  - unfold gpoint. simpl. lra.
  - rewrite gpoint_S by lra. apply Qmult_lt_0_compat; assumption.
Qed.

Lemma gpoint_mono_up o f j k : 0 < o -> 1 < f -> (j <= k)%nat -> gpoint o f j <= gpoint o f k.
Proof.
  intros Ho Hf H. induction H as [|k H IH]; [lra|].
  rewrite gpoint_S by lra. assert (0 < gpoint o f k) by (apply gpoint_pos; lra). nra.
Qed.

Lemma gpoint_mono_down o f j k : 0 < o -> 0 < f -> f < 1 -> (j <= k)%nat -> gpoint o f k <= gpoint o f j.
Proof.
  intros Ho Hf0 Hf H. induction H as [|k H IH]; [lra|].
  rewrite gpoint_S by lra. assert (0 < gpoint o f k) by (apply gpoint_pos; lra). nra.
Qed.

Lemma bernoulli o f k : 0 < o -> 1 < f ->
  o + inject_Z (Z.of_nat k) * (o * (f - 1)) <= gpoint o f k.
Proof.
  intros Ho Hf. induction k as [|k IH].
  - unfold gpoint. change (inject_Z (Z.of_nat 0)) with 0. change (f ^ Z.of_nat 0) with 1. lra.
  - rewrite gpoint_S by lra.
    assert (0 <= inject_Z (Z.of_nat k)) as K by (replace 0 with (inject_Z 0) by reflexivity; rewrite <- Zle_Qle; lia).
    setoid_replace (inject_Z (Z.of_nat (S k))) with (inject_Z (Z.of_nat k) + 1)
      by (rewrite <- (inject_Z_plus _ 1); apply inject_Z_injective; lia).
    set (n := inject_Z (Z.of_nat k)) in *.
    assert (0 <= n * (o * (f - 1))) as P by (apply Qmult_le_0_compat; [assumption|]; apply Qmult_le_0_compat; lra).
    assert ((o + n * (o * (f - 1))) * f <= gpoint o f k * f) as Q by (apply Qmult_le_compat_r; lra).
    assert (0 <= n * (o * (f - 1)) * (f - 1)) by (apply Qmult_le_0_compat; lra).
    lra.
Qed.

Lemma grows_past o f x : 0 < o -> 1 < f -> exists K, x < gpoint o f K.
Proof.
  intros Ho Hf.
  destruct (archimedes (o * (f - 1)) x) as [K HK]; [apply Qmult_lt_0_compat; lra|].
  exists K. pose proof (bernoulli o f K Ho Hf). specialize (HK K (le_n K)). lra.
Qed.

Lemma gpoint_inv o f k : 0 < f -> gpoint o f k * gpoint 1 (/ f) k == o.
Proof.
  intros Hf. assert (~ f == 0) by lra.
  assert (0 < / f) by (apply Qinv_lt_0_compat; assumption).
  induction k as [|k IH].
  - unfold gpoint; simpl. ring.
  - rewrite !gpoint_S by lra.
    setoid_replace (gpoint o f k * f * (gpoint 1 (/ f) k * / f))
      with (gpoint o f k * gpoint 1 (/ f) k * (f * / f)) by ring.
    rewrite IH, Qmult_inv_r by assumption. ring.
Qed.

Lemma shrinks_past o f x : 0 < o -> 0 < f -> f < 1 -> 0 < x -> exists K, gpoint o f K < x.
Proof.
  intros Ho Hf Hf1 Hx.
  assert (1 < / f) as Hi.
  { apply (Qmult_lt_l _ _ f Hf). rewrite Qmult_inv_r by lra. lra. }
  destruct (grows_past 1 (/ f) (o / x) ltac:(lra) Hi) as [K HK]. exists K.
  pose proof (gpoint_inv o f K Hf) as HI.
  assert (0 < gpoint 1 (/ f) K) as HP by (apply gpoint_pos; lra).
  apply (Qmult_lt_l _ _ x Hx) in HK.
  setoid_replace (x * (o / x)) with o in HK by (field; lra).
  apply (Qmult_lt_r _ _ _ HP). rewrite HI. assumption.
Qed.

Lemma g_not_past_dec o l x : {g_not_past o l x} + {~ g_not_past o l x}.
Proof.
  unfold g_not_past.
  destruct (Qlt_le_dec o l) as [A|A].
  - destruct (Qlt_le_dec l x) as [B|B].
    + right. intros [[_ H]|[H _]]; lra.
    + left; left; split; assumption.
  - destruct (Qlt_le_dec l o) as [A'|A'].
    + destruct (Qlt_le_dec x l) as [B|B].
      * right. intros [[H _]|[_ H]]; lra.
      * left; right; split; assumption.
    + right. intros [[H _]|[H _]]; lra.
Defined.

Lemma g_not_past_comp o l x y : x == y -> g_not_past o l x -> g_not_past o l y.
Proof. unfold g_not_past. intros E. rewrite E. auto. Qed.

Lemma sweep_log_next_spec s v :
  (g_not_past (sw_start s) (sw_stop s) v -> sweep_log_next s v = Some v) /\
  (~ g_not_past (sw_start s) (sw_stop s) v -> sweep_log_next s v = None).
Proof.
  unfold sweep_log_next, g_not_past.
  destruct (Qltb (sw_start s) (sw_stop s) && Qle_bool v (sw_stop s)
            || Qltb (sw_stop s) (sw_start s) && Qle_bool (sw_stop s) v) eqn:E.
  - split; [reflexivity|]. intros H. exfalso; apply H.
    apply orb_true_iff in E. rewrite !andb_true_iff, !Qltb_lt, !Qle_bool_iff in E. assumption.
  - split; [|reflexivity]. intros H. exfalso.
    apply orb_false_iff in E as [E1 E2].
    destruct H as [[H1 H2]|[H1 H2]]; apply Qltb_lt in H1; apply Qle_bool_iff in H2;
      rewrite H1, H2 in *; discriminate.
Qed.

(** Iterated values of the [val] attribute. *)
Fixpoint iter_vals (f : Q) (v : Q) (m : nat) : list Q :=
  match m with O => [] | S m' => v :: iter_vals f (v * f) m' end.

Lemma sweep_log_collect_spec s (o := sw_start s) (f := sw_step s) : ~ f == 0 -> forall m n v fuel,
  v == gpoint o f n ->
  (forall k, (k < m)%nat -> g_not_past o (sw_stop s) (gpoint o f (n + k))) ->
  ~ g_not_past o (sw_stop s) (gpoint o f (n + m)) -> (m < fuel)%nat ->
  sweep_log_collect fuel s v = Some (iter_vals f v m).
Proof.
  intros Hf. induction m as [|m IH]; intros n v fuel Hv HS HN HF; destruct fuel as [|fuel]; try lia.
  - simpl. replace (sweep_log_next s v) with (@None Q); [reflexivity|].
    symmetry. apply sweep_log_next_spec. intros C. apply HN. rewrite Nat.add_0_r.
    eapply g_not_past_comp; eassumption.
  - cbn [sweep_log_collect iter_vals].
    replace (sweep_log_next s v) with (Some v).
    + cbn [option_map]. erewrite (IH (S n)); [reflexivity| | | |lia].
      * rewrite gpoint_S by assumption. rewrite Hv. reflexivity.
      * intros k Hk. replace (S n + k)%nat with (n + S k)%nat by lia. apply HS; lia.
      * replace (S n + m)%nat with (n + S m)%nat by lia. assumption.
    + symmetry. apply sweep_log_next_spec.
      eapply g_not_past_comp; [symmetry; eassumption|]. specialize (HS 0%nat). rewrite Nat.add_0_r in HS.
      apply HS; lia.
Qed.

Lemma iter_vals_nth o f : ~ f == 0 -> forall m n v k x, v == gpoint o f n ->
  nth_error (iter_vals f v m) k = Some x -> x == gpoint o f (n + k) /\ (k < m)%nat.
Proof.
  intros Hf. induction m as [|m IH]; intros n v k x Hv H; [destruct k; discriminate|].
  destruct k as [|k]; simpl in H.
  - injection H as <-. rewrite Nat.add_0_r. split; [assumption|lia].
  - apply (IH (S n)) in H.
    + replace (n + S k)%nat with (S n + k)%nat by lia. destruct H; split; [assumption|lia].
    + rewrite gpoint_S by assumption. rewrite Hv. reflexivity.
Qed.

Lemma iter_vals_length f : forall m v, length (iter_vals f v m) = m.
Proof. induction m as [|m IH]; intros v; simpl; [reflexivity|]. rewrite IH. reflexivity. Qed.

Lemma sweep_log_obj_grid s (o := sw_start s) (f := sw_step s) :
  0 < o -> 0 < sw_stop s ->
  (o < sw_stop s /\ 1 < f) \/ (sw_stop s < o /\ 0 < f /\ f < 1) ->
  exists l m, (forall fuel, (m < fuel)%nat -> sweep_log_collect fuel s o = Some l)
         /\ is_geometric_grid o (sw_stop s) f l.
Proof.
  intros Ho Hst Hdir.
  assert (~ f == 0) as Hf0 by (destruct Hdir; lra).
  assert (exists K, ~ g_not_past o (sw_stop s) (gpoint o f K)) as [K HK].
  { destruct Hdir as [[A B]|[A [B C]]].
    - destruct (grows_past o f (sw_stop s) Ho B) as [K HK]. exists K. unfold g_not_past.
      intros [[_ H]|[H _]]; lra.
    - destruct (shrinks_past o f (sw_stop s) Ho B C Hst) as [K HK]. exists K. unfold g_not_past.
      intros [[H _]|[_ H]]; lra. }
  destruct (least_failure _ (fun k => g_not_past_dec o (sw_stop s) (gpoint o f k)) K HK) as [m [Hlt Hm]].
  exists (iter_vals f o m), m.
  assert (o == gpoint o f 0) as H0 by (unfold gpoint; simpl; ring).
  split; [|split].
  - intros fuel HF. apply (sweep_log_collect_spec s Hf0 m 0 o); auto.
  - intros k x H. destruct (iter_vals_nth o f Hf0 m 0 o k x H0 H) as [E L]. split; [assumption|].
    eapply g_not_past_comp; [symmetry; eassumption|]. apply Hlt; assumption.
  - intros k Hk. rewrite iter_vals_length in Hk. intros C. apply Hm.
    unfold g_not_past in *. destruct Hdir as [[A B]|[A [B D]]].
    + left. destruct C as [[_ C]|[C _]]; [|lra]. split; [assumption|].
      pose proof (gpoint_mono_up o f m k Ho B Hk). lra.
    + right. destruct C as [[C _]|[_ C]]; [lra|]. split; [assumption|].
      pose proof (gpoint_mono_down o f m k Ho B D Hk). lra.
Qed.

Lemma Qeq_bool_false a b : ~ a == b -> Qeq_bool a b = false.
Proof. intros H. apply not_true_iff_false. rewrite Qeq_bool_iff. assumption. Qed.
Lemma Qle_bool_false a b : b < a -> Qle_bool a b = false.
Proof. intros H. apply not_true_iff_false. rewrite Qle_bool_iff. lra. Qed.
Lemma Qltb_false a b : b <= a -> Qltb a b = false.
Proof. apply Qltb_nlt. Qed.
Lemma Qltb_true a b : a < b -> Qltb a b = true.
Proof. apply Qltb_lt. Qed.

Lemma sweep_log_correct start stop step :
  0 < start -> 0 < stop -> ~ start == stop -> 0 < step -> ~ step == 1 ->
  exists s l m, sweep_log_init start stop step = Some s
    /\ (forall fuel, (m < fuel)%nat -> sweep_log_collect fuel s (sw_start s) = Some l)
    /\ ((start < stop /\ 1 < step) \/ (stop < start /\ step < 1) -> is_geometric_grid start stop step l)
    /\ (start < stop /\ step < 1 -> is_geometric_grid stop start step l)
    /\ (stop < start /\ 1 < step -> is_geometric_grid start stop (1 / step) l).
Proof.
  intros Ha Hb Hne Hs Hs1. unfold sweep_log_init.
  rewrite Qeq_bool_false, Qle_bool_false by assumption. cbn [orb].
  assert (start < stop \/ stop < start) as D1 by (destruct (Q_dec start stop) as [[?|?]|?]; auto; contradiction).
  assert (step < 1 \/ 1 < step) as D2 by (destruct (Q_dec step 1) as [[?|?]|?]; auto; contradiction).
  assert (1 < step -> 0 < 1 / step /\ 1 / step < 1) as HI.
  { intros H. split.
    - apply Qlt_shift_div_l; lra.
    - apply Qlt_shift_div_r; lra. }
  destruct D1 as [D1|D1], D2 as [D2|D2].
  - rewrite (Qltb_true start stop), (Qltb_true step 1) by assumption. cbn [andb].
    destruct (sweep_log_obj_grid (Sweep stop start step)) as (l & m & H1 & H2); simpl; auto.
    exists (Sweep stop start step), l, m. split; [reflexivity|]. split; [assumption|].
    split; [|split]; intros; [lra|assumption|lra].
  - rewrite (Qltb_false step 1), (Qltb_false stop start), andb_false_r by lra. cbn [andb].
    destruct (sweep_log_obj_grid (Sweep start stop step)) as (l & m & H1 & H2); simpl; auto.
    exists (Sweep start stop step), l, m. split; [reflexivity|]. split; [assumption|].
    split; [|split]; intros; [assumption|lra|lra].
  - rewrite (Qltb_false start stop), (Qltb_false 1 step), andb_false_r by lra. cbn [andb].
    destruct (sweep_log_obj_grid (Sweep start stop step)) as (l & m & H1 & H2); simpl; auto.
    exists (Sweep start stop step), l, m. split; [reflexivity|]. split; [assumption|].
    split; [|split]; intros; [assumption|lra|lra].
  - rewrite (Qltb_false start stop), (Qltb_true stop start), (Qltb_true 1 step) by lra. cbn [andb].
    destruct (HI D2) as [I1 I2].
    destruct (sweep_log_obj_grid (Sweep start stop (1 / step))) as (l & m & H1 & H2);
      cbn [sw_start sw_stop sw_step]; auto.
    exists (Sweep start stop (1 / step)), l, m. split; [reflexivity|]. split; [assumption|].
    split; [|split]; intros; [lra|lra|assumption].
Qed.

Lemma sweep_log_n_correct start stop ratio (N : nat) :
  (2 <= N)%nat -> 0 < start -> 0 < ratio -> Qpower ratio (Z.of_nat N - 1) == stop / start ->
  exists l, (forall fuel, (N < fuel)%nat -> collect fuel (sweep_log_n_next start ratio N) 0 = Some l)
    /\ l = map (gpoint start ratio) (seq 0 N)
    /\ gpoint start ratio (N - 1) == stop.
Proof.
  intros HN Hs Hr Hp. exists (map (gpoint start ratio) (seq 0 N)). split; [|split; [reflexivity|]].
  - intros fuel HF. apply collect_first_none; [| |assumption].
    + intros k Hk. unfold sweep_log_n_next. simpl (0 + k)%nat.
      destruct (Nat.ltb_spec k N); [reflexivity|lia].
    + unfold sweep_log_n_next. simpl (0 + N)%nat. rewrite Nat.ltb_irrefl. reflexivity.
  - unfold gpoint. replace (Z.of_nat (N - 1)) with (Z.of_nat N - 1)%Z by lia.
    rewrite Hp. field. lra.
Qed.

Lemma is_grid_unique o lim d l1 l2 : is_grid o lim d l1 -> is_grid o lim d l2 -> l1 = l2.
Proof.
  intros (m1 & -> & I1 & O1) (m2 & -> & I2 & O2).
  destruct (lt_eq_lt_dec m1 m2) as [[L|L]|L].
  - exfalso. apply (O1 m1 (le_n _)), I2, L.
  - subst; reflexivity.
  - exfalso. apply (O2 m2 (le_n _)), I1, L.
Qed.

Lemma sweep_log_equal_ends x step : 0 < step -> ~ step == 1 ->
  exists s, sweep_log_init x x step = Some s /\
    forall fuel, (0 < fuel)%nat -> sweep_log_collect fuel s (sw_start s) = Some [].
Proof.
  intros H0 H1. exists (Sweep x x step). split.
  - unfold sweep_log_init. rewrite Qeq_bool_false, Qle_bool_false by assumption.
    rewrite (Qltb_false x x) by lra. reflexivity.
  - intros [|fuel] H; [lia|]. simpl. unfold sweep_log_next. simpl.
    rewrite (Qltb_false x x) by lra. reflexivity.
Qed.
