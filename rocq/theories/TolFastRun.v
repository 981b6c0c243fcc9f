(** The fast worst case search as a whole (C44, C88, C91). *)
From Coq Require Import String Ascii List Bool Arith ZArith NArith QArith Lia Lqa Permutation.
From Verif Require Import TolModel TolFastModel TolSpec TolFastSpec TolCorner TolCollect TolRuns TolSens TolFast.
Import ListNotations.
Local Open Scope string_scope. Local Open Scope nat_scope. Local Open Scope list_scope.

Section Run.
  Variables (e n0 : ed) (a : ana) (order : list (kind * string)) (w : work) (f : ed -> Q) (m : list wct -> Q).
  Hypothesis HO : ok_setup e a.
  Hypothesis HW : collect a = Some w.
  Hypothesis HC : collected a e order w.
  Hypothesis HN : nominal_netlist a e n0.
  Hypothesis HM : measured_by a n0 order f m.
  Let n := length order.
  Let c0 := dir0 order m.

  Lemma c0_len : length c0 = n. Proof. apply dir0_len. Qed.
  Lemma last_ms : forall k, last (map (fun j => m (first_max order (S j))) (seq 0 k)) (m (first_max order 0)) = m (first_max order k).
  Proof.
    intros [|k]; [reflexivity|]. replace (S k) with (k + 1) by lia. rewrite seq_app, map_app. cbn [seq map]. rewrite last_last. f_equal. f_equal. lia.
  Qed.
  Lemma first_max_all : first_max order n = repeat Max n.
  Proof. unfold first_max, n. rewrite Nat.sub_diag. cbn. apply app_nil_r. Qed.
  Lemma lowered : forall c, map (fun bt : bool * wct => if fst bt then snd bt else Min) (combine c (repeat Max (length c))) = corner c.
  Proof. induction c as [|b c IH]; [reflexivity|]. cbn. rewrite IH. destruct b; reflexivity. Qed.
  Lemma all_up : forall c, forallb (fun b : bool => b) c = true -> corner c = repeat Max (length c).
  Proof. induction c as [|b c IH]; [reflexivity|]. cbn. destruct b; [|discriminate]. intros H. rewrite <- IH by exact H. reflexivity. Qed.
  Lemma neg_dict : forall c, map (fun rb : string * bool => (fst rb, negb (snd rb))) (dict w c) = dict w (map negb c).
  Proof. unfold dict. generalize (snd w). induction l as [|r l IH]; intros [|b c]; cbn; auto. f_equal. apply IH. Qed.

  Lemma fast_spec :
    ((exists j, j < n /\ (m (corner c0) < m (corner (flip j c0)))%Q) -> fast_run_analysis f a = None) /\
    ((forall j, j < n -> (m (corner (flip j c0)) <= m (corner c0))%Q) ->
       exists c' maxc minc a', fast_run_analysis f a = Some (Fast (m (repeat Nom n)) (m (corner c')) maxc (m (corner c0)) minc, a') /\
         values_of a n0 order c0 maxc /\ values_of a n0 order c' minc /\ length c' = n /\
         (m (corner c') <= m (corner (map negb c0)))%Q /\
         (forall j, j < n -> (m (corner c') <= m (corner (flip j c')))%Q) /\
         ((forall j, j < n -> (m (corner (map negb c0)) <= m (corner (flip j (map negb c0))))%Q) -> c' = map negb c0)).
  Proof.
    unfold fast_run_analysis. rewrite HW. cbv zeta.
    destruct (play_nominal e n0 a (snd w) (last_run a) HO (proj1 HN)) as (a2 & -> & EC). rewrite EC.
    pose proof (shows_nominal e n0 a order w HC HN) as S0.
    assert (EF : f n0 = m (repeat Nom n)) by (eapply shows_m; [exact HC|exact HN|exact HM|apply repeat_length|exact S0]).
    assert (F0 : first_max order 0 = repeat Nom n) by (unfold first_max; cbn; rewrite Nat.sub_0_r; reflexivity).
    destruct (raise_spec e n0 a order w f m HC HN HM (snd w) 0 n0) as (x1 & -> & S1); [reflexivity|lia|rewrite F0; exact S0|].
    rewrite Nat.sub_0_r.
    assert (SG : signs (snd w) (m (repeat Nom n)) (map (fun j => m (first_max order (S j))) (seq 0 n)) [] = dict w c0).
    { rewrite <- F0. exact (signs_spec e a order w m HC n 0 [] (eq_sym (Nat.sub_0_r _)) (Nat.le_0_l _) (fun _ _ _ _ => eq_refl)). }
    rewrite EF. change (length order) with n. rewrite SG.
    destruct (lower_spec e n0 a order w HC HN c0 0 (repeat Max n) x1) as (x2 & E2 & S2); [apply c0_len|apply repeat_length|rewrite <- first_max_all; exact S1|].
    change (lower_some w (dict w c0) x1 = Some (negb (forallb (fun b : bool => b) c0), x2)) in E2. cbn [skipn firstn app] in S2. rewrite E2. rewrite <- c0_len, lowered in S2.
    assert (EV : (if negb (forallb (fun b : bool => b) c0) then f x2 else last (map (fun j => m (first_max order (S j))) (seq 0 n)) (m (repeat Nom n))) = m (corner c0)).
    { destruct (forallb (fun b : bool => b) c0) eqn:EA; cbn [negb].
      - rewrite <- F0, last_ms, first_max_all. f_equal. rewrite (all_up c0 EA), c0_len. reflexivity.
      - eapply shows_m; [exact HC|exact HN|exact HM|rewrite corner_len; apply c0_len|exact S2]. }
    rewrite EV.
    destruct (check_max_spec e n0 a order w f m HC HN HM c0 (m (corner c0)) c0_len (snd w) 0 x2 eq_refl S2) as (CA & CB). split.
    - intros (j & Hj & HB). rewrite CB; [reflexivity|]. exists j. split; [fold n; lia|exact HB].
    - intros HL. destruct CA as (x3 & -> & S3); [intros j Hj; apply HL; fold n in Hj; lia|]. rewrite neg_dict.
      assert (LN : length (map negb c0) = n) by (rewrite map_length; apply c0_len).
      destruct (set_all_spec e n0 a order w HC HN (map negb c0) LN (snd w) 0 (corner c0) x3 eq_refl) as (x4 & -> & S4); [rewrite corner_len; apply c0_len|exact S3|].
      cbn [firstn skipn app] in S4.
      assert (E4 : f x4 = m (corner (map negb c0))) by (eapply shows_m; [exact HC|exact HN|exact HM|rewrite corner_len; exact LN|exact S4]). rewrite E4.
      assert (LE : length (snd w) = n) by (apply (els_len e a order w HC)). rewrite LE.
      destruct (check_min_spec e n0 a order w f m HC HN HM ((2 ^ n + 2) * (n + 2)) (snd w) 0 (map negb c0) x4) as (c' & x5 & -> & L' & _ & M' & A' & U'); [reflexivity|lia|exact LN|exact S4| |intros j Hj; lia|].
      { pose proof (below_max order m (m (corner (map negb c0)))) as B. fold n in B. fold n. nia. }
      destruct (values_of_spec e n0 a order w HC HN c' L') as (minc & -> & V1).
      destruct (values_of_spec e n0 a order w HC HN c0 c0_len) as (maxc & -> & V2).
      exists c', maxc, minc. eexists. split; [reflexivity|]. split; [exact V2|]. split; [exact V1|]. split; [exact L'|]. split; [exact M'|]. split; [exact A'|exact U'].
  Qed.

  (** The directions of a monotone measurement. *)
  Lemma first_max_put : forall k, k < n -> first_max order k = put_at k Nom (first_max order k) /\ first_max order (S k) = put_at k Max (first_max order k).
  Proof. intros k Hk. split; symmetry; [apply first_max_nom|apply first_max_step]; exact Hk. Qed.
  Lemma dir_mono : monotone n m -> forall k, k < n -> (nth k c0 false = true -> rising n m k) /\ (nth k c0 false = false -> falling n m k).
  Proof.
    intros HMo k Hk. unfold c0, dir0. rewrite nth_map_seq by exact Hk. pose proof (first_max_put k Hk) as (EN & EX).
    assert (L : length (first_max order k) = n) by (apply first_max_len; fold n; lia).
    destruct (HMo k Hk) as [R|R]; destruct (R _ L) as (R1 & R2).
    - split; [intros _; exact R|]. intros H. exfalso. rewrite negb_false_iff in H. apply Qle_bool_iff in H.
      rewrite <- EN, <- EX in R2. revert R2 H. generalize (m (first_max order (S k))) (m (first_max order k)). intros; lra.
    - split; [|intros _; exact R]. intros H. exfalso. rewrite negb_true_iff in H.
      assert (K : Qle_bool (m (first_max order (S k)) - m (first_max order k)) 0 = true); [|congruence]. apply Qle_bool_iff.
      rewrite <- EN, <- EX in R1. revert R1. generalize (m (first_max order (S k))) (m (first_max order k)). intros; lra.
  Qed.
End Run.

(** A corner that is best in each element is the best. *)
Lemma hybrid : forall n (m : list wct -> Q) (d : list bool), length d = n ->
  (forall k s b, k < n -> length s = n -> (m (put_at k (side b) s) <= m (put_at k (side (nth k d false)) s))%Q) ->
  forall c, length c = n -> (m (corner c) <= m (corner d))%Q.
Proof.
  intros n m d HL HB c HC.
  assert (G : forall k, k <= n -> (m (corner c) <= m (corner (firstn k d ++ skipn k c)))%Q).
  { induction k as [|k IH]; intros Hk; [cbn; apply Qle_refl|]. eapply Qle_trans; [apply IH; lia|].
    set (s := corner (firstn k d ++ skipn k c)).
    assert (Ls : length s = n) by (unfold s; rewrite corner_len, app_length, firstn_length, skipn_length; lia).
    assert (E1 : firstn (S k) d ++ skipn (S k) c = put_at k (nth k d false) (firstn k d ++ skipn k c)).
    { assert (H1 : k < length d) by lia. assert (H2 : k < length c) by lia. clear - H1 H2. revert d c H1 H2. induction k as [|k IH]; intros [|x d] [|y c] H1 H2; cbn in H1, H2; try lia; [reflexivity|].
      change (x :: (firstn (S k) d ++ skipn (S k) c) = x :: put_at k (nth k d false) (firstn k d ++ skipn k c)). f_equal. apply IH; lia. }
    rewrite E1, <- side_corner. fold s.
    assert (E2 : s = put_at k (side (nth k (firstn k d ++ skipn k c) false)) s) by (unfold s; rewrite side_corner, put_at_id; reflexivity).
    rewrite E2 at 1. apply HB; [lia|exact Ls]. }
  specialize (G n (le_n n)). rewrite firstn_all2 in G by lia. rewrite skipn_all2 in G by lia. rewrite app_nil_r in G. exact G.
Qed.
Lemma hybrid_min : forall n (m : list wct -> Q) (d : list bool), length d = n ->
  (forall k s b, k < n -> length s = n -> (m (put_at k (side (nth k d false)) s) <= m (put_at k (side b) s))%Q) ->
  forall c, length c = n -> (m (corner d) <= m (corner c))%Q.
Proof.
  intros n m d HL HB c HC. pose proof (hybrid n (fun s => - m s)%Q d HL) as H. cbn in H.
  assert (K : (- m (corner c) <= - m (corner d))%Q). { apply H; [|exact HC]. intros k s b Hk Hs. apply Qopp_le_compat. apply HB; assumption. }
  apply Qopp_le_compat in K. rewrite !Qopp_involutive in K. exact K.
Qed.
Lemma rising_le : forall n m k b s, rising n m k -> length s = n -> (m (put_at k (side b) s) <= m (put_at k Max s) /\ m (put_at k Min s) <= m (put_at k (side b) s))%Q.
Proof. intros n m k b s R L. destruct (R s L) as (A & B). destruct b; cbn; split; try apply Qle_refl; apply Qlt_le_weak; eapply Qlt_trans; eassumption. Qed.
Lemma falling_le : forall n m k b s, falling n m k -> length s = n -> (m (put_at k (side b) s) <= m (put_at k Min s) /\ m (put_at k Max s) <= m (put_at k (side b) s))%Q.
Proof. intros n m k b s R L. destruct (R s L) as (A & B). destruct b; cbn; split; try apply Qle_refl; apply Qlt_le_weak; eapply Qlt_trans; eassumption. Qed.
