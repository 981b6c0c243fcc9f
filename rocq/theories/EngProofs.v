From Coq Require Import String Ascii List Bool Arith ZArith QArith Qround Qabs Lia Lqa Qpower.
From Verif Require Import PyStr EngModel EngSpec.
Import ListNotations.
Local Open Scope string_scope.
Local Open Scope list_scope.

Lemma Qltb_lt : forall a b, Qltb a b = true <-> (a < b)%Q.
Proof.
  intros a b. unfold Qltb. rewrite negb_true_iff. destruct (Qle_bool b a) eqn:E; split; intros H; try discriminate; try reflexivity.
  - apply Qle_bool_iff in E. exfalso. apply (Qlt_not_le _ _ H E).
  - apply Qnot_le_lt. intros G. apply Qle_bool_iff in G. congruence.
Qed.
Lemma Qltb_ge : forall a b, Qltb a b = false <-> (b <= a)%Q.
Proof.
  intros a b. destruct (Qltb a b) eqn:E; split; intros H; try discriminate; try reflexivity.
  - apply Qltb_lt in E. exfalso. apply (Qlt_not_le _ _ E H).
  - apply Qnot_lt_le. intros G. apply Qltb_lt in G. congruence.
Qed.

(** * floor of the logarithm *)
Section Log.
Variable b : Z.
Hypothesis Hb : (2 <= b)%Z.
Let B := inject_Z b.
Lemma B_ge2 : (2 <= B)%Q.
Proof. unfold B. change 2%Q with (inject_Z 2). rewrite <- Zle_Qle. exact Hb. Qed.
Lemma B_nz : ~ (B == 0)%Q.
Proof. pose proof B_ge2. lra. Qed.
Lemma B_pos : forall e, (0 < Qpower B e)%Q.
Proof. intros e. apply Qpower_0_lt. pose proof B_ge2. lra. Qed.
Lemma B_succ : forall e, (Qpower B (1 + e) == B * Qpower B e)%Q.
Proof. intros e. rewrite Qpower_plus by exact B_nz. reflexivity. Qed.

Lemma log_up_spec : forall fuel q, (1 <= q)%Q -> (q < Qpower B (Z.of_nat fuel))%Q ->
  let e := log_up fuel b q in (0 <= e)%Z /\ (Qpower B e <= q)%Q /\ (q < Qpower B (e + 1))%Q.
Proof.
  induction fuel as [|fuel IH]; intros q H1 H2; cbn [log_up].
  - simpl in H2. lra.
  - fold B. destruct (Qle_bool B q) eqn:E.
    + apply Qle_bool_iff in E. pose proof B_ge2 as G.
      assert (1 <= q / B)%Q as A1 by (apply Qle_shift_div_l; lra).
      assert (q / B < Qpower B (Z.of_nat fuel))%Q as A2.
      { apply Qlt_shift_div_r; [lra|]. rewrite Nat2Z.inj_succ, <- Z.add_1_l, B_succ in H2. lra. }
      destruct (IH (q / B)%Q A1 A2) as (P0 & P1 & P2).
      split; [lia|]. assert (q == B * (q / B))%Q as Eq by (field; exact B_nz).
      split.
      * rewrite B_succ. rewrite Eq at 2. apply Qmult_le_l; [lra|exact P1].
      * rewrite <- Z.add_assoc, B_succ. rewrite Eq at 1. apply Qmult_lt_l; [lra|exact P2].
    + split; [lia|]. split; [simpl; exact H1|]. change (0 + 1)%Z with 1%Z. simpl.
      apply Qnot_le_lt. intros G. apply Qle_bool_iff in G. congruence.
Qed.

Lemma log_down_spec : forall fuel q, (0 < q)%Q -> (q < B)%Q -> (1 <= q * Qpower B (Z.of_nat fuel))%Q ->
  let e := log_down fuel b q in (Qpower B e <= q)%Q /\ (q < Qpower B (e + 1))%Q.
Proof.
  induction fuel as [|fuel IH]; intros q H0 Hq H1; cbn [log_down].
  - simpl in H1. split; [simpl; lra|]. change (0 + 1)%Z with 1%Z. simpl. exact Hq.
  - destruct (Qltb q 1) eqn:E.
    + apply Qltb_lt in E. pose proof B_ge2 as G. fold B.
      assert (0 < q * B)%Q as A0 by (apply Qmult_lt_0_compat; lra).
      assert (q * B < B)%Q as A1.
      { rewrite <- (Qmult_1_l B) at 2. apply Qmult_lt_r; lra. }
      assert (1 <= q * B * Qpower B (Z.of_nat fuel))%Q as A2.
      { rewrite Nat2Z.inj_succ, <- Z.add_1_l, B_succ in H1. rewrite <- Qmult_assoc. exact H1. }
      destruct (IH (q * B)%Q A0 A1 A2) as (P1 & P2). set (e := log_down fuel b (q * B)) in *.
      split.
      * apply (Qmult_le_r _ _ B); [lra|]. rewrite Qmult_comm, <- B_succ. replace (1 + (e - 1))%Z with e by lia. exact P1.
      * apply (Qmult_lt_r _ _ B); [lra|]. rewrite (Qmult_comm (Qpower B (e - 1 + 1))), <- B_succ.
        replace (1 + (e - 1 + 1))%Z with (e + 1)%Z by lia. exact P2.
    + apply Qltb_ge in E. split; [simpl; exact E|]. change (0 + 1)%Z with 1%Z. simpl. exact Hq.
Qed.

Lemma B_pow_ge2 : forall n, (Qpower 2 (Z.of_nat n) <= Qpower B (Z.of_nat n))%Q.
Proof.
  induction n as [|n IH]; [simpl; lra|]. rewrite Nat2Z.inj_succ, <- Z.add_1_l, B_succ, Qpower_plus by discriminate.
  pose proof B_ge2. pose proof (B_pos (Z.of_nat n)). assert (0 < Qpower 2 (Z.of_nat n))%Q by (apply Qpower_0_lt; lra).
  change (Qpower 2 1) with 2%Q. nra.
Qed.

Lemma pos_size : forall p, (Z.pos p < 2 ^ Z.of_nat (Pos.size_nat p))%Z.
Proof.
  induction p as [p IH|p IH|]; cbn [Pos.size_nat]; rewrite ?Nat2Z.inj_succ, ?Z.pow_succ_r by lia; try lia; reflexivity.
Qed.

Lemma pow2_Z : forall n, (Qpower 2 (Z.of_nat n) == inject_Z (2 ^ Z.of_nat n))%Q.
Proof.
  induction n as [|n IH]; [reflexivity|]. rewrite Nat2Z.inj_succ, <- Z.add_1_l, Qpower_plus by discriminate.
  rewrite Z.pow_add_r by lia. rewrite inject_Z_mult, IH. reflexivity.
Qed.

Lemma log_floor_spec : forall q, (0 < q)%Q ->
  let e := log_floor b q in (Qpower B e <= q)%Q /\ (q < Qpower B (e + 1))%Q.
Proof.
  intros q Hq. unfold log_floor. destruct (Qltb q 1) eqn:E.
  - apply Qltb_lt in E. apply log_down_spec; [exact Hq|pose proof B_ge2; lra|].
    apply Qle_trans with (q * Qpower 2 (Z.of_nat (size_Q q)))%Q.
    + assert (Z.pos (Qden q) <= 2 ^ Z.of_nat (size_Q q))%Z as L.
      { pose proof (pos_size (Qden q)). apply Z.le_trans with (2 ^ Z.of_nat (Pos.size_nat (Qden q)))%Z; [lia|].
        apply Z.pow_le_mono_r; [lia|]. unfold size_Q. lia. }
      rewrite pow2_Z. unfold Qlt in Hq. simpl in Hq. unfold Qle, Qmult. simpl. destruct q as [n d]; simpl in *. nia.
    + apply Qmult_le_l; [exact Hq|]. apply B_pow_ge2.
  - apply Qltb_ge in E. destruct (log_up_spec (size_Q q) q E) as (_ & P); [|exact P].
    eapply Qlt_le_trans; [|apply B_pow_ge2]. rewrite pow2_Z.
    assert (Qnum q < 2 ^ Z.of_nat (size_Q q))%Z as L.
    { destruct (Z.le_gt_cases (Qnum q) 0) as [G|G]; [apply Z.le_lt_trans with 0%Z; [exact G|apply Z.pow_pos_nonneg; lia]|].
      pose proof (Z.log2_spec (Qnum q) G) as [_ S]. eapply Z.lt_le_trans; [exact S|]. apply Z.pow_le_mono_r; [lia|].
      unfold size_Q. pose proof (Z.log2_nonneg (Qnum q)). lia. }
    unfold Qlt. destruct q as [n d]; simpl in *.
    assert (0 < 2 ^ Z.of_nat (size_Q (n # d)))%Z by (apply Z.pow_pos_nonneg; lia). nia.
Qed.
End Log.

(** * rounding *)
Lemma round_he_near : forall q, (Qabs (inject_Z (round_he q) - q) <= 1 # 2)%Q.
Proof.
  intros q. unfold round_he. pose proof (Qfloor_le q) as L. pose proof (Qlt_floor q) as U.
  rewrite inject_Z_plus in U. change (inject_Z 1) with 1%Q in U. set (f := Qfloor q) in *.
  apply Qabs_Qle_condition.
  destruct (Qltb (q - inject_Z f) (1 # 2)) eqn:E1; [apply Qltb_lt in E1; split; lra|]. apply Qltb_ge in E1.
  destruct (Qltb (1 # 2) (q - inject_Z f)) eqn:E2.
  - apply Qltb_lt in E2. rewrite inject_Z_plus. change (inject_Z 1) with 1%Q. split; lra.
  - apply Qltb_ge in E2. destruct (Z.even f); rewrite ?inject_Z_plus; change (inject_Z 1) with 1%Q; split; lra.
Qed.

Lemma round_he_comp : forall p q, (p == q)%Q -> round_he p = round_he q.
Proof.
  intros p q E. unfold round_he. rewrite <- (Qfloor_comp _ _ E).
  assert (forall a b c d : Q, (a == c)%Q -> (b == d)%Q -> Qltb a b = Qltb c d) as C.
  { intros a b c d H1 H2. destruct (Qltb a b) eqn:X; symmetry.
    - apply Qltb_lt in X. apply Qltb_lt. rewrite <- H1, <- H2. exact X.
    - apply Qltb_ge in X. apply Qltb_ge. rewrite <- H1, <- H2. exact X. }
  assert (p - inject_Z (Qfloor p) == q - inject_Z (Qfloor p))%Q as E2 by (apply Qplus_comp; [exact E|reflexivity]).
  rewrite (C _ _ _ _ E2 (Qeq_refl (1 # 2))). rewrite (C _ _ _ _ (Qeq_refl (1 # 2)) E2).
  reflexivity.
Qed.

Lemma round_he_Z : forall z, round_he (inject_Z z) = z.
Proof.
  intros z. unfold round_he. rewrite Qfloor_Z. assert (Qltb (inject_Z z - inject_Z z) (1 # 2) = true) as ->; [|reflexivity].
  apply Qltb_lt. lra.
Qed.

(** within integer bounds *)
Lemma round_he_bounds : forall q lo hi, (inject_Z lo <= q)%Q -> (q <= inject_Z hi)%Q -> (lo <= round_he q <= hi)%Z.
Proof.
  intros q lo hi H1 H2. pose proof (round_he_near q) as N. apply Qabs_Qle_condition in N. destruct N as [N1 N2].
  split.
  - assert (inject_Z (lo - 1) < inject_Z (round_he q))%Q as G.
    { unfold Z.sub. rewrite inject_Z_plus. change (inject_Z (- (1))) with (-1)%Q. lra. }
    rewrite <- Zlt_Qlt in G. lia.
  - assert (inject_Z (round_he q) < inject_Z (hi + 1))%Q as G.
    { rewrite inject_Z_plus. change (inject_Z 1) with 1%Q. lra. }
    rewrite <- Zlt_Qlt in G. lia.
Qed.

(** * digits *)
Lemma digit_facts : forall z, (0 <= z < 10)%Z -> is_digit (digit_of_Z z) = true /\ Z_of_digit (digit_of_Z z) = z.
Proof.
  intros z H. assert (z = 0 \/ z = 1 \/ z = 2 \/ z = 3 \/ z = 4 \/ z = 5 \/ z = 6 \/ z = 7 \/ z = 8 \/ z = 9)%Z as C by lia.
  repeat (destruct C as [->|C]; [split; reflexivity|]). subst. split; reflexivity.
Qed.
Lemma digits_len : forall w n, length (digits w n) = w.
Proof. induction w as [|w IH]; intros n; cbn [digits]; [reflexivity|]. rewrite app_length, IH. simpl. lia. Qed.
Lemma digits_all : forall w n, forallb is_digit (digits w n) = true.
Proof.
  induction w as [|w IH]; intros n; cbn [digits]; [reflexivity|]. rewrite forallb_app, IH. cbn [forallb].
  destruct (digit_facts (n mod 10)) as [-> _]; [apply Z.mod_pos_bound; lia|reflexivity].
Qed.
Lemma number_app : forall a b, number (a ++ b) = (number a * 10 ^ Z.of_nat (length b) + number b)%Z.
Proof.
  intros a b. unfold number. rewrite fold_left_app. generalize (fold_left (fun x c => (10 * x + Z_of_digit c)%Z) a 0%Z). intros x.
  revert x. induction b as [|c b IH]; intros x; cbn [fold_left length].
  - rewrite Z.pow_0_r. lia.
  - rewrite IH. rewrite (IH (10 * 0 + Z_of_digit c)%Z). rewrite Nat2Z.inj_succ, Z.pow_succ_r by lia. ring.
Qed.
Lemma number_digits : forall w n, (0 <= n < 10 ^ Z.of_nat w)%Z -> number (digits w n) = n.
Proof.
  induction w as [|w IH]; intros n H; cbn [digits].
  - change (10 ^ Z.of_nat 0)%Z with 1%Z in H. unfold number. cbn [fold_left]. lia.
  - rewrite Nat2Z.inj_succ, Z.pow_succ_r in H by lia. rewrite number_app, IH.
    + cbn [length]. change (10 ^ Z.of_nat 1)%Z with 10%Z. unfold number; cbn [fold_left].
      destruct (digit_facts (n mod 10)) as [_ ->]; [apply Z.mod_pos_bound; lia|]. pose proof (Z.div_mod n 10). lia.
    + split; [apply Z.div_pos; lia|apply Z.div_lt_upper_bound; lia].
Qed.

Lemma strip_zeros_app : forall s, exists k, s = strip_zeros s ++ repeat "0"%char k.
Proof.
  intros s. unfold strip_zeros, rstrip_if. assert (forall t, exists k, rev t = rev (lstrip_if (aeqb "0") t) ++ repeat "0"%char k) as G.
  { induction t as [|c t (k & IH)]; [exists 0%nat; reflexivity|]. cbn [lstrip_if rev]. destruct (aeqb "0" c) eqn:E.
    - apply aeqb_eq in E. subst c. exists (k + 1)%nat. rewrite IH at 1. rewrite repeat_app, app_assoc. reflexivity.
    - exists 0%nat. rewrite app_nil_r. reflexivity. }
  destruct (G (rev s)) as (k & E). exists k. rewrite <- E, rev_involutive. reflexivity.
Qed.
Lemma number_zeros : forall k, number (repeat "0"%char k) = 0%Z.
Proof.
  induction k as [|k IH]; [reflexivity|]. change (repeat "0"%char (S k)) with (["0"%char] ++ repeat "0"%char k).
  rewrite number_app, IH. reflexivity.
Qed.

(** the value of "a.b" *)
Definition dec_value (a b : str) : Q := (inject_Z (number (a ++ b)) * Qpower 10 (- Z.of_nat (length b)))%Q.
(** the text "a.b", or "a" *)
Definition dec_text (a b : str) : str := a ++ match b with [] => [] | _ => "."%char :: b end.

Lemma dec_value_zeros : forall a b k, (dec_value a (b ++ repeat "0"%char k) == dec_value a b)%Q.
Proof.
  intros a b k. unfold dec_value. rewrite app_assoc, number_app, number_zeros, Z.add_0_r, app_length, repeat_length.
  rewrite inject_Z_mult. rewrite Nat2Z.inj_add, Z.opp_add_distr, Qpower_plus by discriminate.
  assert (inject_Z (10 ^ Z.of_nat k) * Qpower 10 (- Z.of_nat k) == 1)%Q as E.
  { rewrite Zpower_Qpower by lia. rewrite <- Qpower_plus by discriminate. rewrite Z.add_opp_diag_r. reflexivity. }
  transitivity (inject_Z (number (a ++ b)) * Qpower 10 (- Z.of_nat (length b)) *
                (inject_Z (10 ^ Z.of_nat k) * Qpower 10 (- Z.of_nat k)))%Q; [ring|]. rewrite E. ring.
Qed.

(** with_point writes the number N / 10^(w-n) *)
Lemma with_point_ok : forall (n w : nat) N, (n <= w)%nat -> (0 < n)%nat -> (0 <= N < 10 ^ Z.of_nat w)%Z ->
  exists a b, with_point n (digits w N) = dec_text a b /\ a <> [] /\ forallb is_digit (a ++ b) = true /\
    (dec_value a b == inject_Z N * Qpower 10 (- Z.of_nat (w - n)))%Q.
Proof.
  intros n w N Hn H0 HN. set (ds := digits w N). exists (firstn n ds), (strip_zeros (skipn n ds)).
  split; [reflexivity|]. pose proof (digits_len w N) as L. fold ds in L.
  pose proof (digits_all w N) as D. fold ds in D. destruct (strip_zeros_app (skipn n ds)) as (k & E).
  split; [destruct ds; [simpl in L; lia|destruct n; [lia|discriminate]]|].
  split.
  - rewrite <- (firstn_skipn n ds), E in D. rewrite app_assoc, forallb_app in D. apply andb_true_iff in D. exact (proj1 D).
  - rewrite <- (dec_value_zeros _ _ k), <- E. unfold dec_value. rewrite firstn_skipn, skipn_length, L.
    unfold ds. rewrite number_digits by exact HN. reflexivity.
Qed.

(** * f"{q:g}" *)
Lemma pow_le : forall a b, (a <= b)%Z -> (Qpower 10 a <= Qpower 10 b)%Q.
Proof.
  intros a b H. replace b with (a + (b - a))%Z by lia. rewrite Qpower_plus by discriminate.
  assert (0 < Qpower 10 a)%Q by (apply Qpower_0_lt; lra).
  assert (1 <= Qpower 10 (b - a))%Q.
  { change 10%Q with (inject_Z 10). rewrite <- Zpower_Qpower by lia. change 1%Q with (inject_Z 1). rewrite <- Zle_Qle.
    pose proof (Z.pow_pos_nonneg 10 (b - a)). lia. }
  nra.
Qed.

(** what printing with [w] significant digits gives: exact on numbers with that many digits, else close *)
Definition good (w : nat) (r q : Q) : Prop :=
  (Qabs (r - q) <= (1 # 2) * Qpower 10 (1 - Z.of_nat w) * q)%Q /\
  ((exists n e, (Z.abs n < 10 ^ Z.of_nat w)%Z /\ (q == inject_Z n * Qpower 10 e)%Q) -> (r == q)%Q).

(** rounding q * 10^t when 10^(w-1) <= q * 10^t < 10^w *)
Lemma round_good : forall w t q, (1 <= Z.of_nat w)%Z -> (0 < q)%Q ->
  (inject_Z (10 ^ (Z.of_nat w - 1)) <= q * Qpower 10 t)%Q -> (q * Qpower 10 t < inject_Z (10 ^ Z.of_nat w))%Q ->
  let N := round_he (q * Qpower 10 t) in
  (10 ^ (Z.of_nat w - 1) <= N <= 10 ^ Z.of_nat w)%Z /\ good w (inject_Z N * Qpower 10 (- t)) q.
Proof.
  intros w t q Hw Hq Hl Hu N. set (y := (q * Qpower 10 t)%Q) in *.
  assert (0 < Qpower 10 t)%Q as Pt by (apply Qpower_0_lt; lra).
  assert (Qpower 10 t * Qpower 10 (- t) == 1)%Q as Inv.
  { rewrite <- Qpower_plus by discriminate. rewrite Z.add_opp_diag_r. reflexivity. }
  assert (0 < Qpower 10 (- t))%Q as Pmt by (apply Qpower_0_lt; lra).
  assert (q == y * Qpower 10 (- t))%Q as Eq.
  { unfold y. rewrite <- Qmult_assoc, Inv. ring. }
  assert (Qpower 10 (1 - Z.of_nat w) * inject_Z (10 ^ (Z.of_nat w - 1)) == 1)%Q as Iw.
  { rewrite Zpower_Qpower by lia. change (inject_Z 10) with 10%Q. rewrite <- Qpower_plus by discriminate.
    replace (1 - Z.of_nat w + (Z.of_nat w - 1))%Z with 0%Z by lia. reflexivity. }
  assert (0 < Qpower 10 (1 - Z.of_nat w))%Q as Pw by (apply Qpower_0_lt; lra).
  split; [apply round_he_bounds; [exact Hl|apply Qlt_le_weak; exact Hu]|]. split.
  - assert (inject_Z N * Qpower 10 (- t) - q == (inject_Z N - y) * Qpower 10 (- t))%Q as ->.
    { transitivity (inject_Z N * Qpower 10 (- t) - y * Qpower 10 (- t))%Q; [apply Qplus_comp; [reflexivity|apply Qopp_comp; exact Eq]|ring]. }
    rewrite Qabs_Qmult. rewrite (Qabs_pos (Qpower 10 (- t))) by lra.
    apply Qle_trans with ((1 # 2) * Qpower 10 (- t))%Q.
    + apply Qmult_le_compat_r; [apply round_he_near|lra].
    + apply Qle_trans with ((1 # 2) * Qpower 10 (1 - Z.of_nat w) * (y * Qpower 10 (- t)))%Q;
        [|apply Qle_lteq; right; apply Qmult_comp; [reflexivity|symmetry; exact Eq]].
      assert (1 <= Qpower 10 (1 - Z.of_nat w) * y)%Q as G.
      { rewrite <- Iw. apply Qmult_le_l; [exact Pw|exact Hl]. }
      assert ((1 # 2) * Qpower 10 (1 - Z.of_nat w) * (y * Qpower 10 (- t)) ==
              (1 # 2) * (Qpower 10 (1 - Z.of_nat w) * y) * Qpower 10 (- t))%Q as -> by ring.
      apply Qmult_le_compat_r; [lra|lra].
  - intros (n & e & Hn & En).
    assert (y == inject_Z n * Qpower 10 (e + t))%Q as Ey.
    { unfold y. rewrite En, Qpower_plus by discriminate. ring. }
    assert (0 <= e + t)%Z as Het.
    { destruct (Z.le_gt_cases 0 (e + t)) as [G|G]; [exact G|]. exfalso.
      assert (Qpower 10 (e + t) <= 1 # 10)%Q as P1.
      { apply Qle_trans with (Qpower 10 (-1)); [apply pow_le; lia|]. apply Qle_refl. }
      assert (0 < Qpower 10 (e + t))%Q as P0 by (apply Qpower_0_lt; lra).
      assert (inject_Z n <= inject_Z (10 ^ Z.of_nat w - 1))%Q as P2 by (rewrite <- Zle_Qle; lia).
      assert (10 ^ Z.of_nat w = 10 * 10 ^ (Z.of_nat w - 1))%Z as P3.
      { rewrite <- Z.pow_succ_r by lia. f_equal. lia. }
      unfold Z.sub in P2. rewrite P3, inject_Z_plus, inject_Z_mult in P2.
      change (inject_Z 10) with 10%Q in P2. change (inject_Z (- (1))) with (-1)%Q in P2.
      rewrite Ey in Hl.
      assert (0 < inject_Z (10 ^ (Z.of_nat w - 1)))%Q.
      { change 0%Q with (inject_Z 0). rewrite <- Zlt_Qlt. apply Z.pow_pos_nonneg; lia. }
      assert (0 < inject_Z n)%Q by nra. nra. }
    assert (y == inject_Z (n * 10 ^ (e + t)))%Q as Ez.
    { rewrite inject_Z_mult, Zpower_Qpower by exact Het. exact Ey. }
    unfold N. rewrite (round_he_comp _ _ Ez), round_he_Z, <- Ez. symmetry. exact Eq.
Qed.

Lemma fmt_g_at : forall (X : nat) q, (X <= 2)%nat -> (Qpower 10 (Z.of_nat X) <= q)%Q -> (q < Qpower 10 (Z.of_nat X + 1))%Q ->
  let N := round_he (q * inject_Z (10 ^ (5 - Z.of_nat X))) in
  exists a b, (if (N =? 1000000)%Z then with_point (X + 2) (digits 6 100000) else with_point (X + 1) (digits 6 N)) = dec_text a b /\
    a <> [] /\ forallb is_digit (a ++ b) = true /\ good 6 (dec_value a b) q.
Proof.
  intros X q HX Hl Hu N.
  assert (inject_Z (10 ^ (5 - Z.of_nat X)) == Qpower 10 (5 - Z.of_nat X))%Q as E10.
  { rewrite Zpower_Qpower by lia. reflexivity. }
  assert (0 < Qpower 10 (5 - Z.of_nat X))%Q as Pt by (apply Qpower_0_lt; lra).
  destruct (round_good 6 (5 - Z.of_nat X) q) as (B & G).
  - simpl. lia.
  - eapply Qlt_le_trans; [|exact Hl]. apply Qpower_0_lt. lra.
  - apply Qle_trans with (Qpower 10 (Z.of_nat X) * Qpower 10 (5 - Z.of_nat X))%Q.
    + rewrite <- Qpower_plus by discriminate. replace (Z.of_nat X + (5 - Z.of_nat X))%Z with 5%Z by lia. apply Qle_refl.
    + apply Qmult_le_compat_r; [exact Hl|lra].
  - apply Qlt_le_trans with (Qpower 10 (Z.of_nat X + 1) * Qpower 10 (5 - Z.of_nat X))%Q.
    + apply Qmult_lt_r; [exact Pt|exact Hu].
    + rewrite <- Qpower_plus by discriminate. replace (Z.of_nat X + 1 + (5 - Z.of_nat X))%Z with 6%Z by lia. apply Qle_refl.
  - assert (round_he (q * Qpower 10 (5 - Z.of_nat X)) = N) as EN.
    { apply round_he_comp. rewrite E10. reflexivity. }
    rewrite EN in B, G. change (Z.of_nat 6) with 6%Z in B. change (10 ^ (6 - 1))%Z with 100000%Z in B. change (10 ^ 6)%Z with 1000000%Z in B.
    destruct (Z.eqb_spec N 1000000) as [E|E].
    + destruct (with_point_ok (X + 2) 6 100000) as (a & b & T & A & D & V); [lia|lia|simpl; lia|].
      exists a, b. repeat split; try assumption.
      * eapply Qle_trans; [|exact (proj1 G)]. apply Qle_lteq. right. apply Qabs_wd. apply Qplus_comp; [|reflexivity].
        rewrite V, E. destruct X as [|[|[|X]]]; [reflexivity|reflexivity|reflexivity|lia].
      * intros S. rewrite <- (proj2 G S). rewrite V, E. destruct X as [|[|[|X]]]; [reflexivity|reflexivity|reflexivity|lia].
    + destruct (with_point_ok (X + 1) 6 N) as (a & b & T & A & D & V); [lia|lia|simpl; lia|].
      exists a, b. assert (dec_value a b == inject_Z N * Qpower 10 (- (5 - Z.of_nat X)))%Q as V'.
      { rewrite V. replace (- Z.of_nat (6 - (X + 1)))%Z with (- (5 - Z.of_nat X))%Z by lia. reflexivity. }
      repeat split; try assumption.
      * eapply Qle_trans; [|exact (proj1 G)]. apply Qle_lteq. right. apply Qabs_wd. apply Qplus_comp; [exact V'|reflexivity].
      * intros S. rewrite <- (proj2 G S). exact V'.
Qed.

Lemma fmt_g_ok : forall q, (1 <= q)%Q -> (q < 1000)%Q ->
  exists a b, fmt_g q = dec_text a b /\ a <> [] /\ forallb is_digit (a ++ b) = true /\ good 6 (dec_value a b) q.
Proof.
  intros q H1 H2. unfold fmt_g. destruct (Qltb q 10) eqn:E1; [|destruct (Qltb q 100) eqn:E2].
  - apply Qltb_lt in E1. apply (fmt_g_at 0 q); [lia|exact H1|exact E1].
  - apply Qltb_ge in E1. apply Qltb_lt in E2. apply (fmt_g_at 1 q); [lia|exact E1|exact E2].
  - apply Qltb_ge in E1, E2. apply (fmt_g_at 2 q); [lia|exact E2|exact H2].
Qed.

(** * reading back *)
Definition stops (f : ascii -> bool) (s : str) : Prop := match s with c :: _ => f c = false | [] => True end.
Lemma span_app : forall f u s, forallb f u = true -> stops f s -> span f (u ++ s) = (u, s).
Proof.
  intros f u s. induction u as [|c u IH]; cbn [app span forallb]; intros H Hs.
  - destruct s as [|c s]; [reflexivity|]. cbn [span]. simpl in Hs. rewrite Hs. reflexivity.
  - apply andb_true_iff in H. destruct H as [Hc H]. rewrite Hc, (IH H Hs). reflexivity.
Qed.

Lemma digit_cases : forall c, is_digit c = true -> In c (s2l "0123456789").
Proof.
  intros c H. unfold is_digit in H. apply andb_true_iff in H. destruct H as [H1 H2]. apply Nat.leb_le in H1, H2.
  unfold code in *. rewrite <- (ascii_nat_embedding c). set (n := nat_of_ascii c) in *. clearbody n.
  do 48 (destruct n as [|n]; [lia|]). do 10 (destruct n as [|n]; [vm_compute; tauto|]). lia.
Qed.

Lemma signed_digit : forall c s, is_digit c = true -> signed (c :: s) = (false, c :: s).
Proof.
  intros c s H. apply digit_cases in H. repeat (destruct H as [<-|H]; [reflexivity|]). destruct H.
Qed.

Definition sg (neg : bool) : str := if neg then ["-"%char] else [].
Definition sgn (neg : bool) (q : Q) : Q := if neg then (- q)%Q else q.

Lemma not_digit_point : is_digit "." = false. Proof. reflexivity. Qed.

(** float(text) of sign, digits, point, digits, exponent *)
Lemma pyfloat_dec : forall neg a b tail, a <> [] -> forallb is_digit (a ++ b) = true ->
  stops is_digit tail -> stops (aeqb ".") tail ->
  pyfloat (sg neg ++ dec_text a b ++ tail) =
  match tail with
  | [] => Some (sgn neg (dec_value a b))
  | e :: r3 =>
      if aeqb (upper_c e) "E" then
        let '(eneg, r4) := signed r3 in
        let '(x, r5) := span is_digit r4 in
        match x, r5 with
        | _ :: _, [] => Some (sgn neg (dec_value a b) * Qpower 10 (if eneg then - number x else number x))%Q
        | _, _ => None
        end
      else None
  end.
Proof.
  intros neg a b tail Ha Hd Ht Hp. rewrite forallb_app in Hd. apply andb_true_iff in Hd. destruct Hd as [Da Db].
  unfold pyfloat.
  assert (signed (sg neg ++ dec_text a b ++ tail) = (neg, dec_text a b ++ tail)) as ->.
  { destruct neg; [reflexivity|]. destruct a as [|c a]; [contradiction|]. 
    cbn [forallb] in Da. apply andb_true_iff in Da. unfold dec_text, sg. cbn [app]. apply signed_digit. exact (proj1 Da). }
  unfold dec_text. rewrite <- app_assoc. rewrite span_app; [|exact Da|].
  2:{ destruct b; [exact Ht|reflexivity]. }
  assert (a ++ b <> []) as Hn by (destruct a; [contradiction|discriminate]). cbv beta iota.
  assert (fraction (match b with [] => [] | _ => "."%char :: b end ++ tail) = (b, tail)) as ->.
  { destruct b as [|c b].
    - cbn [app]. destruct tail as [|t tail]; [reflexivity|]. simpl in Hp. unfold fraction.
      rewrite (proj2 (aeqb_neq t ".")); [reflexivity|]. intros ->. discriminate.
    - rewrite <- app_comm_cons. cbn [fraction]. change (aeqb "." ".") with true. cbv iota. apply span_app; [exact Db|exact Ht]. }
  destruct (a ++ b) as [|c l] eqn:E; [contradiction|]. unfold dec_value. rewrite E. destruct neg; reflexivity.
Qed.

Lemma numchars_digits : forall u, forallb is_digit u = true -> forallb (fun c => mem_c c (s2l "0123456789.+-")) u = true.
Proof.
  intros u H. rewrite forallb_forall in H |- *. intros c Hc. specialize (H c Hc). apply digit_cases in H.
  apply mem_c_In. change (s2l "0123456789.+-") with (s2l "0123456789" ++ s2l ".+-"). apply in_or_app. left. exact H.
Qed.
Lemma numchars_text : forall neg a b, forallb is_digit (a ++ b) = true ->
  forallb (fun c => mem_c c (s2l "0123456789.+-")) (sg neg ++ dec_text a b) = true.
Proof.
  intros neg a b H. rewrite forallb_app in H. apply andb_true_iff in H. destruct H as [Ha Hb].
  unfold dec_text. rewrite !forallb_app. apply andb_true_iff. split; [destruct neg; reflexivity|].
  apply andb_true_iff. split; [apply numchars_digits; exact Ha|]. destruct b; [reflexivity|].
  cbn [forallb]. apply andb_true_iff. split; [reflexivity|]. exact (numchars_digits _ Hb).
Qed.
Lemma not_space_numchar : forall c, mem_c c (s2l "0123456789.+-") = true -> is_space c = false.
Proof. intros c H. apply mem_c_In in H. repeat (destruct H as [<-|H]; [reflexivity|]). destruct H. Qed.

Lemma strip_id : forall s, stops is_space s -> stops is_space (rev s) -> strip s = s.
Proof.
  intros s H1 H2. unfold strip, strip_if, rstrip_if. assert (lstrip_if is_space s = s) as ->.
  { destruct s as [|c s]; [reflexivity|]. cbn [lstrip_if]. simpl in H1. rewrite H1. reflexivity. }
  assert (lstrip_if is_space (rev s) = rev s) as ->; [|apply rev_involutive].
  destruct (rev s) as [|c t]; [reflexivity|]. cbn [lstrip_if]. simpl in H2. rewrite H2. reflexivity.
Qed.

(** a number followed by one of the suffixes format_eng writes *)
Definition suffixes : list (str * Z) :=
  [([], 0); (s2l "f", -15); (s2l "p", -12); (s2l "n", -9); (s2l "u", -6); (s2l "m", -3);
   (s2l "k", 3); (s2l "Meg", 6); (s2l "g", 9); (s2l "t", 12)]%Z.

Lemma parse_suffix : forall neg a b x e, a <> [] -> forallb is_digit (a ++ b) = true -> In (x, e) suffixes ->
  exists r, parse_value (sg neg ++ dec_text a b ++ x) = Some (r, []) /\ (r == sgn neg (dec_value a b) * Qpower 10 e)%Q.
Proof.
  intros neg a b x e Ha Hd Hx. pose proof (numchars_text neg a b Hd) as Hn.
  assert (strip (sg neg ++ dec_text a b ++ x) = sg neg ++ dec_text a b ++ x) as Hst.
  { apply strip_id.
    - destruct (sg neg ++ dec_text a b) as [|c t] eqn:E.
      + exfalso. destruct neg; [discriminate|]. destruct a; [contradiction|discriminate].
      + rewrite app_assoc, E. cbn [app]. simpl. cbn [forallb] in Hn. apply andb_true_iff in Hn. apply not_space_numchar. exact (proj1 Hn).
    - rewrite app_assoc, rev_app_distr. destruct (rev (sg neg ++ dec_text a b)) as [|c t] eqn:E.
      + exfalso. apply (f_equal (@rev ascii)) in E. rewrite rev_involutive in E. destruct neg; [discriminate|]. destruct a; [contradiction|discriminate].
      + assert (In c (sg neg ++ dec_text a b)) as Hc by (apply in_rev; rewrite E; left; reflexivity).
        rewrite forallb_forall in Hn. specialize (Hn c Hc). apply not_space_numchar in Hn.
        repeat (destruct Hx as [Hx|Hx]; [injection Hx as <- <-; (exact Hn || reflexivity)|]). destruct Hx. }
  unfold parse_value. rewrite Hst.
  assert (span (fun c => mem_c c (s2l "0123456789.+-")) (sg neg ++ dec_text a b ++ x) = (sg neg ++ dec_text a b, x)) as ->.
  { rewrite app_assoc. apply span_app; [exact Hn|].
    repeat (destruct Hx as [Hx|Hx]; [injection Hx as <- <-; (exact I || reflexivity)|]). destruct Hx. }
  assert (pyfloat (sg neg ++ dec_text a b) = Some (sgn neg (dec_value a b))) as Hf.
  { pose proof (pyfloat_dec neg a b [] Ha Hd I I) as P. rewrite app_nil_r in P. exact P. }
  destruct (sg neg ++ dec_text a b) as [|c0 t0] eqn:E.
  { exfalso. destruct neg; [discriminate|]. destruct a; [contradiction|discriminate]. }
  destruct Hx as [Hx|Hx].
  { injection Hx as <- <-. rewrite Hf. eexists. split; [reflexivity|]. change (Qpower 10 0) with 1%Q. ring. }
  repeat (destruct Hx as [Hx|Hx]; [injection Hx as <- <-; cbv -[pyfloat Qmult Qpower sgn dec_value app Qeq]; rewrite Hf;
    eexists; split; [reflexivity|reflexivity]|]). destruct Hx.
Qed.

Lemma undec_number : forall s acc n, undec_aux s acc = Some n ->
  forallb is_digit s = true /\ fold_left (fun a c => 10 * a + Z_of_digit c)%Z s (Z.of_nat acc) = Z.of_nat n.
Proof.
  induction s as [|c s IH]; intros acc n H; cbn [undec_aux forallb fold_left] in *.
  - injection H as <-. split; reflexivity.
  - destruct (is_digit c) eqn:E; [|discriminate]. destruct (IH _ _ H) as [D F]. split; [exact D|]. rewrite <- F. f_equal.
    unfold Z_of_digit. unfold is_digit in E. apply andb_true_iff in E. destruct E as [E _]. apply Nat.leb_le in E. lia.
Qed.
Lemma dec_digits : forall n, forallb is_digit (dec n) = true /\ number (dec n) = Z.of_nat n /\ dec n <> [].
Proof.
  intros n. pose proof (undec_dec n) as H. pose proof (dec_not_nil n) as N. unfold undec in H.
  destruct (dec n) as [|c t] eqn:E; [contradiction|]. destruct (undec_number _ _ _ H) as [D F]. repeat split; [exact D|exact F|exact N].
Qed.

Lemma fmt_E_ok : forall neg q, (0 < q)%Q -> exists r, parse_value (sg neg ++ fmt_E q) = Some (r, []) /\
  exists r', (r == sgn neg r')%Q /\ good 7 r' q.
Proof.
  intros neg q Hq. unfold fmt_E. destruct (log_floor_spec 10 ltac:(lia) q Hq) as (Hl & Hu).
  set (D0 := log_floor 10 q) in *. change (inject_Z 10) with 10%Q in Hl, Hu.
  assert (0 < Qpower 10 (6 - D0))%Q as Pt by (apply Qpower_0_lt; lra).
  destruct (round_good 7 (6 - D0) q) as (B & G).
  - simpl. lia.
  - exact Hq.
  - apply Qle_trans with (Qpower 10 D0 * Qpower 10 (6 - D0))%Q.
    + rewrite <- Qpower_plus by discriminate. replace (D0 + (6 - D0))%Z with 6%Z by lia. apply Qle_refl.
    + apply Qmult_le_compat_r; [exact Hl|lra].
  - apply Qlt_le_trans with (Qpower 10 (D0 + 1) * Qpower 10 (6 - D0))%Q.
    + apply Qmult_lt_r; [exact Pt|exact Hu].
    + rewrite <- Qpower_plus by discriminate. replace (D0 + 1 + (6 - D0))%Z with 7%Z by lia. apply Qle_refl.
  - set (N0 := round_he (q * Qpower 10 (6 - D0))) in *.
    change (Z.of_nat 7) with 7%Z in B. change (10 ^ (7 - 1))%Z with 1000000%Z in B. change (10 ^ 7)%Z with 10000000%Z in B.
    set (ND := if (N0 =? 10000000)%Z then (1000000%Z, (D0 + 1)%Z) else (N0, D0)).
    assert (exists N D, ND = (N, D) /\ (1000000 <= N < 10000000)%Z /\
      (inject_Z N * Qpower 10 (-6) * Qpower 10 D == inject_Z N0 * Qpower 10 (- (6 - D0)))%Q) as (N & D & END & BN & EV).
    { unfold ND. destruct (Z.eqb_spec N0 10000000) as [E|E].
      - exists 1000000%Z, (D0 + 1)%Z. split; [reflexivity|]. split; [lia|]. rewrite E.
        replace (- (6 - D0))%Z with (-7 + (D0 + 1))%Z by lia. rewrite (Qpower_plus _ (-7)) by discriminate.
        rewrite Qmult_assoc. apply Qmult_comp; reflexivity.
      - exists N0, D0. split; [reflexivity|]. split; [lia|]. replace (- (6 - D0))%Z with (-6 + D0)%Z by lia.
        rewrite Qpower_plus by discriminate. rewrite Qmult_assoc. reflexivity. }
    rewrite END. set (ds := digits 7 N). set (a := firstn 1 ds). set (b := skipn 1 ds).
    assert (length ds = 7%nat) as Ld by apply digits_len.
    assert (a ++ b = ds) as Eab by apply firstn_skipn.
    assert (forallb is_digit (a ++ b) = true) as Hd by (rewrite Eab; apply digits_all).
    assert (a <> []) as Ha by (unfold a; destruct ds; [discriminate Ld|discriminate]).
    assert (length b = 6%nat) as Lb by (unfold b; rewrite skipn_length; lia).
    assert (b <> []) as Hb by (destruct b; [discriminate Lb|discriminate]).
    set (dn := dec (Z.abs_nat D)). set (ex := match dn with [_] => "0"%char :: dn | _ => dn end).
    set (sc := if (D <? 0)%Z then "-"%char else "+"%char).
    destruct (dec_digits (Z.abs_nat D)) as (Dd & Dn & Dz). fold dn in Dd, Dn, Dz.
    assert (forallb is_digit ex = true /\ number ex = Z.abs D /\ ex <> []) as (Xd & Xn & Xz).
    { unfold ex. rewrite Zabs2Nat.id_abs in Dn. destruct dn as [|c [|c' l]]; [contradiction| |].
      - repeat split; [exact Dd|exact Dn|discriminate].
      - repeat split; [exact Dd|exact Dn|discriminate]. }
    assert (a ++ ["."%char] ++ b ++ ["E"%char; sc] ++ ex = dec_text a b ++ "E"%char :: sc :: ex) as ET.
    { unfold dec_text. destruct b; [contradiction|]. rewrite <- app_assoc. reflexivity. }
    change (exists r, parse_value (sg neg ++ (a ++ ["."%char] ++ b ++ ["E"%char; sc] ++ ex)) = Some (r, []) /\ exists r', (r == sgn neg r')%Q /\ good 7 r' q).
    rewrite ET.
    assert (pyfloat (sg neg ++ dec_text a b ++ "E"%char :: sc :: ex) = Some (sgn neg (dec_value a b) * Qpower 10 D)%Q) as Hf.
    { rewrite pyfloat_dec; [|exact Ha|exact Hd|reflexivity|reflexivity].
      change (aeqb (upper_c "E") "E") with true. cbv iota.
      assert (signed (sc :: ex) = ((D <? 0)%Z, ex)) as -> by (unfold sc; destruct (D <? 0)%Z; reflexivity).
      pose proof (span_app is_digit ex [] Xd I) as Sp. rewrite app_nil_r in Sp. rewrite Sp.
      destruct ex as [|x0 ex0]; [contradiction|]. rewrite Xn. f_equal. f_equal. f_equal.
      destruct (Z.ltb_spec D 0); lia. }
    pose proof (numchars_text neg a b Hd) as Hn.
    assert (sg neg ++ dec_text a b <> []) as Hne by (destruct neg; [discriminate|]; destruct a; [contradiction|discriminate]).
    assert (strip (sg neg ++ dec_text a b ++ "E"%char :: sc :: ex) = sg neg ++ dec_text a b ++ "E"%char :: sc :: ex) as Hst.
    { apply strip_id.
      - rewrite app_assoc. destruct (sg neg ++ dec_text a b) as [|c t]; [contradiction|]. simpl.
        cbn [forallb] in Hn. apply andb_true_iff in Hn. apply not_space_numchar. exact (proj1 Hn).
      - rewrite app_assoc, rev_app_distr. change ("E"%char :: sc :: ex) with (["E"%char; sc] ++ ex). rewrite rev_app_distr.
        destruct (rev ex) as [|c t] eqn:Er.
        + exfalso. apply Xz. rewrite <- (rev_involutive ex), Er. reflexivity.
        + simpl. assert (In c ex) as Hc by (apply in_rev; rewrite Er; left; reflexivity).
          rewrite forallb_forall in Xd. specialize (Xd c Hc). apply digit_cases in Xd.
          repeat (destruct Xd as [<-|Xd]; [reflexivity|]). destruct Xd. }
    unfold parse_value. rewrite Hst, app_assoc, span_app; [|exact Hn|reflexivity].
    rewrite app_assoc in Hf.
    destruct (sg neg ++ dec_text a b) as [|c0 t0] eqn:E0; [contradiction|].
    cbv beta iota. change (aeqb (upper_c "E") "E") with true. cbv iota.
    assert (span (fun c => mem_c c (s2l "0123456789E+-")) (sc :: ex) = (sc :: ex, [])) as ->.
    { rewrite <- (app_nil_r (sc :: ex)) at 1. apply span_app; [|exact I]. cbn [forallb]. apply andb_true_iff.
      split; [unfold sc; destruct (D <? 0)%Z; reflexivity|]. rewrite forallb_forall in Xd |- *. intros c Hc. specialize (Xd c Hc).
      apply digit_cases in Xd. apply mem_c_In. change (s2l "0123456789E+-") with (s2l "0123456789" ++ s2l "E+-"). apply in_or_app. left. exact Xd. }
    rewrite Hf. eexists. split; [reflexivity|].
    exists (inject_Z N0 * Qpower 10 (- (6 - D0)))%Q. split; [|exact G].
    assert (dec_value a b == inject_Z N * Qpower 10 (-6))%Q as Ev.
    { unfold dec_value. rewrite Eab, Lb. unfold ds. rewrite number_digits by (simpl; lia). reflexivity. }
    destruct neg; cbn [sgn]; rewrite Ev, <- EV; ring.
Qed.

Lemma Qabs_nz_pos : forall v, ~ (v == 0)%Q -> (0 < Qabs v)%Q.
Proof.
  intros v H. destruct (Qlt_le_dec 0 v) as [G|G].
  - rewrite Qabs_pos by lra. exact G.
  - rewrite Qabs_neg by exact G. destruct (Qlt_le_dec v 0) as [G'|G']; [lra|]. exfalso. apply H. apply Qle_antisym; assumption.
Qed.

Lemma sgn_abs : forall v, (sgn (Qltb v 0) (Qabs v) == v)%Q.
Proof.
  intros v. destruct (Qltb v 0) eqn:E; cbn [sgn].
  - apply Qltb_lt in E. rewrite Qabs_neg by lra. ring.
  - apply Qltb_ge in E. rewrite Qabs_pos by exact E. reflexivity.
Qed.

(** from the magnitude to the signed value; [k] is the power of ten of the suffix *)
Lemma good_close : forall (w : nat) v r' r q k, (6 <= Z.of_nat w)%Z -> ~ (v == 0)%Q -> good w r' q ->
  (Qabs v == q * Qpower 10 k)%Q -> (r == sgn (Qltb v 0) r' * Qpower 10 k)%Q ->
  close r v /\ (six_digits v -> (r == v)%Q).
Proof.
  intros w v r' r q k Hw Hv (G1 & G2) Eq Er.
  assert (0 < Qpower 10 k)%Q as Pk by (apply Qpower_0_lt; lra).
  assert (v == sgn (Qltb v 0) q * Qpower 10 k)%Q as Ev.
  { rewrite <- (sgn_abs v) at 1. destruct (Qltb v 0); cbn [sgn]; rewrite Eq; ring. }
  split.
  - unfold close. assert (Qabs (r - v) == Qabs (r' - q) * Qpower 10 k)%Q as ->.
    { assert (r - v == sgn (Qltb v 0) (r' - q) * Qpower 10 k)%Q as ->.
      { rewrite Er. transitivity (sgn (Qltb v 0) r' * Qpower 10 k - sgn (Qltb v 0) q * Qpower 10 k)%Q;
          [apply Qplus_comp; [reflexivity|apply Qopp_comp; exact Ev]|destruct (Qltb v 0); cbn [sgn]; ring]. }
      rewrite Qabs_Qmult, (Qabs_pos (Qpower 10 k)) by lra. destruct (Qltb v 0); cbn [sgn]; [rewrite Qabs_opp|]; reflexivity. }
    rewrite Eq. rewrite Qmult_assoc. apply Qmult_le_compat_r; [|lra].
    eapply Qle_trans; [exact G1|].
    assert (Qpower 10 (1 - Z.of_nat w) <= Qpower 10 (-5))%Q as P by (apply pow_le; lia).
    change (Qpower 10 (-5)) with (1 # 100000)%Q in P.
    assert (0 < q)%Q by (pose proof (Qabs_nz_pos v Hv); nra). nra.
  - intros (n & e & Hn & En). eapply Qeq_trans; [exact Er|]. apply Qeq_sym. eapply Qeq_trans; [exact Ev|].
    apply Qmult_comp; [|reflexivity].
    assert (r' == q)%Q as F; [|destruct (Qltb v 0); cbn [sgn]; rewrite F; reflexivity]. apply G2.
    exists (Z.abs n), (e - k)%Z. split.
    + rewrite Z.abs_involutive. eapply Z.lt_le_trans; [exact Hn|]. change 1000000%Z with (10 ^ 6)%Z. apply Z.pow_le_mono_r; lia.
    + assert (Qpower 10 k * Qpower 10 (- k) == 1)%Q as Inv.
      { rewrite <- Qpower_plus by discriminate. rewrite Z.add_opp_diag_r. reflexivity. }
      assert (q == Qabs v * Qpower 10 (- k))%Q as -> by (rewrite Eq, <- Qmult_assoc, Inv; ring).
      rewrite En, Qabs_Qmult, (Qabs_pos (Qpower 10 e)) by (apply Qlt_le_weak, Qpower_0_lt; lra).
      unfold Z.sub. rewrite Qpower_plus by discriminate.
      assert (Qabs (inject_Z n) == inject_Z (Z.abs n))%Q as -> by reflexivity. ring.
Qed.

Lemma pow1000 : forall e, (Qpower 1000 e == Qpower 10 (3 * e))%Q.
Proof. intros e. rewrite Qpower_mult. reflexivity. Qed.

Theorem format_parse : forall v, exists r, parse_value (format_eng v) = Some (r, []) /\ close r v /\ (six_digits v -> (r == v)%Q).
Proof.
  intros v. unfold format_eng. destruct (Qeq_bool v 0) eqn:E0.
  { apply Qeq_bool_iff in E0. exists 0%Q. split; [reflexivity|]. split; [|intros _; symmetry; exact E0].
    unfold close. rewrite E0. vm_compute. discriminate. }
  assert (~ (v == 0)%Q) as Hv by (intros G; apply Qeq_bool_iff in G; congruence).
  pose proof (Qabs_nz_pos v Hv) as Ha. set (a := Qabs v) in *. cbv zeta.
  destruct (log_floor_spec 1000 ltac:(lia) a Ha) as (Hl & Hu). set (e := log_floor 1000 a) in *.
  change (inject_Z 1000) with 1000%Q in Hl, Hu.
  fold (sg (Qltb v 0)). clearbody e.
  assert (forall x k, In (x, k) suffixes -> k = (3 * e)%Z ->
    exists r, parse_value (sg (Qltb v 0) ++ fmt_g (a * Qpower 1000 (- e)) ++ x) = Some (r, []) /\ close r v /\ (six_digits v -> (r == v)%Q)) as S.
  { intros x k Hx Hk. set (q := (a * Qpower 1000 (- e))%Q).
    assert (0 < Qpower 1000 (- e))%Q as Pe by (apply Qpower_0_lt; lra).
    assert (Qpower 1000 e * Qpower 1000 (- e) == 1)%Q as Inv.
    { rewrite <- Qpower_plus by discriminate. rewrite Z.add_opp_diag_r. reflexivity. }
    assert (1 <= q)%Q as H1.
    { unfold q. rewrite <- Inv. apply Qmult_le_compat_r; [exact Hl|lra]. }
    assert (q < 1000)%Q as H2.
    { unfold q. apply Qlt_le_trans with (Qpower 1000 (e + 1) * Qpower 1000 (- e))%Q; [apply Qmult_lt_r; assumption|].
      rewrite <- Qpower_plus by discriminate. replace (e + 1 + - e)%Z with 1%Z by lia. apply Qle_refl. }
    destruct (fmt_g_ok q H1 H2) as (u & w & Et & Hne & Hd & G). rewrite Et.
    destruct (parse_suffix (Qltb v 0) u w x k Hne Hd Hx) as (r & Ep & Er). exists r. split; [exact Ep|].
    apply (good_close 6 v (dec_value u w) r q k); [simpl; lia|exact Hv|exact G| |exact Er].
    unfold q. rewrite Hk, <- pow1000, <- Qmult_assoc, (Qmult_comm _ (Qpower 1000 e)), Inv. fold a. ring. }
  assert (exists r, parse_value (sg (Qltb v 0) ++ fmt_E a) = Some (r, []) /\ close r v /\ (six_digits v -> (r == v)%Q)) as SE.
  { destruct (fmt_E_ok (Qltb v 0) a Ha) as (r & Ep & r' & Er & G). exists r. split; [exact Ep|].
    apply (good_close 7 v r' r a 0); [simpl; lia|exact Hv|exact G|fold a; change (Qpower 10 0) with 1%Q; ring|].
    rewrite Er. change (Qpower 10 0) with 1%Q. ring. }
  repeat match goal with
  | |- context [(e =? ?z)%Z] => destruct (Z.eqb_spec e z) as [E|_]; [eapply S; [simpl; tauto|lia]|]
  end.
  exact SE.
Qed.
