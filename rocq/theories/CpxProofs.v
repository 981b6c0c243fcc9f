From Coq Require Import String Ascii List Bool Arith ZArith QArith Qreals Reals Lra Lia.
From Verif Require Import PyStr StepsModel EngModel EngProofs QTagModel PinModel PinProofs CpxModel CpxSpec.
Import ListNotations.
Local Open Scope string_scope. Local Open Scope nat_scope. Local Open Scope list_scope.

(** ** Numerals *)
Lemma signed_e : forall n e, e <> [] -> forallb is_digit e = true -> signed ((if n : bool then "-"%char else "+"%char) :: e) = (n, e).
Proof. intros [] e _ _; reflexivity. Qed.
Lemma show_value : forall x, good_numeral x -> exists q, pyfloat (show x) = Some q /\ Q2R q = value_of x.
Proof.
  intros [n a b ex] (A & B & C & D). unfold show, value_of. cbn [neg whole frac expo] in *. set (tail := match ex with Some (n0, e) => "e"%char :: (if n0 then "-"%char else "+"%char) :: e | None => [] end).
  pose proof (pyfloat_dec n a b tail A ltac:(rewrite forallb_app, B, C; reflexivity) ltac:(unfold tail; destruct ex as [[? ?]|]; cbn; auto) ltac:(unfold tail; destruct ex as [[? ?]|]; cbn; auto)) as P.
  unfold sg, dec_text in P. rewrite <- app_assoc in P. unfold tail in *. destruct ex as [(n0, e)|].
  - change (aeqb (upper_c "e") "E") with true in P. cbv iota in P. destruct D as (D1 & D2). rewrite (signed_e n0 e D1 D2) in P. pose proof (span_app is_digit e [] D2 I) as S. rewrite app_nil_r in S. rewrite S in P. destruct e as [|c e]; [contradiction|]. eexists. split; [exact P|]. unfold sgn, dec_value. destruct n; reflexivity.
  - eexists. split; [exact P|]. apply Qeq_eqR. unfold sgn, dec_value. destruct n; rewrite Qmult_1_r; reflexivity.
Qed.
Definition numchar (c : ascii) : bool := is_digit c || mem_c c (s2l "+-.e").
Lemma show_chars : forall x, good_numeral x -> forallb numchar (show x) = true.
Proof.
  intros [n a b ex] (A & B & C & D). unfold show. cbn [neg whole frac expo] in *. assert (K : forall s, forallb is_digit s = true -> forallb numchar s = true).
  { intros s H. rewrite forallb_forall in *. intros c I. unfold numchar. rewrite (H c I). reflexivity. }
  rewrite !forallb_app, (K a B). assert (K' : forallb numchar (match b with [] => [] | b0 => "."%char :: b0 end) = true) by (destruct b as [|c b]; [reflexivity|]; cbn [forallb]; change (numchar "."%char) with true; apply (K (c :: b)); exact C).
  assert (K'' : forallb numchar (match ex with Some (n0, e) => "e"%char :: (if n0 then "-"%char else "+"%char) :: e | None => [] end) = true) by (destruct ex as [(n0, e)|]; [|reflexivity]; destruct n0; cbn [forallb]; exact (K e (proj2 D))).
  rewrite K', K''. destruct n; reflexivity.
Qed.
Lemma numchar_not : forall c, numchar c = true -> is_space c = false /\ aeqb c "," = false /\ aeqb c ")" = false /\ aeqb c "(" = false /\ aeqb c "d" = false /\ aeqb c degree = false /\ aeqb c line_feed = false.
Proof.
  intros c H. assert (I : In c (s2l "0123456789+-.e")).
  { unfold numchar in H. apply orb_true_iff in H. destruct H as [H|H]; [apply digit_cases in H|apply mem_c_In in H]; change (s2l "0123456789+-.e") with (s2l "0123456789" ++ s2l "+-.e"); apply in_or_app; tauto. }
  vm_compute in I. repeat (destruct I as [<- |I]; [vm_compute; auto 10|]). destruct I.
Qed.
Lemma show_nonempty : forall x, good_numeral x -> show x <> [].
Proof. intros [n a b ex] (A & _). unfold show. cbn [neg whole]. destruct n; [discriminate|]. destruct a; [contradiction|discriminate]. Qed.
Lemma stops_num : forall s, forallb numchar s = true -> stops is_space s.
Proof. intros [|c s] H; [exact I|]. cbn [forallb] in H. apply andb_true_iff in H. exact (proj1 (numchar_not c (proj1 H))). Qed.
Lemma strip_num : forall s, forallb numchar s = true -> strip s = s.
Proof.
  intros s H. apply strip_id; apply stops_num; [exact H|]. rewrite forallb_forall in *. intros c I. apply H. apply in_rev. exact I.
Qed.
Lemma float_show : forall x, good_numeral x -> py_float (show x) = Some (value_of x).
Proof. intros x G. unfold py_float. rewrite (strip_num _ (show_chars x G)). destruct (show_value x G) as (q & -> & E). cbn [option_map]. rewrite E. reflexivity. Qed.
Lemma mag_num : forall s, forallb numchar s = true -> forall t, mag_part (s ++ s2l "dB," ++ t) = Some (s, true, t) /\ mag_part (s ++ ","%char :: t) = Some (s, false, t).
Proof.
  induction s as [|c s IH]; intros H t; [split; [reflexivity|]; cbn [app mag_part]; reflexivity|]. cbn [forallb] in H. apply andb_true_iff in H. destruct H as (H1 & H2). destruct (numchar_not c H1) as (_ & A & _ & _ & B & _ & C). destruct (IH H2 t) as (I1 & I2).
  assert (N : forall r, startswith (s2l "dB,") (c :: r) = false).
  { intros r. change (s2l "dB,") with ["d"%char; "B"%char; ","%char]. cbn [startswith]. destruct (aeqb "d" c) eqn:E; [apply aeqb_eq in E; subst c; rewrite aeqb_refl in B; discriminate B|reflexivity]. }
  split; cbn [app mag_part]; rewrite N, A, C; [rewrite I1|rewrite I2]; reflexivity.
Qed.
Lemma ph_num : forall s, forallb numchar s = true -> forall t, ph_part (s ++ degree :: ")"%char :: t) = Some (s, true) /\ ph_part (s ++ ")"%char :: t) = Some (s, false).
Proof.
  induction s as [|c s IH]; intros H t; [split; [cbn [app ph_part startswith]; rewrite !aeqb_refl; reflexivity|cbn [app ph_part]; reflexivity]|]. cbn [forallb] in H. apply andb_true_iff in H. destruct H as (H1 & H2). destruct (numchar_not c H1) as (_ & _ & A & _ & _ & B & C). destruct (IH H2 t) as (I1 & I2).
  assert (N : forall r, startswith [degree; ")"%char] (c :: r) = false) by (intros r; cbn [startswith]; destruct (aeqb degree c) eqn:E; [apply aeqb_eq in E; subst c; rewrite aeqb_refl in B; discriminate B|reflexivity]).
  split; cbn [app ph_part]; rewrite N, A, C; [rewrite I1|rewrite I2]; reflexivity.
Qed.
Lemma open_no_number : forall s, py_int ("("%char :: s) = None /\ py_float ("("%char :: s) = None.
Proof.
  intros s. assert (H : exists r, strip ("("%char :: s) = "("%char :: r).
  { assert (K : forall l : str, exists r, lstrip_if is_space (l ++ ["("%char]) = r ++ ["("%char]).
    { induction l as [|c l (r & IH)]; [exists []; reflexivity|]. cbn [app lstrip_if]. destruct (is_space c); [exists r; exact IH|]. exists (c :: l). reflexivity. }
    destruct (K (rev s)) as (r & E). exists (rev r). change (rev (lstrip_if is_space (rev s ++ ["("%char])) = "("%char :: rev r). rewrite E. rewrite rev_app_distr. reflexivity. }
  destruct H as (r & E). unfold py_int, py_float. rewrite E. split; reflexivity.
Qed.

(** ** Angles *)
Local Open Scope R_scope.
Lemma sin_zero : forall x, - PI < x < PI -> sin x = 0 -> x = 0.
Proof.
  intros x B S. destruct (Rtotal_order x 0) as [L|[E|G]]; [|exact E|].
  - exfalso. assert (H : 0 < sin (- x)) by (apply sin_gt_0; lra). rewrite sin_neg in H. lra.
  - exfalso. assert (H : 0 < sin x) by (apply sin_gt_0; lra). lra.
Qed.
Lemma same_angle : forall a b, - PI < a <= PI -> - PI < b <= PI -> cos a = cos b -> sin a = sin b -> a = b.
Proof.
  intros a b A B C S. assert (CD : cos (a - b) = 1) by (rewrite cos_minus, C, S; pose proof (sin2_cos2 b) as H; unfold Rsqr in H; lra).
  assert (E : (a - b) / 2 = 0); [|lra]. apply sin_zero; [lra|]. replace (a - b) with (2 * ((a - b) / 2)) in CD by field. rewrite cos_2a_sin in CD. nra.
Qed.
Lemma atan2_range : forall y x, - PI < atan2 y x <= PI.
Proof.
  intros y x. unfold atan2. pose proof PI_RGT_0 as P. destruct (Rlt_dec 0 x) as [X|X]; [pose proof (atan_bound (y / x)); lra|]. destruct (Rlt_dec x 0) as [X'|X'].
  - pose proof (atan_bound (y / x)) as AB. destruct (Rle_dec 0 y) as [Y|Y].
    + assert (K : atan (y / x) <= 0); [|lra]. rewrite <- atan_0. assert (Q : y / x <= 0) by (unfold Rdiv; assert (/ x < 0) by (apply Rinv_lt_0_compat; exact X'); nra). destruct (Rle_lt_or_eq_dec _ _ Q) as [Q'|Q']; [left; apply atan_increasing; exact Q'|rewrite Q'; right; reflexivity].
    + assert (K : 0 < atan (y / x)); [|lra]. rewrite <- atan_0. apply atan_increasing. unfold Rdiv. assert (/ x < 0) by (apply Rinv_lt_0_compat; exact X'). nra.
  - destruct (Rlt_dec 0 y); [lra|]. destruct (Rlt_dec y 0); lra.
Qed.
Lemma polar : forall m t, 0 < m -> - PI < t <= PI -> mag (m * cos t) (m * sin t) = m /\ atan2 (m * sin t) (m * cos t) = t.
Proof.
  intros m t M T. assert (E : mag (m * cos t) (m * sin t) = m).
  { unfold mag. replace ((m * cos t) ^ 2 + (m * sin t) ^ 2) with (m * m * ((sin t)² + (cos t)²)) by (unfold Rsqr; ring). rewrite sin2_cos2, Rmult_1_r. apply sqrt_square. lra. }
  split; [exact E|]. destruct (atan2_polar (m * cos t) (m * sin t)) as (A & B). unfold mag in E. rewrite E in A, B. apply same_angle; [apply atan2_range|exact T| |]; apply (Rmult_eq_reg_l m); try lra.
Qed.
Lemma db_back : forall a, 20 * (ln (Rpower 10 (a / 20)) / ln 10) = a.
Proof.
  intros a. unfold Rpower. rewrite ln_exp. assert (ln 10 <> 0); [|field; assumption]. assert (0 < ln 10); [|lra]. rewrite <- ln_1. apply ln_increasing; lra.
Qed.
