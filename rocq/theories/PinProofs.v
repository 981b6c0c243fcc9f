(** The pins of a component: what the trigonometry comes to. *)
From Coq Require Import ZArith Bool Reals Lra Lia.
From Verif Require Import PyStr PinModel PinSpec.
Local Open Scope R_scope.

Lemma atan2_polar : forall x y, let h := sqrt (x ^ 2 + y ^ 2) in h * cos (atan2 y x) = x /\ h * sin (atan2 y x) = y.
Proof.
  intros x y h. assert (H2 : h * h = x ^ 2 + y ^ 2) by (apply sqrt_sqrt; nra). assert (H0 : 0 <= h) by apply sqrt_pos.
  assert (K : x <> 0 -> sqrt (1 + (y / x)²) = h / Rabs x).
  { intros N. apply sqrt_lem_1; [unfold Rsqr; nra|apply Rmult_le_pos; [exact H0|left; apply Rinv_0_lt_compat; apply Rabs_pos_lt; exact N]|]. unfold Rsqr. 
    replace (h / Rabs x * (h / Rabs x)) with (h * h / (Rabs x * Rabs x)) by (field; apply Rabs_no_R0; exact N). replace (Rabs x * Rabs x) with (x * x) by (rewrite <- Rabs_mult; symmetry; apply Rabs_pos_eq; nra). rewrite H2. field. exact N. }
  assert (HN : x <> 0 \/ y <> 0 -> h <> 0) by (intros N E; rewrite E in H2; nra).
  unfold atan2. destruct (Rlt_dec 0 x) as [P|P]; [|destruct (Rlt_dec x 0) as [Q|Q]].
  - rewrite cos_atan, sin_atan, K by lra. rewrite Rabs_pos_eq by lra. assert (h <> 0) by (apply HN; lra). split; field; split; lra.
  - assert (NH : h <> 0) by (apply HN; lra). assert (C : forall t, cos (t + PI) = - cos t /\ sin (t + PI) = - sin t) by (intros t; rewrite neg_cos, neg_sin; auto).
    assert (C' : forall t, cos (t - PI) = - cos t /\ sin (t - PI) = - sin t).
    { intros t. destruct (C (t - PI)) as (A & B). replace (t - PI + PI) with t in * by lra. lra. }
    destruct (Rle_dec 0 y); [destruct (C (atan (y / x))) as (-> & ->)|destruct (C' (atan (y / x))) as (-> & ->)]; rewrite cos_atan, sin_atan, K by lra; rewrite Rabs_left by lra; split; field; split; lra.
  - assert (x = 0) by lra. subst x. assert (h = Rabs y) as HY by (unfold h; replace (0 ^ 2 + y ^ 2) with (y²) by (unfold Rsqr; ring); apply sqrt_Rsqr_abs).
    destruct (Rlt_dec 0 y) as [P'|P']; [|destruct (Rlt_dec y 0) as [Q'|Q']].
    + rewrite cos_PI2, sin_PI2, HY, Rabs_pos_eq by lra. lra.
    + rewrite cos_neg, sin_neg, cos_PI2, sin_PI2, HY, Rabs_left by lra. lra.
    + rewrite cos_0, sin_0, HY. assert (y = 0) by lra. subst y. rewrite Rabs_R0. lra.
Qed.
Lemma round100_near : forall v m, (m mod 100 = 0)%Z -> Rabs (v - IZR m) < 50 -> round100 v = m.
Proof.
  intros v m M H. apply Rabs_def2 in H. pose proof (Z.div_mod m 100 ltac:(lia)) as D. rewrite M, Z.add_0_r in D. set (k := (m / 100)%Z) in *. assert (IM : IZR m = 100 * IZR k) by (rewrite D, mult_IZR; reflexivity).
  unfold round100. pose proof (archimed (v / 100)) as (A1 & A2). set (n := (up (v / 100) - 1)%Z). assert (EN : IZR n = IZR (up (v / 100)) - 1) by (unfold n; rewrite minus_IZR; reflexivity).
  assert (CS : n = k \/ n = (k - 1)%Z).
  { assert (IZR n < IZR (k + 1)) by (rewrite plus_IZR; lra). assert (IZR (k - 2) < IZR n) by (rewrite minus_IZR; lra). apply lt_IZR in H0, H1. lia. }
  rewrite D. f_equal. destruct CS as [E|E].
  - rewrite E. destruct (Rlt_dec (v / 100 - IZR k) (1 / 2)); [reflexivity|]. exfalso. lra.
  - rewrite E. rewrite minus_IZR. destruct (Rlt_dec (v / 100 - (IZR k - 1)) (1 / 2)); [exfalso; lra|]. destruct (Rlt_dec (1 / 2) (v / 100 - (IZR k - 1))); [lia|exfalso; lra].
Qed.
Lemma round100_exact : forall m, (m mod 100 = 0)%Z -> round100 (IZR m) = m.
Proof. intros m M. apply round100_near; [exact M|]. replace (IZR m - IZR m) with 0 by lra. rewrite Rabs_R0. lra. Qed.
(** 1.414 divided by the square root of 2. *)
Lemma almost_one : let s := 1414 / 1000 * (1 / sqrt 2) in 9998 / 10000 < s < 1.
Proof.
  assert (P : 0 < sqrt 2) by (apply sqrt_lt_R0; lra). assert (Q : sqrt 2 * sqrt 2 = 2) by (apply sqrt_sqrt; lra). cbv zeta.
  set (r := sqrt 2) in *. assert (A : 14142 / 10000 < r) by (destruct (Rlt_dec (14142 / 10000) r) as [L|L]; [exact L|exfalso; nra]). assert (B : r < 14143 / 10000) by (destruct (Rlt_dec r (14143 / 10000)) as [L|L]; [exact L|exfalso; nra]).
  assert (I : 1 / r = r / 2) by (field_simplify_eq; nra). rewrite I. lra.
Qed.
Lemma round100_odd : forall d, (d mod 100 = 0)%Z -> (Z.abs d <= 200000)%Z -> round100 (1414 / 1000 * (1 / sqrt 2) * IZR d) = d.
Proof.
  intros d M B. apply round100_near; [exact M|]. pose proof almost_one as A. cbv zeta in A. set (s := 1414 / 1000 * (1 / sqrt 2)) in *.
  assert (BD : -200000 <= IZR d <= 200000) by (split; apply IZR_le; lia). replace (s * IZR d - IZR d) with ((s - 1) * IZR d) by ring. apply Rabs_def1; nra.
Qed.

Lemma turns_of_pi : forall k, (0 <= k <= 7)%Z -> let t := radians (IZR (k * 45)) in
  (cos t, sin t) = match k with
                   | 0%Z => (1, 0) | 1%Z => (1 / sqrt 2, 1 / sqrt 2) | 2%Z => (0, 1) | 3%Z => (- (1 / sqrt 2), 1 / sqrt 2)
                   | 4%Z => (-1, 0) | 5%Z => (- (1 / sqrt 2), - (1 / sqrt 2)) | 6%Z => (0, -1) | _ => (1 / sqrt 2, - (1 / sqrt 2)) end.
Proof.
  intros k K. cbv zeta. unfold radians.
  assert (NC : forall t, cos (t + PI) = - cos t /\ sin (t + PI) = - sin t) by (intros t; rewrite neg_cos, neg_sin; auto).
  assert (QC : forall t, cos (t + PI / 2) = - sin t /\ sin (t + PI / 2) = cos t) by (intros t; rewrite cos_plus, sin_plus, cos_PI2, sin_PI2; lra).
  assert (C3 : cos (3 * (PI / 4)) = - (1 / sqrt 2) /\ sin (3 * (PI / 4)) = 1 / sqrt 2) by (replace (3 * (PI / 4)) with (PI / 4 + PI / 2) by lra; destruct (QC (PI / 4)) as (-> & ->); rewrite cos_PI4, sin_PI4; auto).
  assert (CASES : (k = 0 \/ k = 1 \/ k = 2 \/ k = 3 \/ k = 4 \/ k = 5 \/ k = 6 \/ k = 7)%Z) by lia.
  destruct CASES as [-> |[-> |[-> |[-> |[-> |[-> |[-> | ->]]]]]]].
  - replace (IZR (0 * 45) * PI / 180) with 0 by (simpl; lra). rewrite cos_0, sin_0. reflexivity.
  - replace (IZR (1 * 45) * PI / 180) with (PI / 4) by (simpl; lra). rewrite cos_PI4, sin_PI4. reflexivity.
  - replace (IZR (2 * 45) * PI / 180) with (PI / 2) by (simpl; lra). rewrite cos_PI2, sin_PI2. reflexivity.
  - replace (IZR (3 * 45) * PI / 180) with (3 * (PI / 4)) by (simpl; lra). destruct C3 as (-> & ->). reflexivity.
  - replace (IZR (4 * 45) * PI / 180) with PI by (simpl; lra). rewrite cos_PI, sin_PI. reflexivity.
  - replace (IZR (5 * 45) * PI / 180) with (PI / 4 + PI) by (simpl; lra). destruct (NC (PI / 4)) as (-> & ->). rewrite cos_PI4, sin_PI4. reflexivity.
  - replace (IZR (6 * 45) * PI / 180) with (PI / 2 + PI) by (simpl; lra). destruct (NC (PI / 2)) as (-> & ->). rewrite cos_PI2, sin_PI2. f_equal; lra.
  - replace (IZR (7 * 45) * PI / 180) with (3 * (PI / 4) + PI) by (simpl; lra). destruct (NC (3 * (PI / 4))) as (-> & ->). destruct C3 as (-> & ->). f_equal; lra.
Qed.
Lemma hundreds : forall a b, (a mod 100 = 0 -> b mod 100 = 0 -> (- a) mod 100 = 0 /\ (a + b) mod 100 = 0 /\ (a - b) mod 100 = 0)%Z.
Proof.
  intros a b A B. pose proof (Z.div_mod a 100 ltac:(lia)) as DA. pose proof (Z.div_mod b 100 ltac:(lia)) as DB. rewrite A, Z.add_0_r in DA. rewrite B, Z.add_0_r in DB.
  replace (- a)%Z with ((- (a / 100)) * 100)%Z by lia. replace (a + b)%Z with ((a / 100 + b / 100) * 100)%Z by lia. replace (a - b)%Z with ((a / 100 - b / 100) * 100)%Z by lia. rewrite !Z.mod_mul by lia. auto.
Qed.
(** The coordinates before rounding. *)
Lemma turned_coords : forall x y k, (0 <= k <= 7)%Z -> let h := hypot (x, y) k in let t := atan2 (IZR y) (IZR x) + radians (IZR (k * 45)) in
  let c := if Z.odd k then 1414 / 1000 * (1 / sqrt 2) else 1 in
  h * cos t = c * IZR (fst (turn8 k (x, y))) /\ h * sin t = c * IZR (snd (turn8 k (x, y))).
Proof.
  intros x y k K. cbv zeta. rewrite cos_plus, sin_plus. pose proof (turns_of_pi k K) as TP. cbv zeta in TP. destruct (atan2_polar (IZR x) (IZR y)) as (PX & PY). cbn [fst snd] in *.
  set (a := atan2 (IZR y) (IZR x)) in *. set (t := radians (IZR (k * 45))) in *. unfold hypot. cbn [fst snd]. set (h := sqrt (IZR x ^ 2 + IZR y ^ 2)) in *.
  assert (CASES : (k = 0 \/ k = 1 \/ k = 2 \/ k = 3 \/ k = 4 \/ k = 5 \/ k = 6 \/ k = 7)%Z) by lia.
  destruct CASES as [E|[E|[E|[E|[E|[E|[E|E]]]]]]]; rewrite E in TP; assert (TC := f_equal fst TP); assert (TS := f_equal snd TP); cbn [fst snd] in TC, TS; rewrite TC, TS; rewrite E; unfold turn8, quarter, diagonal; cbn [Z.odd Z.ltb Z.compare fst snd Pos.compare Pos.compare_cont];
    rewrite ?opp_IZR, ?plus_IZR, ?minus_IZR, ?opp_IZR, ?plus_IZR, ?minus_IZR; try (split; nra);
    generalize (1 / sqrt 2); intros s; split;
    match goal with |- h * ?g * (cos a * ?u - sin a * ?v) = _ => transitivity (g * ((h * cos a) * u - (h * sin a) * v)); [ring|rewrite PX, PY; ring]
                  | |- h * ?g * (sin a * ?u + cos a * ?v) = _ => transitivity (g * ((h * sin a) * u + (h * cos a) * v)); [ring|rewrite PX, PY; ring] end.
Qed.
Lemma turn8_grid : forall k q, on_hundreds q -> (0 <= k <= 7)%Z -> let r := turn8 k q in
  (fst r mod 100 = 0 /\ snd r mod 100 = 0 /\ Z.abs (fst r) <= 200000 /\ Z.abs (snd r) <= 200000)%Z.
Proof.
  intros k [x y] ((GX & GY) & BX & BY) K. cbn [fst snd] in *. cbv zeta.
  assert (ND : forall a b, (a mod 100 = 0 -> b mod 100 = 0 -> Z.abs a <= 200000 -> Z.abs b <= 200000 -> fst (quarter (a, b)) mod 100 = 0 /\ snd (quarter (a, b)) mod 100 = 0 /\ Z.abs (fst (quarter (a, b))) <= 200000 /\ Z.abs (snd (quarter (a, b))) <= 200000)%Z).
  { intros a b A B LA LB. unfold quarter. cbn [fst snd]. destruct (hundreds b a B A) as (H & _). lia. }
  assert (Q : forall q, (fst q mod 100 = 0 /\ snd q mod 100 = 0 /\ Z.abs (fst q) <= 200000 /\ Z.abs (snd q) <= 200000 -> let r := quarter q in fst r mod 100 = 0 /\ snd r mod 100 = 0 /\ Z.abs (fst r) <= 200000 /\ Z.abs (snd r) <= 200000)%Z) by (intros [a b] (A & B & C & D); apply ND; assumption).
  unfold turn8. set (q1 := if Z.odd k then diagonal (x, y) else (x, y)).
  assert (Q1 : (fst q1 mod 100 = 0 /\ snd q1 mod 100 = 0 /\ Z.abs (fst q1) <= 200000 /\ Z.abs (snd q1) <= 200000)%Z).
  { unfold q1. destruct (Z.odd k); [|cbn [fst snd]; lia]. unfold diagonal. cbn [fst snd]. destruct (hundreds x y GX GY) as (_ & A & B). lia. }
  repeat match goal with |- context [if ?c then _ else _] => destruct c end; repeat apply Q; exact Q1.
Qed.
Theorem place_exact : forall p o q, on_hundreds q -> pin_place p o q = exact_place p o q.
Proof.
  intros p o [x y] G. unfold pin_place, exact_place.
  assert (R8 : forall k, (0 <= k <= 7)%Z -> round100 (hypot (x, y) k * cos (atan2 (IZR y) (IZR x) + radians (IZR (k * 45)))) = fst (turn8 k (x, y)) /\ round100 (hypot (x, y) k * sin (atan2 (IZR y) (IZR x) + radians (IZR (k * 45)))) = snd (turn8 k (x, y))).
  { intros k K. destruct (turned_coords x y k K) as (-> & ->). destruct (turn8_grid k (x, y) G K) as (A & B & C & D). destruct (Z.odd k).
    - split; apply round100_odd; assumption.
    - rewrite !Rmult_1_l. split; apply round100_exact; assumption. }
  cbn [fst snd]. destruct ((0 <=? o) && (o <=? 7))%Z eqn:E1.
  - apply andb_true_iff in E1. rewrite !Z.leb_le in E1. destruct (R8 o E1) as (-> & ->). assert (((0 <=? o) && (o <=? 15))%Z = true) as -> by (apply andb_true_iff; rewrite !Z.leb_le; lia). unfold turn. assert ((o <? 8)%Z = true) as -> by (apply Z.ltb_lt; lia). reflexivity.
  - destruct ((8 <=? o) && (o <=? 15))%Z eqn:E2.
    + apply andb_true_iff in E2. rewrite !Z.leb_le in E2. assert (HO : hypot (x, y) o = hypot (x, y) (o - 8)).
      { unfold hypot. rewrite Z.odd_sub. change (Z.odd 8) with false. rewrite xorb_false_r. reflexivity. }
      rewrite HO. destruct (R8 (o - 8)%Z ltac:(lia)) as (-> & ->). assert (((0 <=? o) && (o <=? 15))%Z = true) as -> by (apply andb_true_iff; rewrite !Z.leb_le; lia). unfold turn. assert ((o <? 8)%Z = false) as -> by (apply Z.ltb_ge; lia). unfold mirror. cbn [fst snd]. f_equal.
    + assert (((0 <=? o) && (o <=? 15))%Z = false) as ->; [|reflexivity]. apply andb_false_iff in E1, E2. apply andb_false_iff. rewrite !Z.leb_gt in *. lia.
Qed.
