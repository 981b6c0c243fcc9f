From Coq Require Import QArith ZArith Bool Lia Lqa Field Floats.SpecFloat.
From Verif Require Import GeoModel GeoSpec.
Local Open Scope Q_scope.

Lemma within_spec : forall a b x, within a b x = true <-> (a <= x <= b \/ b <= x <= a).
Proof.
  intros a b x. unfold within. rewrite andb_true_iff, !Qle_bool_iff. destruct (Qle_bool a b) eqn:E.
  - apply Qle_bool_iff in E. split; [tauto|]. intros [H|H]; lra.
  - assert (~ a <= b) by (intros K; apply Qle_bool_iff in K; congruence). split; [tauto|]. intros [H'|H']; lra.
Qed.
Lemma between : forall a b x, ~ a == b -> (a <= x <= b \/ b <= x <= a) -> exists t, 0 <= t <= 1 /\ x == a + t * (b - a).
Proof.
  intros a b x N H. exists ((x - a) / (b - a)). assert (D : ~ b - a == 0) by lra. split; [|field; exact D].
  assert (P : forall u d, 0 < d -> 0 <= u <= d -> 0 <= u / d <= 1).
  { intros u d D0 (U1 & U2). split; [apply Qle_shift_div_l; [exact D0|lra]|apply Qle_shift_div_r; [exact D0|lra]]. }
  destruct (Q_dec a b) as [[L|L]|L]; [| |contradiction].
  - apply P; lra.
  - assert (E : (x - a) / (b - a) == (a - x) / (a - b)) by (field; split; lra). rewrite E. apply P; lra.
Qed.
Lemma seg_within : forall a b t, 0 <= t <= 1 -> (a <= a + t * (b - a) <= b \/ b <= a + t * (b - a) <= a).
Proof.
  intros a b t (H0 & H1). destruct (Qlt_le_dec b a) as [L|L]; [right|left].
  - assert (0 <= t * (a - b)) by (apply Qmult_le_0_compat; lra). assert (0 <= (1 - t) * (a - b)) by (apply Qmult_le_0_compat; lra). split; lra.
  - assert (0 <= t * (b - a)) by (apply Qmult_le_0_compat; lra). assert (0 <= (1 - t) * (b - a)) by (apply Qmult_le_0_compat; lra). split; lra.
Qed.
Lemma touches_exact : forall l p, touches l p = true <-> on_line l p.
Proof.
  intros [a b] p. unfold touches, on_line, on_segment. cbn [v1 v2]. destruct (Qeq_bool (px a) (px b)) eqn:EX.
  - apply Qeq_bool_iff in EX. rewrite andb_true_iff, Qeq_bool_iff, within_spec. split.
    + intros (X & W). destruct (Qeq_dec (py a) (py b)) as [EY|NY]; [exists 0; repeat split; lra|]. destruct (between _ _ _ NY W) as (t & T & Y). exists t. split; [exact T|]. split; [|exact Y]. rewrite <- X, EX. ring.
    + intros (t & T & X & Y). split; [rewrite X, EX; ring|]. rewrite Y. apply seg_within. exact T.
  - assert (NX : ~ px a == px b) by (intros K; apply Qeq_bool_iff in K; congruence). destruct (Qeq_bool (py a) (py b)) eqn:EY.
    + apply Qeq_bool_iff in EY. rewrite andb_true_iff, Qeq_bool_iff, within_spec. split.
      * intros (Y & W). destruct (between _ _ _ NX W) as (t & T & X). exists t. split; [exact T|]. split; [exact X|]. rewrite <- Y, EY. ring.
      * intros (t & T & X & Y). split; [rewrite Y, EY; ring|]. rewrite X. apply seg_within. exact T.
    + rewrite andb_true_iff, Qeq_bool_iff, within_spec. assert (D : ~ px b - px a == 0) by lra. split.
      * intros (Y & W). destruct (between _ _ _ NX W) as (t & T & X). exists t. split; [exact T|]. split; [exact X|]. rewrite <- Y, X. field. exact D.
      * intros (t & T & X & Y). split; [rewrite Y, X; field; exact D|]. rewrite X. apply seg_within. exact T.
Qed.
Lemma intercepts_spec : forall l m, intercepts l m = true <-> on_line l (v1 m) \/ on_line l (v2 m) \/ on_line m (v1 l) \/ on_line m (v2 l).
Proof.
  intros l m. unfold intercepts. rewrite <- !touches_exact. destruct (touches l (v1 m)), (touches l (v2 m)), (touches m (v1 l)), (touches m (v2 l)); cbn; split; try tauto; try discriminate; intuition discriminate.
Qed.

(** ** With rounding *)
Lemma withinF_spec : forall a b x, withinF a b x = true <-> (Z.min a b <= x <= Z.max a b)%Z.
Proof. intros. unfold withinF. rewrite andb_true_iff, !Z.leb_le. tauto. Qed.
Lemma touchesF_straight : forall a b p, fx a = fx b \/ fy a = fy b -> touchesF (LnF a b) p = true <-> on_segmentZ a b p.
Proof.
  intros a b p H. unfold touchesF, on_segmentZ. cbn [w1 w2]. destruct (fx a =? fx b)%Z eqn:EX.
  - apply Z.eqb_eq in EX. rewrite andb_true_iff, withinF_spec, Z.eqb_eq, EX. split.
    + intros (X & W). rewrite <- X. split; [ring|]. split; [lia|exact W].
    + intros (_ & X & W). split; [lia|exact W].
  - destruct H as [H|H]; [apply Z.eqb_neq in EX; contradiction|]. apply Z.eqb_neq in EX. rewrite (proj2 (Z.eqb_eq _ _) H). rewrite andb_true_iff, withinF_spec, Z.eqb_eq, H. split.
    + intros (Y & W). rewrite <- Y. split; [ring|]. split; [exact W|lia].
    + intros (_ & W & Y). split; [lia|exact W].
Qed.
