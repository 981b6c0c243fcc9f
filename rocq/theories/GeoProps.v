(** Contact of segments: C54, C115-C117. *)
From Coq Require Import QArith ZArith Bool Lia Lqa List.
From Verif Require Import GeoModel GeoSpec GeoProofs.
Import ListNotations.
Local Open Scope Q_scope.

(** C54: touches tells whether the point is on the segment (the ends included), in exact arithmetic ... *)
Theorem C54_touches : forall l p, touches l p = true <-> on_line l p.
Proof. exact touches_exact. Qed.
(** ... intercepts is symmetric, tells whether an end of one is on the other, and then there is a common point. *)
Theorem C54_intercepts : forall l m, intercepts l m = intercepts m l /\
  (intercepts l m = true <-> on_line l (v1 m) \/ on_line l (v2 m) \/ on_line m (v1 l) \/ on_line m (v2 l)) /\
  (intercepts l m = true -> exists p, on_line l p /\ on_line m p).
Proof.
  intros l m. split; [|split; [apply intercepts_spec|]].
  - apply eq_true_iff_eq. rewrite !intercepts_spec. tauto.
  - assert (E1 : forall l, on_line l (v1 l)) by (intros [a b]; exists 0; cbn; repeat split; lra). assert (E2 : forall l, on_line l (v2 l)) by (intros [a b]; exists 1; cbn; repeat split; lra).
    intros H. apply intercepts_spec in H. destruct H as [H|[H|[H|H]]]; eexists; split; try exact H; auto.
Qed.
Print Assumptions C54_touches.
Print Assumptions C54_intercepts.
Example C54_nonvacuous : touches (Ln (Pt 0 0) (Pt 3 1)) (Pt (3 # 2) (1 # 2)) = true /\ touches (Ln (Pt 0 0) (Pt 3 1)) (Pt 6 2) = false /\ intercepts (Ln (Pt 0 0) (Pt 3 1)) (Ln (Pt 3 1) (Pt 5 5)) = true.
Proof. repeat split; reflexivity. Qed.

(** C115: for vertical and horizontal segments with integer coordinates touches is exact in the arithmetic of Python as well. *)
Theorem C115_straight : forall a b p, fx a = fx b \/ fy a = fy b -> touchesF (LnF a b) p = true <-> on_segmentZ a b p.
Proof. exact touchesF_straight. Qed.
Print Assumptions C115_straight.
Example C115_nonvacuous : fx (PtF 16 (-32)) = fx (PtF 16 64) /\ on_segmentZ (PtF 16 (-32)) (PtF 16 64) (PtF 16 0) /\ touchesF (LnF (PtF 16 (-32)) (PtF 16 64)) (PtF 16 65) = false.
Proof. split; [reflexivity|]. split; [unfold on_segmentZ; cbn; lia|reflexivity]. Qed.

(** C116: segments that cross between their ends do not intercept. *)
Theorem C116_crossing_refuted : exists l m p, on_line l p /\ on_line m p /\ intercepts l m = false.
Proof.
  exists (Ln (Pt 0 0) (Pt 2 0)), (Ln (Pt 1 (-1)) (Pt 1 1)), (Pt 1 0). split; [|split].
  - exists (1 # 2). cbn. repeat split; lra. - exists (1 # 2). cbn. repeat split; lra. - reflexivity.
Qed.
Print Assumptions C116_crossing_refuted.

(** C117: with the rounding of Python's floats an oblique segment need not touch its own end. *)
Theorem C117_rounding_refuted : exists a b, on_segmentZ a b b /\ touchesF (LnF a b) b = false /\ touchesF (LnF b a) b = true.
Proof. exists (PtF 0 0), (PtF 49 1). split; [unfold on_segmentZ; cbn; lia|]. split; vm_compute; reflexivity. Qed.
Print Assumptions C117_rounding_refuted.
