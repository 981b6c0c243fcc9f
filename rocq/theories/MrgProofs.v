(** Proofs about the merging of axes and the interpolation (MrgModel). *)
From Coq Require Import String Ascii List Bool Arith QArith Qabs Lqa Lia Sorted.
From Verif Require Import PyStr EngModel StepsSpec MrgModel MrgSpec.
Import ListNotations.
Local Open Scope nat_scope. Local Open Scope list_scope.

Lemma Qltb_t : forall a b, Qltb a b = true -> (a < b)%Q.
Proof. intros a b H. unfold Qltb in H. apply negb_true_iff in H. destruct (Qlt_le_dec a b) as [L|L]; [exact L|]. apply Qle_bool_iff in L. congruence. Qed.
Lemma Qltb_f : forall a b, Qltb a b = false -> (b <= a)%Q.
Proof. intros a b H. unfold Qltb in H. apply negb_false_iff in H. apply Qle_bool_iff. exact H. Qed.

Lemma near : forall x y err, Qltb (Qabs (y - x)) err = true -> (x - err < y)%Q /\ (y < x + err)%Q.
Proof.
  intros x y err H. apply Qltb_t in H. pose proof (Qle_Qabs (y - x)) as A. pose proof (Qle_Qabs (- (y - x))) as B.
  rewrite Qabs_opp in B. lra.
Qed.
Lemma below : forall x y err, (0 < err)%Q -> Qltb (Qabs (y - x)) err = false -> Qltb (y - x) 0 = true -> (y + err <= x)%Q.
Proof.
  intros x y err E H L. apply Qltb_f in H. apply Qltb_t in L.
  assert (Qabs (y - x) == - (y - x))%Q as K by (apply Qabs_neg; lra). rewrite K in H. lra.
Qed.
Lemma above : forall x y err, (0 < err)%Q -> Qltb (Qabs (y - x)) err = false -> Qltb (y - x) 0 = false -> (x + err <= y)%Q.
Proof.
  intros x y err E H L. apply Qltb_f in H. apply Qltb_f in L.
  assert (Qabs (y - x) == y - x)%Q as K by (apply Qabs_pos; lra). rewrite K in H. lra.
Qed.

(** The three cases of a step of the loop. *)
Ltac cases err x y :=
  let N := fresh "N" in let L := fresh "L" in
  destruct (Qltb (Qabs (y - x)) err) eqn:N;
  [apply near in N; destruct N as [? ?]
  |destruct (Qltb (y - x) 0) eqn:L;
   [apply (below x y err) in N; [|assumption|assumption]; clear L
   |apply (above x y err) in N; [|assumption|assumption]; clear L]].

Lemma SS_tail : forall (R : Q -> Q -> Prop) x l, StronglySorted R (x :: l) -> StronglySorted R l /\ Forall (R x) l.
Proof. intros R x l H. inversion H; subst. split; assumption. Qed.

Section Merge.
Variable err : Q.
Hypothesis EP : (0 < err)%Q.

Lemma merge_from : forall f a b x, In x (merge f err a b) -> In x a \/ In x b.
Proof.
  induction f as [|f IH]; intros a b z H; cbn [merge] in H; [destruct H|].
  destruct a as [|x [|x' a]]; try destruct H. destruct b as [|y [|y' b]]; try destruct H.
  cases err x y; destruct H as [<- | H].
  all: try (left; left; reflexivity); try (right; left; reflexivity).
  all: apply IH in H; destruct H as [H|H]; [left|right]; try exact H; right; exact H.
Qed.

Lemma merge_lo : forall f a b l, (forall x, In x a -> l < x)%Q -> (forall x, In x b -> l < x)%Q ->
  Forall (Qlt l) (merge f err a b).
Proof. intros f a b l A B. apply Forall_forall. intros z H. apply merge_from in H. destruct H; auto. Qed.

Lemma merge_inc : forall f a b, increasing a -> spaced err b -> increasing (merge f err a b).
Proof.
  unfold increasing, spaced. induction f as [|f IH]; intros a b A B; cbn [merge]; [constructor|].
  destruct a as [|x [|x' a]]; try constructor. destruct b as [|y [|y' b]]; try constructor.
  destruct (SS_tail _ _ _ A) as (A1 & A2). destruct (SS_tail _ _ _ B) as (B1 & B2).
  rewrite Forall_forall in A2, B2.
  cases err x y; (constructor; [apply IH; assumption|]); apply merge_lo.
  - exact A2.
  - intros z Z. apply B2 in Z. lra.
  - intros z [<- | Z]; [lra|]. apply A2 in Z. lra.
  - intros z Z. apply B2 in Z. lra.
  - exact A2.
  - intros z [<- | Z]; [lra|]. apply B2 in Z. lra.
Qed.

Lemma last_in : forall (l : list Q) x d, In (last (x :: l) d) (x :: l).
Proof. induction l as [|y l IH]; intros x d; [left; reflexivity|]. right. apply (IH y d). Qed.
Lemma last_le : forall (l : list Q) x d y, increasing (x :: l) -> In y (x :: l) -> (y <= last (x :: l) d)%Q.
Proof.
  unfold increasing. induction l as [|z l IH]; intros x d y I [<- | H]; [cbn; lra|destruct H| |].
  - destruct (SS_tail _ _ _ I) as (_ & F). rewrite Forall_forall in F.
    specialize (F _ (last_in l z d)). change (last (x :: z :: l) d) with (last (z :: l) d). lra.
  - destruct (SS_tail _ _ _ I) as (J & F). apply (IH z d y J H).
Qed.
Lemma spaced_inc : forall l, spaced err l -> increasing l.
Proof.
  unfold spaced, increasing. induction 1 as [|x l S IH F]; constructor; [exact IH|].
  eapply Forall_impl; [|exact F]. cbn. intros y Y. lra.
Qed.

Lemma merge_hi : forall f a b d, increasing a -> spaced err b -> forall z, In z (merge f err a b) ->
  (z < last a d)%Q /\ (z < last b d)%Q.
Proof.
  induction f as [|f IH]; intros a b d A B z H; cbn [merge] in H; [destruct H|].
  destruct a as [|x [|x' a]]; try destruct H. destruct b as [|y [|y' b]]; try destruct H.
  destruct (SS_tail _ _ _ A) as (A1 & A2). destruct (SS_tail _ _ _ B) as (B1 & B2).
  assert (x < x')%Q as X by (inversion A2; assumption). assert (y + err <= y')%Q as Y by (inversion B2; assumption).
  pose proof (last_le a x' d x' A1 (or_introl eq_refl)) as LA.
  pose proof (last_le b y' d y' (spaced_inc _ B1) (or_introl eq_refl)) as LB.
  change (last (x :: x' :: a) d) with (last (x' :: a) d). change (last (y :: y' :: b) d) with (last (y' :: b) d).
  cases err x y; destruct H as [<- | H].
  - split; lra.
  - exact (IH _ _ d A1 B1 z H).
  - split; lra.
  - exact (IH _ _ d A B1 z H).
  - split; lra.
  - exact (IH _ _ d A1 B z H).
Qed.

Lemma merge_len : forall f a b, length a + length b <= f -> Nat.min (length a) (length b) - 1 <= length (merge f err a b).
Proof.
  induction f as [|f IH]; intros a b L; [destruct a; [cbn; lia|cbn in L; lia]|]. cbn [merge].
  destruct a as [|x [|x' a]]; [cbn [length]; lia|cbn [length]; lia|]. destruct b as [|y [|y' b]]; [cbn [length]; lia|cbn [length]; lia|].
  cases err x y; cbn [length].
  - specialize (IH (x' :: a) (y' :: b) ltac:(cbn in *; lia)). cbn [length] in *. lia.
  - specialize (IH (x :: x' :: a) (y' :: b) ltac:(cbn in *; lia)). cbn [length] in *. lia.
  - specialize (IH (x' :: a) (y :: y' :: b) ltac:(cbn in *; lia)). cbn [length] in *. lia.
Qed.

(** Each point but the last of the existing axis that is not close to the end of the other is kept; each point but the last of
    the other axis, not after the last but one of the existing axis, is kept or is near one that is. *)
Lemma merge_mine : forall f a b x, length a + length b <= f -> increasing a ->
  (exists b0 b1 b2, b = b0 ++ [b1; b2] /\ (x + err <= b1)%Q) -> In x (removelast a) -> In x (merge f err a b).
Proof.
  induction f as [|f IH]; intros a b z L A (b0 & b1 & b2 & -> & LE) H; [destruct a; [destruct H|cbn in L; lia]|].
  cbn [merge]. destruct a as [|x [|x' a]]; [destruct H|destruct H|].
  destruct (SS_tail _ _ _ A) as (A1 & A2). rewrite Forall_forall in A2.
  change (removelast (x :: x' :: a)) with (x :: removelast (x' :: a)) in H.
  assert (In z (x :: x' :: a)) as HI.
  { destruct H as [<- | H]; [left; reflexivity|]. right. revert H. generalize (x' :: a). clear.
    induction l as [|q [|q' l] IHl]; intros H; [destruct H|destruct H|]. destruct H as [<- | H]; [left; reflexivity|right; apply IHl; exact H]. }
  assert (x <= z)%Q as XZ by (destruct HI as [<- | HI]; [lra|apply A2 in HI; lra]).
  destruct b0 as [|y [|y' b0]]; cbn [app].
  - cases err x b1.
    + destruct H as [<- | H]; [left; reflexivity|]. exfalso. assert (In z (x' :: a)) as HJ.
      { destruct HI as [E|HI]; [|exact HI]. exfalso. lra. } lra.
    + exfalso. lra.
    + destruct H as [<- | H]; [left; reflexivity|]. right. apply (IH (x' :: a) [b1; b2]); [cbn in *; lia|exact A1| |exact H].
      exists [], b1, b2. split; [reflexivity|exact LE].
  - cases err x y.
    + destruct H as [<- | H]; [left; reflexivity|]. right. apply (IH (x' :: a) [b1; b2]); [cbn in *; lia|exact A1| |exact H].
      exists [], b1, b2. split; [reflexivity|exact LE].
    + right. apply (IH (x :: x' :: a) [b1; b2]); [cbn in *; lia|exact A| |exact H].
      exists [], b1, b2. split; [reflexivity|exact LE].
    + destruct H as [<- | H]; [left; reflexivity|]. right. apply (IH (x' :: a) (y :: [b1; b2])); [cbn in *; lia|exact A1| |exact H].
      exists [y], b1, b2. split; [reflexivity|exact LE].
  - cases err x y.
    + destruct H as [<- | H]; [left; reflexivity|]. right.
      apply (IH (x' :: a) (y' :: b0 ++ [b1; b2])); [cbn in *; lia|exact A1| |exact H].
      exists (y' :: b0), b1, b2. split; [reflexivity|exact LE].
    + right. apply (IH (x :: x' :: a) (y' :: b0 ++ [b1; b2])); [cbn in *; lia|exact A| |exact H].
      exists (y' :: b0), b1, b2. split; [reflexivity|exact LE].
    + destruct H as [<- | H]; [left; reflexivity|]. right.
      apply (IH (x' :: a) (y :: y' :: b0 ++ [b1; b2])); [cbn in *; lia|exact A1| |exact H].
      exists (y :: y' :: b0), b1, b2. split; [reflexivity|exact LE].
Qed.

Lemma merge_other : forall f a b y, length a + length b <= f -> increasing a -> spaced err b ->
  (exists a0 a1 a2, a = a0 ++ [a1; a2] /\ (y <= a1)%Q) -> In y (removelast b) ->
  exists x, In x (merge f err a b) /\ (x - err < y)%Q /\ (y < x + err)%Q.
Proof.
  induction f as [|f IH]; intros a b z L A B (a0 & a1 & a2 & -> & LE) H; [destruct b; [destruct H|cbn in L; lia]|].
  cbn [merge]. destruct b as [|y [|y' b]]; [destruct H|destruct H|].
  destruct (SS_tail _ _ _ B) as (B1 & B2). rewrite Forall_forall in B2.
  change (removelast (y :: y' :: b)) with (y :: removelast (y' :: b)) in H.
  assert (In z (y :: y' :: b)) as HI.
  { destruct H as [<- | H]; [left; reflexivity|]. right. revert H. generalize (y' :: b). clear.
    induction l as [|q [|q' l] IHl]; intros H; [destruct H|destruct H|]. destruct H as [<- | H]; [left; reflexivity|right; apply IHl; exact H]. }
  assert (y <= z)%Q as YZ by (destruct HI as [<- | HI]; [lra|apply B2 in HI; lra]).
  assert (forall x l, (exists w, In w l /\ (w - err < z)%Q /\ (z < w + err)%Q) ->
            exists w, In w (x :: l) /\ (w - err < z)%Q /\ (z < w + err)%Q) as LIFT.
  { intros x l (w & W & Q1). exists w. split; [right; exact W|exact Q1]. }
  destruct a0 as [|x [|x' a0]]; cbn [app].
  - cases err a1 y.
    + destruct H as [<- | H]; [exists a1; split; [left; reflexivity|split; lra]|]. exfalso.
      assert (In z (y' :: b)) as HJ. { destruct HI as [E|HI]; [|exact HI]. subst. clear - H B2 EP. exfalso.
        assert (In z (y' :: b)) as K. { revert H. generalize (y' :: b). induction l as [|q [|q' l] IHl]; intros H; [destruct H|destruct H|]. destruct H as [<- | H]; [left; reflexivity|right; apply IHl; exact H]. }
        apply B2 in K. lra. }
      apply B2 in HJ. lra.
    + destruct H as [<- | H]; [exists y; split; [left; reflexivity|split; lra]|]. apply LIFT.
      apply (IH [a1; a2] (y' :: b)); [cbn in *; lia|exact A|exact B1| |exact H].
      exists [], a1, a2. split; [reflexivity|exact LE].
    + exfalso. lra.
  - destruct (SS_tail _ _ _ A) as (A1 & _). cases err x y.
    + destruct H as [<- | H]; [exists x; split; [left; reflexivity|split; lra]|]. apply LIFT.
      apply (IH [a1; a2] (y' :: b)); [cbn in *; lia|exact A1|exact B1| |exact H].
      exists [], a1, a2. split; [reflexivity|exact LE].
    + destruct H as [<- | H]; [exists y; split; [left; reflexivity|split; lra]|]. apply LIFT.
      apply (IH (x :: [a1; a2]) (y' :: b)); [cbn in *; lia|exact A|exact B1| |exact H].
      exists [x], a1, a2. split; [reflexivity|exact LE].
    + apply LIFT. apply (IH [a1; a2] (y :: y' :: b)); [cbn in *; lia|exact A1|exact B| |exact H].
      exists [], a1, a2. split; [reflexivity|exact LE].
  - destruct (SS_tail _ _ _ A) as (A1 & _). cases err x y.
    + destruct H as [<- | H]; [exists x; split; [left; reflexivity|split; lra]|]. apply LIFT.
      apply (IH (x' :: a0 ++ [a1; a2]) (y' :: b)); [cbn in *; lia|exact A1|exact B1| |exact H].
      exists (x' :: a0), a1, a2. split; [reflexivity|exact LE].
    + destruct H as [<- | H]; [exists y; split; [left; reflexivity|split; lra]|]. apply LIFT.
      apply (IH (x :: x' :: a0 ++ [a1; a2]) (y' :: b)); [cbn in *; lia|exact A|exact B1| |exact H].
      exists (x :: x' :: a0), a1, a2. split; [reflexivity|exact LE].
    + apply LIFT. apply (IH (x' :: a0 ++ [a1; a2]) (y :: y' :: b)); [cbn in *; lia|exact A1|exact B| |exact H].
      exists (x' :: a0), a1, a2. split; [reflexivity|exact LE].
Qed.
End Merge.

(** ** Interpolation *)
Lemma seek_ok : forall r t p c, (t <= last (map fst (c :: r)) 0)%Q ->
  exists pre p' c' r', seek t p c r = Some (p', c', r') /\ p :: c :: r = pre ++ p' :: c' :: r' /\ (t <= fst c')%Q /\
    (pre = [] \/ (fst p' < t)%Q).
Proof.
  induction r as [|n r IH]; intros t p c H; cbn [seek].
  - cbn in H. destruct (Qltb (fst c) t) eqn:E; [apply Qltb_t in E; lra|].
    exists [], p, c, []. repeat split; [exact H|left; reflexivity].
  - destruct (Qltb (fst c) t) eqn:E.
    + apply Qltb_t in E. destruct (IH t c n H) as (pre & p' & c' & r' & -> & S & L & D).
      exists (p :: pre), p', c', r'. rewrite S. split; [reflexivity|]. split; [reflexivity|]. split; [exact L|]. right.
      destruct D as [-> | D]; [|exact D]. injection S as -> _ _. exact E.
    + apply Qltb_f in E. exists [], p, c, (n :: r). repeat split; [exact E|left; reflexivity].
Qed.

Lemma nth_mid : forall A (l : list A) x r, nth_error (l ++ x :: r) (length l) = Some x.
Proof. induction l; intros; [reflexivity|]. cbn. apply IHl. Qed.
Lemma nth_mid2 : forall A (l : list A) x y r, nth_error (l ++ x :: y :: r) (S (length l)) = Some y.
Proof. induction l; intros; [reflexivity|]. cbn. apply IHl. Qed.
Lemma nth_map_ : forall (A B : Type) (f : A -> B) l i x, nth_error l i = Some x -> nth_error (map f l) i = Some (f x).
Proof. induction l as [|y l IH]; intros [|i] x H; try discriminate; [injection H as <-; reflexivity|]. cbn. apply IH. exact H. Qed.

Lemma last_app : forall (l r : list Q) x d, last (l ++ x :: r) d = last (x :: r) d.
Proof. induction l as [|y l IH]; intros r x d; [reflexivity|]. cbn [app]. rewrite <- (IH r x d). destruct l; reflexivity. Qed.

Lemma interp_from_ok : forall ts pre p c r, increasing ts -> increasing (map fst (pre ++ p :: c :: r)) ->
  (forall t, In t ts -> (t <= last (map fst (c :: r)) 0)%Q) -> (pre = [] \/ forall t, In t ts -> (fst p < t)%Q) ->
  exists ys, interp_from p c r ts = Some ys /\
    length ys = length ts /\
    forall i t y x0, nth_error ts i = Some t -> nth_error ys i = Some y ->
      hd_error (map fst (pre ++ p :: c :: r)) = Some x0 -> (x0 <= t)%Q ->
      interpolates t y (map fst (pre ++ p :: c :: r)) (map snd (pre ++ p :: c :: r)).
Proof.
  induction ts as [|t ts IH]; intros pre p c r IT IA UB LO; cbn [interp_from].
  - exists []. split; [reflexivity|]. split; [reflexivity|]. intros [|i] t y x0 H; discriminate.
  - destruct (SS_tail _ _ _ IT) as (IT1 & IT2). rewrite Forall_forall in IT2.
    destruct (seek_ok r t p c (UB t (or_introl eq_refl))) as (q & p' & c' & r' & -> & S & L & D).
    assert (pre ++ p :: c :: r = (pre ++ q) ++ p' :: c' :: r') as SS by (rewrite S, app_assoc; reflexivity).
    assert (last (map fst (c :: r)) 0 = last (map fst (c' :: r')) 0)%Q as LL.
    { transitivity (last (map fst (p :: c :: r)) 0%Q); [reflexivity|]. rewrite S, map_app. cbn [map].
      rewrite last_app. reflexivity. }
    rewrite SS in IA |- *.
    assert (pre ++ q = [] \/ (fst p' < t)%Q) as D'.
    { destruct D as [-> | D]; [|right; exact D]. destruct LO as [-> | LO]; [left; reflexivity|]. right.
      injection S as <- _ _. apply LO. left. reflexivity. }
    destruct (IH (pre ++ q) p' c' r' IT1 IA) as (ys & -> & LY & HY).
    { intros u U. rewrite <- LL. apply UB. right. exact U. }
    { destruct D' as [-> | D']; [left; reflexivity|]. right. intros u U. specialize (IT2 u U). lra. }
    eexists. split; [reflexivity|]. split; [cbn; rewrite LY; reflexivity|].
    intros [|i] u y x0 HU HYy HX LX; [|exact (HY i u y x0 HU HYy HX LX)].
    cbn in HU, HYy. injection HU as <-. injection HYy as <-.
    assert (fst p' <= t)%Q as PT.
    { destruct D' as [E|D']; [|lra]. rewrite E in HX. cbn in HX. injection HX as <-. exact LX. }
    assert (fst p' < fst c')%Q as PC.
    { clear - IA. rewrite map_app in IA. cbn [map] in IA. revert IA. unfold increasing.
      induction (map fst (pre ++ q)) as [|z l IHl]; cbn [app]; intros IA; destruct (SS_tail _ _ _ IA) as (J & F);
        [inversion F; assumption|exact (IHl J)]. }
    assert (~ (fst c' - fst p' == 0)%Q) as NZ by lra.
    set (l := (pre ++ q) ++ p' :: c' :: r').
    pose proof (nth_mid _ (pre ++ q) p' (c' :: r')) as N1. pose proof (nth_mid2 _ (pre ++ q) p' c' r') as N2. fold l in N1, N2.
    destruct (Qlt_le_dec (fst p') t) as [PT'|PT'].
    + destruct (Qlt_le_dec t (fst c')) as [TC|TC].
      * right. exists (length (pre ++ q)), (fst p'), (fst c'), (snd p'), (snd c').
        repeat (split; [apply nth_map_; first [exact N1|exact N2]|]). split; [exact PT'|]. split; [exact TC|].
        field. exact NZ.
      * left. exists (1 + length (pre ++ q)), (fst c'), (snd c'). split; [apply nth_map_; exact N2|].
        assert (t == fst c')%Q as E by lra. split; [lra|]. split; [apply nth_map_; exact N2|]. rewrite E. field. exact NZ.
    + left. exists (length (pre ++ q)), (fst p'), (snd p'). split; [apply nth_map_; exact N1|].
      assert (t == fst p')%Q as E by lra. split; [lra|]. split; [apply nth_map_; exact N1|]. rewrite E. field. exact NZ.
Qed.

Lemma map_fst_combine : forall (a b : list Q), length a = length b -> map fst (combine a b) = a /\ map snd (combine a b) = b.
Proof.
  induction a as [|x a IH]; intros [|y b] L; try discriminate; [split; reflexivity|]. injection L as L.
  destruct (IH b L) as (E & F). cbn. rewrite E, F. split; reflexivity.
Qed.

Lemma interpolate_ok : forall axis tr ts, length tr = length axis -> 2 <= length axis -> increasing axis -> increasing ts ->
  (forall t, In t ts -> (t <= last axis 0)%Q) ->
  exists ys, interpolate tr axis ts = Some ys /\ resampled axis tr ts ys.
Proof.
  intros axis tr ts L L2 IA IT UB. unfold interpolate.
  destruct (map_fst_combine axis tr (eq_sym L)) as (E1 & E2).
  destruct (combine axis tr) as [|p [|c r]] eqn:C; [rewrite <- E1 in L2; cbn in L2; lia|rewrite <- E1 in L2; cbn in L2; lia|].
  destruct (interp_from_ok ts [] p c r IT) as (ys & -> & LY & HY).
  - cbn [app]. rewrite E1. exact IA.
  - intros t T. apply (Qle_trans _ (last axis 0%Q)); [exact (UB t T)|]. rewrite <- E1. cbn. lra.
  - left. reflexivity.
  - exists ys. split; [reflexivity|]. split; [exact LY|]. cbn [app] in HY. rewrite E1, E2 in HY. exact HY.
Qed.
