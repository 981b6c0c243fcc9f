(** More about the matcher: characters and groups of a match, and matches that are forced. *)
From Coq Require Import String Ascii List Bool Arith Lia.
From Verif Require Import PyStr Regex RegexProofs RegexInv.
Import ListNotations.
Local Open Scope nat_scope.
Local Open Scope list_scope.

(** the matcher returns one of the matches *)
Lemma m_all : forall (R : Type) (P : R -> Prop) r p s c (k : @kont R),
  (forall p' s' c' y, reach r (p, s, c) (p', s', c') -> k p' s' c' = Some y -> P y) ->
  (exists p' s' c' y, reach r (p, s, c) (p', s', c') /\ k p' s' c' = Some y) ->
  exists y, m r p s c k = Some y /\ P y.
Proof.
  intros R P r p s c k HA (p' & s' & c' & y & H & E). destruct (m r p s c k) as [z|] eqn:M.
  - exists z. split; [reflexivity|]. destruct (m_some _ _ _ _ _ _ _ M) as (p2 & s2 & c2 & H2 & E2). exact (HA _ _ _ _ H2 E2).
  - rewrite m_none_iff in M. rewrite (M _ _ _ H) in E. discriminate.
Qed.
Lemma m_unique : forall (R : Type) r p s c (k : @kont R) x,
  (forall p' s' c' y, reach r (p, s, c) (p', s', c') -> k p' s' c' = Some y -> y = x) ->
  (exists p' s' c', reach r (p, s, c) (p', s', c') /\ k p' s' c' = Some x) ->
  m r p s c k = Some x.
Proof.
  intros R r p s c k x HA (p' & s' & c' & H & E). destruct (m_all R (fun y => y = x) r p s c k HA) as (y & -> & ->); [|reflexivity].
  exists p', s', c', x. auto.
Qed.

(** the class of the characters a pattern can consume *)
Fixpoint only (g : ascii -> bool) (r : re) : Prop :=
  match r with
  | Eps | Eol => True
  | Chr f => forall a, f a = true -> g a = true
  | Seq a b | Alt a b | Cond _ a b => only g a /\ only g b
  | Star _ a | Grp _ a => only g a
  end.
Lemma reach_only : forall g r x y, reach r x y -> only g r -> exists u, st_text x = u ++ st_text y /\ forallb g u = true /\ fst (fst y) = fst (fst x) + length u.
Proof.
  intros g r x y H. unfold st_text in *. induction H; intros O; cbn [only fst snd] in *.
  - exists []. split; [reflexivity|split; [reflexivity|cbn; lia]].
  - exists [c]. cbn [forallb]. rewrite (O _ H). split; [reflexivity|split; [reflexivity|cbn; lia]].
  - destruct O as [O1 O2]. destruct (IHreach1 O1) as (u & -> & A & L1). destruct (IHreach2 O2) as (v & -> & B & L2). exists (u ++ v).
    rewrite forallb_app, A, B, app_assoc, app_length. split; [reflexivity|split; [reflexivity|lia]].
  - apply IHreach. apply O.
  - apply IHreach. apply O.
  - exists []. split; [reflexivity|split; [reflexivity|cbn; lia]].
  - destruct (IHreach1 O) as (u & -> & A & L1). destruct (IHreach2 O) as (v & -> & B & L2). exists (u ++ v).
    rewrite forallb_app, A, B, app_assoc, app_length. split; [reflexivity|split; [reflexivity|lia]].
  - apply IHreach. apply O.
  - apply IHreach. apply O.
  - apply IHreach. apply O.
  - exists []. split; [reflexivity|split; [reflexivity|cbn; lia]].
Qed.

(** the groups a pattern can capture *)
Fixpoint gids (r : re) : list nat :=
  match r with
  | Eps | Eol | Chr _ => []
  | Seq a b | Alt a b | Cond _ a b => gids a ++ gids b
  | Star _ a => gids a
  | Grp n a => n :: gids a
  end.
Lemma reach_cap : forall n r x y, reach r x y -> ~ In n (gids r) -> cap n (snd y) = cap n (snd x).
Proof.
  intros n r x y H. induction H; intros N; cbn [gids snd] in *; try reflexivity.
  - rewrite in_app_iff in N. rewrite IHreach2, IHreach1; [reflexivity|tauto..].
  - rewrite in_app_iff in N. apply IHreach. tauto.
  - rewrite in_app_iff in N. apply IHreach. tauto.
  - rewrite IHreach2, IHreach1 by assumption. reflexivity.
  - cbn [cap]. destruct (Nat.eqb_spec n0 n) as [->|D]; [exfalso; apply N; left; reflexivity|]. apply IHreach. intros G. apply N. right. exact G.
  - rewrite in_app_iff in N. apply IHreach. tauto.
  - rewrite in_app_iff in N. apply IHreach. tauto.
Qed.
Lemma reach_nocaps : forall r x y, reach r x y -> gids r = [] -> snd y = snd x.
Proof.
  intros r x y H. induction H; intros N; cbn [gids snd] in *; try reflexivity; try discriminate.
  - apply app_eq_nil in N. destruct N. rewrite IHreach2, IHreach1; [reflexivity|assumption..].
  - apply app_eq_nil in N. apply IHreach. apply N.
  - apply app_eq_nil in N. apply IHreach. apply N.
  - rewrite IHreach2, IHreach1 by assumption. reflexivity.
  - apply app_eq_nil in N. apply IHreach. apply N.
  - apply app_eq_nil in N. apply IHreach. apply N.
Qed.

(** choices *)
Lemma m_opt_first : forall (R : Type) a p s c (k : @kont R) (P : R -> Prop),
  (exists y, m a p s c k = Some y /\ P y) -> exists y, m (Opt a) p s c k = Some y /\ P y.
Proof. intros R a p s c k P (y & E & H). exists y. split; [|exact H]. apply m_opt_yes. exact E. Qed.
(** a run of blanks, taken whole *)
Lemma m_sp1_all : forall (R : Type) b p s c (k : @kont R) x, b <> [] -> forallb is_space b = true ->
  match s with z :: _ => is_space z = false | [] => True end ->
  k (p + length b) s c = Some x -> m sp1 p (b ++ s) c k = Some x.
Proof.
  intros R b p s c k x N B S K. destruct b as [|y u]; [contradiction|]. cbn [forallb] in B. apply andb_true_iff in B. destruct B as [By Bu].
  unfold sp1. exact (m_plus_all is_space y u p s c k x By Bu S K).
Qed.
Lemma m_plus_run : forall (R : Type) f w p s c (k : @kont R) x, w <> [] -> forallb f w = true ->
  match s with z :: _ => f z = false | [] => True end ->
  k (p + length w) s c = Some x -> m (Plus (Chr f)) p (w ++ s) c k = Some x.
Proof.
  intros R f w p s c k x N B S K. destruct w as [|y u]; [contradiction|]. cbn [forallb] in B. apply andb_true_iff in B. destruct B as [By Bu].
  exact (m_plus_all f y u p s c k x By Bu S K).
Qed.
Lemma reach_plus_run : forall f p s c y, reach (Plus (Chr f)) (p, s, c) y <->
  exists w s', s = w ++ s' /\ w <> [] /\ forallb f w = true /\ y = (p + length w, s', c).
Proof.
  intros f p s c y. rewrite reach_plus_chr. split.
  - intros (a & u & s' & -> & A & B & ->). exists (a :: u), s'. cbn [forallb length app]. rewrite A, B.
    repeat split; try reflexivity; [discriminate].
  - intros (w & s' & -> & N & B & ->). destruct w as [|a u]; [contradiction|]. cbn [forallb] in B. apply andb_true_iff in B. destruct B.
    exists a, u, s'. auto.
Qed.

(** cuts of the same text *)
Lemma app_cut : forall (a b c d : str), a ++ b = c ++ d -> (exists e, c = a ++ e /\ b = e ++ d) \/ (exists e, a = c ++ e /\ d = e ++ b).
Proof.
  induction a as [|x a IH]; intros b c d E.
  - left. exists c. auto.
  - destruct c as [|y c]; [right; exists (x :: a); auto|]. injection E as -> E. destruct (IH _ _ _ E) as [(e & -> & ->)|(e & -> & ->)].
    + left. exists e. auto.
    + right. exists e. auto.
Qed.
