(** Inversion and introduction rules for the match relation. *)
From Coq Require Import String Ascii List Bool Arith Lia.
From Verif Require Import PyStr Regex RegexProofs.
Import ListNotations.
Local Open Scope nat_scope.
Local Open Scope list_scope.

Lemma reach_eps : forall x y, reach Eps x y <-> y = x.
Proof. intros x y. split; [intros H; inversion H; reflexivity|intros ->; constructor]. Qed.
Lemma reach_seq : forall a b x z, reach (Seq a b) x z <-> exists y, reach a x y /\ reach b y z.
Proof.
  intros a b x z. split; [intros H; inversion H; subst; eauto|intros (y & A & B); econstructor; eassumption].
Qed.
Lemma reach_alt : forall a b x y, reach (Alt a b) x y <-> reach a x y \/ reach b x y.
Proof.
  intros a b x y. split; [intros H; inversion H; subst; auto|intros [H|H]; [apply R_altl|apply R_altr]; exact H].
Qed.
Lemma reach_opt : forall a x y, reach (Opt a) x y <-> reach a x y \/ y = x.
Proof. intros a x y. unfold Opt. rewrite reach_alt, reach_eps. reflexivity. Qed.
Lemma reach_chr : forall f p s c y, reach (Chr f) (p, s, c) y <-> exists a s', s = a :: s' /\ f a = true /\ y = (S p, s', c).
Proof.
  intros f p s c y. split.
  - intros H. inversion H; subst. eauto.
  - intros (a & s' & -> & Ha & ->). constructor. exact Ha.
Qed.
Lemma reach_grp : forall n a p s c y, reach (Grp n a) (p, s, c) y <->
  exists p' s' c', reach a (p, s, c) (p', s', c') /\ y = (p', s', (n, (p, p')) :: c').
Proof.
  intros n a p s c y. split.
  - intros H. inversion H; subst. eauto 6.
  - intros (p' & s' & c' & H & ->). constructor. exact H.
Qed.
Lemma reach_eol : forall p s c y, reach Eol (p, s, c) y <-> at_eol s = true /\ y = (p, s, c).
Proof. intros p s c y. split; [intros H; inversion H; subst; auto|intros [H ->]; constructor; exact H]. Qed.
Lemma reach_cond : forall n a b p s c y, reach (Cond n a b) (p, s, c) y <->
  (cap n c <> None /\ reach a (p, s, c) y) \/ (cap n c = None /\ reach b (p, s, c) y).
Proof.
  intros n a b p s c y. split.
  - intros H. inversion H; subst; auto.
  - intros [[A B]|[A B]]; [apply R_condt|apply R_condf]; assumption.
Qed.

(** repetition of a class *)
Lemma reach_star_chr : forall g f p s c y, reach (Star g (Chr f)) (p, s, c) y <->
  exists u s', s = u ++ s' /\ forallb f u = true /\ y = (p + length u, s', c).
Proof.
  intros g f p s c y. split.
  - intros H. remember (Star g (Chr f)) as r eqn:Er. remember (p, s, c) as x eqn:Ex. revert p s Ex.
    induction H; try discriminate Er; intros p0 s0 Ex; subst.
    + exists [], s0. rewrite Nat.add_0_r. auto.
    + injection Er as -> ->. apply reach_chr in H. destruct H as (a0 & s' & -> & Ha & ->).
      destruct (IHreach2 eq_refl (S p0) s' eq_refl) as (u & s2 & -> & Hu & ->).
      exists (a0 :: u), s2. cbn [length forallb app]. rewrite Ha, Hu. repeat split. f_equal. f_equal. lia.
  - intros (u & s' & -> & Hu & ->). revert p. induction u as [|a u IH]; intros p.
    + cbn [app length]. rewrite Nat.add_0_r. apply R_star0.
    + cbn [forallb] in Hu. apply andb_true_iff in Hu. destruct Hu as [Ha Hu].
      eapply R_starS; [cbn [app]; apply R_chr; exact Ha|unfold st_text; cbn [fst snd length app]; lia|].
      replace (p + length (a :: u)) with (S p + length u) by (cbn [length]; lia). apply IH. exact Hu.
Qed.
Lemma reach_plus_chr : forall f p s c y, reach (Plus (Chr f)) (p, s, c) y <->
  exists a u s', s = a :: u ++ s' /\ f a = true /\ forallb f u = true /\ y = (p + S (length u), s', c).
Proof.
  intros f p s c y. unfold Plus. rewrite reach_seq. split.
  - intros (x & A & B). apply reach_chr in A. destruct A as (a & s' & -> & Ha & ->). apply reach_star_chr in B.
    destruct B as (u & s2 & -> & Hu & ->). exists a, u, s2. repeat split; [assumption..|]. f_equal. f_equal. lia.
  - intros (a & u & s' & -> & Ha & Hu & ->). exists (S p, u ++ s', c). split; [apply R_chr; exact Ha|].
    apply reach_star_chr. exists u, s'. repeat split; [assumption|]. f_equal. f_equal. lia.
Qed.
Lemma reach_star : forall g a x y, reach (Star g a) x y <->
  y = x \/ exists z, reach a x z /\ length (st_text z) < length (st_text x) /\ reach (Star g a) z y.
Proof.
  intros g a x y. split.
  - intros H. inversion H; subst; [left; reflexivity|right; eauto].
  - intros [->|(z & A & B & C)]; [constructor|eapply R_starS; eassumption].
Qed.

(** what a match consumes *)
Lemma reach_len : forall r p s c p' s' c', reach r (p, s, c) (p', s', c') -> p + length s = p' + length s' /\ exists u, s = u ++ s' /\ p' = p + length u.
Proof.
  intros r p s c p' s' c' H. destruct (reach_text _ _ _ H) as (u & E & P). unfold st_text in E. cbn [fst snd] in *. subst s.
  rewrite app_length. split; [lia|]. exists u. auto.
Qed.

(** two ways to cut the same text: a run of a class followed by a character outside it *)
Lemma cut_class : forall (f : ascii -> bool) u t u' t', u ++ t = u' ++ t' -> forallb f u = true -> forallb f u' = true ->
  match t with a :: _ => f a = false | [] => True end -> match t' with a :: _ => f a = false | [] => True end ->
  u = u' /\ t = t'.
Proof.
  induction u as [|a u IH]; intros t u' t' E Hu Hu' Ht Ht'.
  - destruct u' as [|b u']; [auto|]. exfalso. cbn [app] in E. subst t. cbn [forallb] in Hu'. apply andb_true_iff in Hu'. destruct Hu'. congruence.
  - cbn [forallb] in Hu. apply andb_true_iff in Hu. destruct Hu as [Ha Hu]. destruct u' as [|b u'].
    + exfalso. cbn [app] in E. subst t'. congruence.
    + cbn [app] in E. injection E as <- E. cbn [forallb] in Hu'. apply andb_true_iff in Hu'. destruct Hu' as [_ Hu'].
      destruct (IH t u' t' E Hu Hu' Ht Ht') as [-> ->]. auto.
Qed.

(** the matcher finds a match if there is one *)
Lemma re_match_exists : forall r s p' s' c', reach r (0, s, []) (p', s', c') -> exists e c, re_match r s = Some (e, c).
Proof.
  intros r s p' s' c' H. unfold re_match. destruct (m r 0 s [] (fun p _ c => Some (p, c))) as [[e c]|] eqn:E; [eauto|].
  exfalso. rewrite m_none_iff in E. specialize (E _ _ _ H). discriminate.
Qed.
Lemma re_match_reach : forall r s e c, re_match r s = Some (e, c) -> exists s', reach r (0, s, []) (e, s', c).
Proof.
  intros r s e c H. unfold re_match in H. destruct (m_some _ _ _ _ _ _ _ H) as (p' & s' & c' & R & E). injection E as <- <-. eauto.
Qed.
