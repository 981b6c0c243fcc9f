(** Meta-theory of the matcher: it explores exactly the matches of the declarative relation [reach], in order. *)
From Coq Require Import String Ascii List Bool Arith Lia.
From Verif Require Import PyStr Regex.
Import ListNotations.
Local Open Scope nat_scope.
Local Open Scope list_scope.

Definition state := (nat * str * caps)%type.
Definition st_text (x : state) : str := snd (fst x).

Inductive reach : re -> state -> state -> Prop :=
| R_eps : forall x, reach Eps x x
| R_chr : forall f p c s k, f c = true -> reach (Chr f) (p, c :: s, k) (S p, s, k)
| R_seq : forall a b x y z, reach a x y -> reach b y z -> reach (Seq a b) x z
| R_altl : forall a b x y, reach a x y -> reach (Alt a b) x y
| R_altr : forall a b x y, reach b x y -> reach (Alt a b) x y
| R_star0 : forall g a x, reach (Star g a) x x
| R_starS : forall g a x y z, reach a x y -> length (st_text y) < length (st_text x) ->
    reach (Star g a) y z -> reach (Star g a) x z
| R_grp : forall n a p s c p' s' c', reach a (p, s, c) (p', s', c') ->
    reach (Grp n a) (p, s, c) (p', s', (n, (p, p')) :: c')
| R_condt : forall n a b p s c y, cap n c <> None -> reach a (p, s, c) y -> reach (Cond n a b) (p, s, c) y
| R_condf : forall n a b p s c y, cap n c = None -> reach b (p, s, c) y -> reach (Cond n a b) (p, s, c) y
| R_eol : forall p s c, at_eol s = true -> reach Eol (p, s, c) (p, s, c).

Lemma m_none_iff : forall (R : Type) r p s c (k : @kont R),
  m r p s c k = None <-> forall p' s' c', reach r (p, s, c) (p', s', c') -> k p' s' c' = None.
Proof.
  intros R. induction r as [|f|a IHa b IHb|a IHa b IHb|g a IHa|n a IHa|n a IHa b IHb|]; intros p s c k; cbn [m].
  - split; [|intros H; apply H; constructor].
    intros H p' s' c' Hr. inversion Hr; subst. exact H.
  - split.
    + intros H p' s' c' Hr. inversion Hr; subst.
      match goal with E : f _ = true |- _ => rewrite E in H end. exact H.
    + intros H. destruct s as [|x s]; [reflexivity|]. destruct (f x) eqn:E; [|reflexivity]. apply H. constructor. exact E.
  - rewrite IHa. split.
    + intros H p' s' c' Hr. inversion Hr as [| |a0 b0 x y z H1 H2| | | | | | | |]; subst. destruct y as [[p1 s1] c1].
      apply (proj1 (IHb p1 s1 c1 k) (H _ _ _ H1)). exact H2.
    + intros H p1 s1 c1 H1. apply IHb. intros p' s' c' H2. apply H. econstructor; eassumption.
  - split.
    + intros H p' s' c' Hr. destruct (m a p s c k) eqn:E; [discriminate|].
      inversion Hr; subst; [eapply (proj1 (IHa _ _ _ _)); eassumption|eapply (proj1 (IHb _ _ _ _)); eassumption].
    + intros H. assert (m a p s c k = None) as ->.
      { apply IHa. intros p' s' c' Hr. apply H. apply R_altl. exact Hr. }
      apply IHb. intros p' s' c' Hr. apply H. apply R_altr. exact Hr.
  - assert (forall fuel p s c, length s <= fuel ->
      (star (m a) g fuel p s c k = None <->
       forall p' s' c', reach (Star g a) (p, s, c) (p', s', c') -> k p' s' c' = None)) as S.
    { clear p s c. induction fuel as [|fuel IH]; intros p s c Hf; cbn [star].
      - split; [|intros H; apply H; constructor].
        intros H p' s' c' Hr. inversion Hr as [| | | | |g0 a0 x|g0 a0 x y z H1 H2 H3| | | |]; subst; [exact H|].
        unfold st_text in H2; simpl in H2. lia.
      - set (more := m a p s c _).
        assert (more = None <-> forall p' s' c' y, reach a (p, s, c) y -> length (st_text y) < length s ->
                  reach (Star g a) y (p', s', c') -> k p' s' c' = None) as Hm.
        { unfold more. rewrite IHa. split.
          - intros H p' s' c' [[p1 s1] c1] H1 H2 H3. specialize (H _ _ _ H1). unfold st_text in H2; simpl in H2.
            destruct (Nat.ltb_spec (length s1) (length s)); [|lia]. apply (proj1 (IH p1 s1 c1 ltac:(lia)) H). exact H3.
          - intros H p1 s1 c1 H1. destruct (Nat.ltb_spec (length s1) (length s)) as [L|L]; [|reflexivity].
            apply IH; [lia|]. intros p' s' c' H3. eapply H; [exact H1|exact L|exact H3]. }
        assert ((forall p' s' c', reach (Star g a) (p, s, c) (p', s', c') -> k p' s' c' = None) <->
                (k p s c = None /\ more = None)) as Hall.
        { rewrite Hm. split.
          - intros H. split; [apply H; constructor|]. intros p' s' c' y H1 H2 H3. apply H. eapply R_starS; eassumption.
          - intros [H0 H] p' s' c' Hr. inversion Hr as [| | | | |g0 a0 x|g0 a0 x y z H1 H2 H3| | | |]; subst; [exact H0|].
            eapply H; eassumption. }
        rewrite Hall. destruct g; destruct more, (k p s c); intuition (discriminate || congruence). }
    apply S. apply le_n.
  - rewrite IHa. split.
    + intros H p' s' c' Hr. inversion Hr; subst. apply H. assumption.
    + intros H p' s' c' Hr. apply H. constructor. exact Hr.
  - destruct (cap n c) eqn:E.
    + rewrite IHa. split; intros H p' s' c' Hr.
      * inversion Hr; subst; [apply H; assumption|congruence].
      * apply H. apply R_condt; [congruence|exact Hr].
    + rewrite IHb. split; intros H p' s' c' Hr.
      * inversion Hr; subst; [congruence|apply H; assumption].
      * apply H. apply R_condf; [congruence|exact Hr].
  - destruct (at_eol s) eqn:E; split; intros H.
    + intros p' s' c' Hr. inversion Hr; subst. exact H.
    + apply H. constructor. exact E.
    + intros p' s' c' Hr. inversion Hr; subst. congruence.
    + reflexivity.
Qed.

Lemma star_some : forall (R : Type) a (Ha : forall p s c (k : @kont R) x, m a p s c k = Some x ->
    exists p' s' c', reach a (p, s, c) (p', s', c') /\ k p' s' c' = Some x) g fuel p s c (k : @kont R) x,
  star (m a) g fuel p s c k = Some x -> exists p' s' c', reach (Star g a) (p, s, c) (p', s', c') /\ k p' s' c' = Some x.
Proof.
  intros R a Ha g. induction fuel as [|fuel IH]; intros p s c k x H; cbn [star] in H.
  - exists p, s, c. split; [constructor|exact H].
  - set (more := m a p s c _) in H.
    assert (k p s c = Some x \/ more = Some x) as [E|E].
    { destruct g; [destruct more; [right; exact H|left; exact H]|destruct (k p s c); [left; exact H|right; exact H]]. }
    + exists p, s, c. split; [constructor|exact E].
    + destruct (Ha _ _ _ _ _ E) as (p1 & s1 & c1 & R1 & H1).
      destruct (Nat.ltb_spec (length s1) (length s)) as [L|L]; [|discriminate].
      destruct (IH _ _ _ _ _ H1) as (p2 & s2 & c2 & R2 & H2).
      exists p2, s2, c2. split; [eapply R_starS; [exact R1|exact L|exact R2]|exact H2].
Qed.

Lemma m_some : forall (R : Type) r p s c (k : @kont R) x,
  m r p s c k = Some x -> exists p' s' c', reach r (p, s, c) (p', s', c') /\ k p' s' c' = Some x.
Proof.
  intros R. induction r as [|f|a IHa b IHb|a IHa b IHb|g a IHa|n a IHa|n a IHa b IHb|]; intros p s c k x H; cbn [m] in H.
  - exists p, s, c. split; [constructor|exact H].
  - destruct s as [|y s]; [discriminate|]. destruct (f y) eqn:E; [|discriminate]. exists (S p), s, c. split; [constructor; exact E|exact H].
  - destruct (IHa _ _ _ _ _ H) as (p1 & s1 & c1 & R1 & H1). destruct (IHb _ _ _ _ _ H1) as (p2 & s2 & c2 & R2 & H2).
    exists p2, s2, c2. split; [econstructor; eassumption|exact H2].
  - destruct (m a p s c k) eqn:E.
    + injection H as ->. destruct (IHa _ _ _ _ _ E) as (p1 & s1 & c1 & R1 & H1). exists p1, s1, c1. split; [apply R_altl; exact R1|exact H1].
    + destruct (IHb _ _ _ _ _ H) as (p1 & s1 & c1 & R1 & H1). exists p1, s1, c1. split; [apply R_altr; exact R1|exact H1].
  - eapply star_some; [exact IHa|exact H].
  - destruct (IHa _ _ _ _ _ H) as (p1 & s1 & c1 & R1 & H1). eexists _, _, _. split; [constructor; exact R1|exact H1].
  - destruct (cap n c) eqn:E.
    + destruct (IHa _ _ _ _ _ H) as (p1 & s1 & c1 & R1 & H1). exists p1, s1, c1. split; [apply R_condt; [congruence|exact R1]|exact H1].
    + destruct (IHb _ _ _ _ _ H) as (p1 & s1 & c1 & R1 & H1). exists p1, s1, c1. split; [apply R_condf; [congruence|exact R1]|exact H1].
  - destruct (at_eol s) eqn:E; [|discriminate]. exists p, s, c. split; [constructor; exact E|exact H].
Qed.

(** The part of the text that was consumed, and where the groups lie. *)
Lemma reach_text : forall r x y, reach r x y ->
  exists u, st_text x = u ++ st_text y /\ fst (fst y) = fst (fst x) + length u.
Proof.
  intros r x y H. induction H; unfold st_text in *; cbn [fst snd] in *.
  - exists []. split; [reflexivity|simpl; lia].
  - exists [c]. split; [reflexivity|simpl; lia].
  - destruct IHreach1 as (u & E1 & P1), IHreach2 as (v & E2 & P2). exists (u ++ v).
    rewrite E1, E2, P2, P1, app_assoc, app_length. split; [reflexivity|lia].
  - exact IHreach.
  - exact IHreach.
  - exists []. split; [reflexivity|simpl; lia].
  - destruct IHreach1 as (u & E1 & P1), IHreach2 as (v & E2 & P2). exists (u ++ v).
    rewrite E1, E2, P2, P1, app_assoc, app_length. split; [reflexivity|lia].
  - exact IHreach.
  - exact IHreach.
  - exact IHreach.
  - exists []. split; [reflexivity|simpl; lia].
Qed.

Definition new_caps (lo hi : nat) (l : caps) : Prop :=
  Forall (fun x => lo <= fst (snd x) /\ fst (snd x) <= snd (snd x) /\ snd (snd x) <= hi) l.
Lemma new_caps_weaken : forall lo hi lo' hi' l, new_caps lo hi l -> lo' <= lo -> hi <= hi' -> new_caps lo' hi' l.
Proof. intros lo hi lo' hi' l H A B. eapply Forall_impl; [|exact H]. simpl. intros x (X & Y & Z). lia. Qed.

Lemma reach_caps : forall r x y, reach r x y ->
  exists l, snd y = l ++ snd x /\ new_caps (fst (fst x)) (fst (fst y)) l.
Proof.
  intros r x y H. induction H; cbn [fst snd] in *.
  - exists []. split; [reflexivity|constructor].
  - exists []. split; [reflexivity|constructor].
  - destruct IHreach1 as (l1 & E1 & P1), IHreach2 as (l2 & E2 & P2).
    destruct (reach_text _ _ _ H) as (u1 & _ & L1). destruct (reach_text _ _ _ H0) as (u2 & _ & L2).
    exists (l2 ++ l1). rewrite E2, E1, app_assoc. split; [reflexivity|].
    apply Forall_app. split; [eapply new_caps_weaken; [exact P2|lia|lia]|eapply new_caps_weaken; [exact P1|lia|lia]].
  - exact IHreach.
  - exact IHreach.
  - exists []. split; [reflexivity|constructor].
  - destruct IHreach1 as (l1 & E1 & P1), IHreach2 as (l2 & E2 & P2).
    destruct (reach_text _ _ _ H) as (u1 & _ & L1). destruct (reach_text _ _ _ H1) as (u2 & _ & L2).
    exists (l2 ++ l1). rewrite E2, E1, app_assoc. split; [reflexivity|].
    apply Forall_app. split; [eapply new_caps_weaken; [exact P2|lia|lia]|eapply new_caps_weaken; [exact P1|lia|lia]].
  - destruct IHreach as (l & -> & P). exists ((n, (p, p')) :: l). split; [reflexivity|].
    destruct (reach_text _ _ _ H) as (u & _ & L). cbn [fst snd] in L. constructor; [cbn; lia|exact P].
  - exact IHreach.
  - exact IHreach.
  - exists []. split; [reflexivity|constructor].
Qed.

Lemma cap_in : forall n l x, cap n l = Some x -> In (n, x) l.
Proof.
  intros n l x. induction l as [|[k y] l IH]; simpl; [discriminate|]. destruct (Nat.eqb_spec k n); intros H.
  - injection H as ->. subst. left. reflexivity.
  - right. exact (IH H).
Qed.

(** re.match: groups lie inside the matched part of the text. *)
Lemma re_match_bounds : forall r s e c, re_match r s = Some (e, c) ->
  e <= length s /\ forall n a b, cap n c = Some (a, b) -> a <= b /\ b <= e.
Proof.
  intros r s e c H. unfold re_match in H. destruct (m_some _ _ _ _ _ _ _ H) as (p' & s' & c' & Hr & E).
  injection E as <- <-. destruct (reach_text _ _ _ Hr) as (u & E1 & P). unfold st_text in E1; cbn [fst snd] in *.
  destruct (reach_caps _ _ _ Hr) as (l & E2 & N). cbn [fst snd] in *. rewrite app_nil_r in E2. subst c'.
  split; [rewrite P, E1, app_length; lia|]. intros n a b Hc. apply cap_in in Hc.
  unfold new_caps in N. rewrite Forall_forall in N. specialize (N _ Hc). cbn [fst snd] in N. lia.
Qed.

(** ** Working with the matcher *)
Section Lemmas.
Context {R : Type}.
Implicit Types k : @kont R.

Lemma m_seq : forall a b p s c k, m (Seq a b) p s c k = m a p s c (fun p' s' c' => m b p' s' c' k).
Proof. reflexivity. Qed.
Lemma m_grp : forall n a p s c k, m (Grp n a) p s c k = m a p s c (fun p' s' c' => k p' s' ((n, (p, p')) :: c')).
Proof. reflexivity. Qed.
Lemma m_chr_ok : forall f x p s c k, f x = true -> m (Chr f) p (x :: s) c k = k (S p) s c.
Proof. intros f x p s c k H. cbn [m]. rewrite H. reflexivity. Qed.
Lemma m_chr_no : forall f x p s c k, f x = false -> m (Chr f) p (x :: s) c k = None.
Proof. intros f x p s c k H. cbn [m]. rewrite H. reflexivity. Qed.

(** greedy repetition of a class takes the longest run if that leads to a match *)
Lemma m_star_all : forall f u p s c k x, forallb f u = true ->
  match s with y :: _ => f y = false | [] => True end ->
  k (p + length u) s c = Some x -> m (Star true (Chr f)) p (u ++ s) c k = Some x.
Proof.
  intros f u p s c k x Hu Hs Hk. cbn [m].
  assert (forall fuel p, length (u ++ s) <= fuel -> k (p + length u) s c = Some x ->
            star (m (Chr f)) true fuel p (u ++ s) c k = Some x) as S; [|apply S; [apply le_n|exact Hk]].
  clear p Hk. revert Hu. induction u as [|y u IH]; intros Hu fuel p Hf Hk.
  - cbn [app length] in *. rewrite Nat.add_0_r in Hk. destruct fuel as [|fuel]; cbn [star]; [exact Hk|].
    destruct s as [|z s]; cbn [m]; [exact Hk|]. rewrite Hs. exact Hk.
  - cbn [forallb] in Hu. apply andb_true_iff in Hu. destruct Hu as [Hy Hu].
    destruct fuel as [|fuel]; [simpl in Hf; lia|]. cbn [star app m]. rewrite Hy. cbn [length].
    destruct (Nat.ltb_spec (length (u ++ s)) (S (length (u ++ s)))); [|lia].
    rewrite IH; [reflexivity|exact Hu|simpl in Hf; lia|]. cbn [length] in Hk. rewrite <- Hk. f_equal. lia.
Qed.
Lemma m_plus_all : forall f y u p s c k x, f y = true -> forallb f u = true ->
  match s with z :: _ => f z = false | [] => True end ->
  k (p + S (length u)) s c = Some x -> m (Plus (Chr f)) p (y :: u ++ s) c k = Some x.
Proof.
  intros f y u p s c k x Hy Hu Hs Hk. unfold Plus. cbn [m]. rewrite Hy.
  apply (m_star_all f u (S p) s c k x Hu Hs). rewrite <- Hk. f_equal. lia.
Qed.
(** a lazy repetition takes nothing if that leads to a match *)
Lemma m_star_lazy0 : forall a p s c k x, k p s c = Some x -> m (Star false a) p s c k = Some x.
Proof. intros a p s c k x H. cbn [m]. destruct (length s); cbn [star]; rewrite H; reflexivity. Qed.
Lemma m_opt_no : forall a p s c k, m a p s c k = None -> m (Opt a) p s c k = k p s c.
Proof. intros a p s c k H. unfold Opt. cbn [m]. rewrite H. reflexivity. Qed.
Lemma m_opt_yes : forall a p s c k x, m a p s c k = Some x -> m (Opt a) p s c k = Some x.
Proof. intros a p s c k x H. unfold Opt. cbn [m]. rewrite H. reflexivity. Qed.
(** the start of a repetition of a class that does not match *)
Lemma m_plus_no : forall f p s c k, match s with y :: _ => f y = false | [] => True end -> m (Plus (Chr f)) p s c k = None.
Proof. intros f p s c k H. unfold Plus. cbn [m]. destruct s; [reflexivity|]. rewrite H. reflexivity. Qed.
Lemma m_star_none : forall a p s c k, m a p s c (fun p' s' c' => if length s' <? length s then
    star (m a) true (length s - 1) p' s' c' k else None) = None ->
  m (Star true a) p s c k = k p s c.
Proof.
  intros a p s c k H. cbn [m]. destruct s as [|y s]; [reflexivity|]. cbn [length star] in *.
  rewrite Nat.sub_succ, Nat.sub_0_r in H. rewrite H. reflexivity.
Qed.
End Lemmas.
