(** The end of a statement: parameters, blanks and comment. *)
From Coq Require Import String Ascii List Bool Arith Lia.
From Verif Require Import PyStr EngModel EngProofs EngCaseProofs PTokModel PTokSpec PTokProofs Regex RegexProofs RegexInv RegexMore CompModel CompSpec CompMatch.
Import ListNotations.
Local Open Scope string_scope.
Local Open Scope nat_scope.
Local Open Scope list_scope.

Lemma reach_sp0 : forall p s c y, reach sp0 (p, s, c) y <-> exists u s', s = u ++ s' /\ forallb is_space u = true /\ y = (p + length u, s', c).
Proof. intros. unfold sp0. apply reach_star_chr. Qed.
Lemma reach_sp1 : forall p s c y, reach sp1 (p, s, c) y <-> exists u s', s = u ++ s' /\ u <> [] /\ forallb is_space u = true /\ y = (p + length u, s', c).
Proof. intros. unfold sp1. apply reach_plus_run. Qed.
Lemma reach_lit : forall a p s c y, reach (lit a) (p, s, c) y <-> exists s', s = a :: s' /\ y = (S p, s', c).
Proof.
  intros a p s c y. unfold lit. rewrite reach_chr. split.
  - intros (x & s' & -> & H & ->). apply aeqb_eq in H. subst. eauto.
  - intros (s' & -> & ->). exists a, s'. rewrite aeqb_refl. auto.
Qed.

(** the blanks and comment after the parameters *)
Definition tail_ok (tb cm : str) : Prop :=
  forallb is_space tb = true /\
  (cm = [] \/ (tb <> [] /\ exists t z, cm = ";"%char :: t ++ z /\ forallb not_nl t = true /\ (z = [] \/ z = [NLc]))).

Lemma comment_inv : forall p s c y, reach comment_re (p, s, c) y ->
  (exists b s', s = b ++ ";"%char :: s' /\ b <> [] /\ forallb is_space b = true) \/ (exists s', s = "\"%char :: s') \/ forallb is_space s = true.
Proof.
  intros p s c y H. unfold comment_re in H. cbn [seqs] in H. apply reach_seq in H. destruct H as (x & A & B).
  apply reach_opt in A. destruct A as [A| ->].
  - left. apply reach_seq in A. destruct A as (z & A & A'). apply reach_sp1 in A. destruct A as (u & s' & -> & N & U & ->).
    apply reach_seq in A'. destruct A' as (z & A & A'). apply reach_lit in A. destruct A as (s2 & -> & _). eauto.
  - right. apply reach_seq in B. destruct B as (z & A & A'). apply reach_opt in A. destruct A as [A| ->].
    + left. apply reach_lit in A. destruct A as (s' & -> & _). eauto.
    + right. apply reach_seq in A'. destruct A' as (y' & C & D). apply reach_sp0 in C. destruct C as (u & s' & -> & U & ->).
      apply reach_eol in D. destruct D as [D _]. rewrite forallb_app, U. destruct s' as [|a [|b s']]; [reflexivity| |discriminate].
      cbn [at_eol] in D. apply aeqb_eq in D. subst. reflexivity.
Qed.
Lemma comment_ok : forall p tb cm c, tail_ok tb cm -> exists y, reach comment_re (p, tb ++ cm, c) y /\ snd y = c.
Proof.
  intros p tb cm c [B [-> | (N & t & z & -> & T & Z)]]; unfold comment_re; cbn [seqs].
  - exists (p + length tb, [], c). split; [|reflexivity]. apply reach_seq. exists (p, tb ++ [], c). split; [apply reach_opt; right; reflexivity|].
    apply reach_seq. exists (p, tb ++ [], c). split; [apply reach_opt; right; reflexivity|].
    apply reach_seq. exists (p + length tb, [], c). split; [apply reach_sp0; exists tb, []; auto|]. apply reach_eol. auto.
  - exists (S (p + length tb) + length t, z, c). split; [|reflexivity].
    apply reach_seq. exists (S (p + length tb) + length t, z, c). split.
    + apply reach_opt. left. apply reach_seq. exists (p + length tb, ";"%char :: t ++ z, c). split; [apply reach_sp1; exists tb, (";"%char :: t ++ z); auto|].
      apply reach_seq. exists (S (p + length tb), t ++ z, c). split; [apply reach_lit; exists (t ++ z); auto|].
      unfold dot. apply reach_star_chr. exists t, z. auto.
    + apply reach_seq. exists (S (p + length tb) + length t, z, c). split; [apply reach_opt; right; reflexivity|].
      apply reach_seq. exists (S (p + length tb) + length t, z, c). split; [apply reach_sp0; exists [], z; rewrite Nat.add_0_r; auto|].
      apply reach_eol. split; [destruct Z as [-> | ->]; reflexivity|reflexivity].
Qed.
Lemma comment_gids : gids comment_re = [].
Proof. reflexivity. Qed.

(** one parameter *)
Definition item_re : re := seqs [sp1; word1; sp0; Opt (seqs [lit "="; sp0; Plus (Chr parc)])].
Definition item_src_re : re := seqs [sp1; word1; sp0; lit "="; sp0; Plus (Chr parc)].
Definition ptext (l : list (str * param)) : str := concat (map (fun bp => fst bp ++ param_text (snd bp)) l).
Definition plist_ok (l : list (str * param)) : Prop :=
  Forall (fun bp => blank (fst bp) /\ fst bp <> [] /\ param_ok (snd bp)) l /\ Forall (fun bp => par_ok (snd bp)) l.
Lemma plist_cons : forall b q l, plist_ok ((b, q) :: l) -> (forallb is_space b = true /\ b <> [] /\ param_ok q /\ par_ok q) /\ plist_ok l.
Proof.
  intros b q l [H1 H2]. inversion H1 as [|? ? (A & B & C) D]; subst. inversion H2 as [|? ? E F]; subst. cbn [fst snd] in *.
  split; [exact (conj A (conj B (conj C E)))|exact (conj D F)].
Qed.
Lemma values_run : forall q, param_ok q -> par_ok q ->
  forallb parc (word_text (p_value q) ++ concat (map (fun bw => ","%char :: fst bw ++ word_text (snd bw)) (p_more q))) = true.
Proof.
  intros q (_ & _ & _ & _ & M) [_ V]. rewrite forallb_app, andb_true_iff. split.
  - apply forallb_forall. intros a Ha. apply parc_iff. apply (V (p_value q)); [left; reflexivity|exact Ha].
  - assert (forall bw, In bw (p_more q) -> blank (fst bw) /\ forall a, In a (word_text (snd bw)) -> parc a = true) as X.
    { intros bw Hb. rewrite Forall_forall in M. split; [apply (M bw Hb)|]. intros a Ha. apply parc_iff. apply (V (snd bw)); [|exact Ha].
      right. apply in_map. exact Hb. }
    clear V M. induction (p_more q) as [|bw l IH]; [reflexivity|]. cbn [map concat app forallb]. rewrite !forallb_app, IH by (intros; apply X; right; assumption).
    destruct (X bw (or_introl eq_refl)) as [B W]. change (parc ",") with true.
    assert (forallb parc (fst bw) = true) as F1.
    { apply forallb_forall. intros a Ha. unfold blank in B. rewrite forallb_forall in B. apply blank_facts. apply B. exact Ha. }
    assert (forallb parc (word_text (snd bw)) = true) as F2 by (apply forallb_forall; exact W).
    cbn [andb]. rewrite andb_true_r. apply andb_true_iff. split; [exact F1|exact F2].
Qed.
Lemma name_run : forall q, par_ok q -> forallb is_word (word_text (p_name q)) = true.
Proof. intros q [H _]. apply forallb_forall. exact H. Qed.
(** the parameter is matched as a whole *)
Lemma item_ok : forall p b q s c, forallb is_space b = true -> b <> [] -> param_ok q -> par_ok q ->
  reach item_src_re (p, (b ++ param_text q) ++ s, c) (p + length (b ++ param_text q), s, c).
Proof.
  intros p b q s c B NB Q Q'. pose proof (values_run q Q Q') as V. pose proof (name_run q Q') as N.
  destruct Q as (W & B1 & B2 & WV & M). unfold param_text in *.
  remember (word_text (p_value q) ++ concat (map (fun bw => ","%char :: fst bw ++ word_text (snd bw)) (p_more q))) as v eqn:Ev.
  assert (v <> []) as NV. { rewrite Ev. pose proof (word_nonempty _ WV) as X. destruct (word_text (p_value q)); [contradiction|discriminate]. }
  assert (forall t, (b ++ word_text (p_name q) ++ p_b1 q ++ "="%char :: p_b2 q ++ v) ++ t = b ++ word_text (p_name q) ++ p_b1 q ++ "="%char :: p_b2 q ++ v ++ t) as E.
  { intros t. repeat (rewrite <- app_assoc; cbn [app]). reflexivity. }
  rewrite E. unfold item_src_re. cbn [seqs].
  apply reach_seq. eexists. split; [apply reach_sp1; exists b; eexists; repeat split; [exact NB|exact B]|].
  apply reach_seq. eexists. split; [unfold word1; apply reach_plus_run; exists (word_text (p_name q)); eexists; repeat split; [apply word_nonempty; exact W|exact N]|].
  apply reach_seq. eexists. split; [apply reach_sp0; exists (p_b1 q); eexists; repeat split; exact B1|].
  apply reach_seq. eexists. split; [apply reach_lit; eexists; split; reflexivity|].
  apply reach_seq. eexists. split; [apply reach_sp0; exists (p_b2 q); eexists; repeat split; exact B2|].
  apply reach_plus_run. exists v, s. split; [reflexivity|split; [exact NV|split; [exact V|]]].
  f_equal. f_equal. rewrite !app_length. cbn [length]. rewrite app_length. lia.
Qed.
Lemma item_weaken : forall x y, reach item_src_re x y -> reach item_re x y.
Proof.
  intros [[p s] c] y H. unfold item_src_re, item_re in *. cbn [seqs] in *.
  apply reach_seq in H. destruct H as (x1 & A1 & H). apply reach_seq. exists x1. split; [exact A1|].
  apply reach_seq in H. destruct H as (x2 & A2 & H). apply reach_seq. exists x2. split; [exact A2|].
  apply reach_seq in H. destruct H as (x3 & A3 & H). apply reach_seq. exists x3. split; [exact A3|].
  apply reach_opt. left. exact H.
Qed.
Lemma items_src_ok : forall l p s c, plist_ok l -> reach (Star true item_src_re) (p, ptext l ++ s, c) (p + length (ptext l), s, c).
Proof.
  induction l as [|[b q] l IH]; intros p s c H; unfold ptext in *; cbn [map concat fst snd app length].
  - rewrite Nat.add_0_r. apply R_star0.
  - apply plist_cons in H. destruct H as [(B & NB & Q & Q') H]. rewrite <- (app_assoc (b ++ param_text q)).
    eapply R_starS; [apply item_ok; assumption| |].
    + unfold st_text. cbn [fst snd]. rewrite !app_length. destruct b; [contradiction|]. cbn [length]. lia.
    + rewrite (app_length (b ++ param_text q)), Nat.add_assoc. apply IH. exact H.
Qed.
Lemma items_ok : forall l p s c, plist_ok l -> reach (Star true item_re) (p, ptext l ++ s, c) (p + length (ptext l), s, c).
Proof.
  induction l as [|[b q] l IH]; intros p s c H; unfold ptext in *; cbn [map concat fst snd app length].
  - rewrite Nat.add_0_r. apply R_star0.
  - apply plist_cons in H. destruct H as [(B & NB & Q & Q') H]. rewrite <- (app_assoc (b ++ param_text q)).
    eapply R_starS; [apply item_weaken; apply item_ok; assumption| |].
    + unfold st_text. cbn [fst snd]. rewrite !app_length. destruct b; [contradiction|]. cbn [length]. lia.
    + rewrite (app_length (b ++ param_text q)), Nat.add_assoc. apply IH. exact H.
Qed.

(** what the text of the parameters looks like *)
Lemma app_nil_iff : forall (a b : str), a ++ b = [] <-> a = [] /\ b = [].
Proof. intros a b. split; [apply app_eq_nil|intros [-> ->]; reflexivity]. Qed.
Lemma param_text_last : forall q, param_ok q -> exists r d, param_text q = r ++ [d] /\ is_space d = false.
Proof.
  intros q (W & B1 & B2 & WV & M). unfold param_text.
  assert (exists r d, word_text (p_value q) ++ concat (map (fun bw => ","%char :: fst bw ++ word_text (snd bw)) (p_more q)) = r ++ [d] /\ is_space d = false) as (r & d & -> & D).
  { destruct (word_ends _ WV) as (_ & _ & d0 & v0 & _ & E0 & _ & D0 & _). destruct (p_more q) as [|m0 ms] eqn:Em.
    - exists v0, d0. cbn [map concat]. rewrite app_nil_r. auto.
    - assert (m0 :: ms <> []) as NM by discriminate. destruct (@exists_last _ (m0 :: ms) NM) as (l & [bb ww] & E). rewrite E in *.
      rewrite Forall_forall in M. destruct (M (bb, ww)) as [_ Wb]; [apply in_or_app; right; left; reflexivity|]. cbn [fst snd] in Wb.
      destruct (word_ends _ Wb) as (_ & _ & d1 & v1 & _ & E1 & _ & D1 & _).
      exists (word_text (p_value q) ++ concat (map (fun bw => ","%char :: fst bw ++ word_text (snd bw)) l) ++ ","%char :: bb ++ v1), d1.
      split; [|exact D1]. rewrite map_app, concat_app. cbn [map concat fst snd]. rewrite app_nil_r, E1. rewrite <- !app_assoc. cbn [app]. rewrite <- app_assoc. reflexivity. }
  exists (word_text (p_name q) ++ p_b1 q ++ "="%char :: p_b2 q ++ r), d. split; [|exact D]. repeat (rewrite <- app_assoc; cbn [app]). reflexivity.
Qed.
Lemma ptext_last : forall l, plist_ok l -> l <> [] -> exists r d, ptext l = r ++ [d] /\ is_space d = false.
Proof.
  intros l [H _] N. destruct (@exists_last _ l N) as (l0 & [b q] & ->). rewrite Forall_app in H. destruct H as [_ H].
  inversion H as [|? ? (_ & _ & Q) _]; subst. cbn [fst snd] in *. destruct (param_text_last q Q) as (r & d & E & D).
  exists (ptext l0 ++ b ++ r), d. unfold ptext. rewrite map_app, concat_app. cbn [map concat fst snd]. rewrite app_nil_r, E, <- !app_assoc. auto.
Qed.
Lemma ptext_start : forall b q l, plist_ok ((b, q) :: l) -> exists w s, ptext ((b, q) :: l) = b ++ w :: s /\ is_word w = true.
Proof.
  intros b q l H. apply plist_cons in H. destruct H as [(B & NB & Q & Q') _]. unfold ptext, param_text. cbn [map concat fst snd].
  destruct Q as (W & _). pose proof (word_nonempty _ W) as N. pose proof (name_run q Q') as R. destruct (word_text (p_name q)) as [|w t] eqn:E; [contradiction|].
  cbn [forallb] in R. apply andb_true_iff in R. exists w. eexists. split; [|apply R]. rewrite <- !app_assoc. cbn [app]. reflexivity.
Qed.
Lemma forallb_impl : forall (f g : ascii -> bool) s, (forall a, f a = true -> g a = true) -> forallb f s = true -> forallb g s = true.
Proof. intros f g s H. rewrite !forallb_forall. auto. Qed.
Definition itemc (a : ascii) : bool := is_word a || is_space a || aeqb a "=" || parc a.
Lemma ptext_chars : forall l, plist_ok l -> forallb itemc (ptext l) = true.
Proof.
  induction l as [|[b q] l IH]; intros H; [reflexivity|]. apply plist_cons in H. destruct H as [(B & NB & Q & Q') H].
  unfold ptext in *. cbn [map concat fst snd]. rewrite !forallb_app, IH by exact H. rewrite andb_true_r. unfold param_text.
  pose proof (values_run q Q Q') as V. pose proof (name_run q Q') as N. destruct Q as (W & B1 & B2 & _).
  assert (forall s, forallb is_space s = true -> forallb itemc s = true) as SP.
  { intros s. apply forallb_impl. intros a Ha. unfold itemc. rewrite Ha, orb_true_r. reflexivity. }
  rewrite (SP b B), forallb_app. cbn [andb].
  rewrite (forallb_impl is_word itemc _ ltac:(intros a Ha; unfold itemc; rewrite Ha; reflexivity) N). cbn [andb].
  rewrite forallb_app, (SP _ B1). cbn [andb forallb]. change (itemc "=") with true. cbn [andb]. rewrite forallb_app, (SP _ B2). cbn [andb].
  apply (forallb_impl parc); [|exact V]. intros a Ha. unfold itemc. rewrite Ha. apply orb_true_r.
Qed.
Lemma itemc_not : forall s, forallb itemc s = true -> ~ In ";"%char s /\ ~ In "\"%char s.
Proof.
  intros s H. rewrite forallb_forall in H. split; intros G; specialize (H _ G); destruct (par_facts _ H) as [A B]; auto.
Qed.

(** no comment starts inside the parameters *)
Lemma comment_not_inside : forall r d tb cm p c y, ~ In ";"%char (r ++ [d]) -> ~ In "\"%char (r ++ [d]) -> is_space d = false ->
  reach comment_re (p, (r ++ [d]) ++ tb ++ cm, c) y -> False.
Proof.
  intros r d tb cm p c y NS NB D H. destruct (comment_inv _ _ _ _ H) as [(b & s' & E & N & B)|[(s' & E)|E]].
  - destruct (app_cut _ _ _ _ E) as [(e & -> & _)|(e & E1 & E2)].
    + rewrite !forallb_app in B. cbn [forallb] in B. rewrite D, andb_false_r in B. discriminate.
    + destruct e as [|x e]; cbn [app] in E2.
      * rewrite app_nil_r in E1. subst b. rewrite forallb_app in B. cbn [forallb] in B. rewrite D, andb_false_r in B. discriminate.
      * injection E2 as <- _. apply NS. rewrite E1. apply in_or_app. right. left. reflexivity.
  - destruct r as [|x r]; cbn [app] in E; injection E as -> _; apply NB; left; reflexivity.
  - rewrite !forallb_app in E. cbn [forallb] in E. rewrite D, andb_false_r in E. discriminate.
Qed.
(** the first repetition of a parameter *)
Lemma items_inv : forall it p s c y, (it = item_re \/ it = item_src_re) -> reach (Star true it) (p, s, c) y ->
  y = (p, s, c) \/ exists b w s', s = b ++ w :: s' /\ b <> [] /\ forallb is_space b = true /\ is_word w = true.
Proof.
  intros it p s c y Hit H. apply reach_star in H. destruct H as [->|(z & A & _ & _)]; [left; reflexivity|]. right.
  assert (exists r2, reach (Seq sp1 (Seq word1 r2)) (p, s, c) z) as [r2 X] by (destruct Hit as [-> | ->]; eexists; exact A).
  apply reach_seq in X. destruct X as (x & X1 & X2). apply reach_sp1 in X1. destruct X1 as (b & s' & -> & N & B & ->).
  apply reach_seq in X2. destruct X2 as (x & X1 & _). unfold word1 in X1. apply reach_plus_chr in X1. destruct X1 as (w & u & s2 & -> & W & _).
  exists b, w, (u ++ s2). auto.
Qed.
Lemma items_only : forall it, it = item_re \/ it = item_src_re -> only itemc (Star true it).
Proof.
  assert (forall a, is_space a = true -> itemc a = true) as A by (intros a H; unfold itemc; rewrite H, orb_true_r; reflexivity).
  assert (forall a, is_word a = true -> itemc a = true) as B by (intros a H; unfold itemc; rewrite H; reflexivity).
  assert (forall a, aeqb a "=" = true -> itemc a = true) as C by (intros a H; unfold itemc; rewrite H, !orb_true_r; reflexivity).
  assert (forall a, parc a = true -> itemc a = true) as D by (intros a H; unfold itemc; rewrite H, !orb_true_r; reflexivity).
  intros it [-> | ->]; cbn; tauto.
Qed.
Lemma items_gids : forall it, it = item_re \/ it = item_src_re -> gids (Star true it) = [].
Proof. intros it [-> | ->]; reflexivity. Qed.

(** The parameter group is the text of the parameters and perhaps some of the blanks after it. *)
Lemma params_match : forall it l tb cm p c, (it = item_re \/ it = item_src_re) -> plist_ok l -> tail_ok tb cm ->
  exists e u v, tb = u ++ v /\ (l = [] -> u = []) /\
    m (Seq (Grp gPAR (Star true it)) comment_re) p (ptext l ++ tb ++ cm) c (fun p' _ c' => Some (p', c'))
    = Some (e, (gPAR, (p, p + length (ptext l ++ u))) :: c).
Proof.
  intros it l tb cm p c Hit Hl Ht.
  destruct (m_all _ (fun y => exists u v, tb = u ++ v /\ (l = [] -> u = []) /\ snd y = (gPAR, (p, p + length (ptext l ++ u))) :: c)
              (Seq (Grp gPAR (Star true it)) comment_re) p (ptext l ++ tb ++ cm) c (fun p' _ c' => Some (p', c'))) as ([e c2] & E & u & v & E1 & E2 & E3).
  - intros p' s' c' y H [= <-]. cbn [snd]. apply reach_seq in H. destruct H as (z & A & B).
    apply reach_grp in A. destruct A as (p1 & s1 & c1 & A & ->).
    destruct (reach_only itemc _ _ _ A (items_only it Hit)) as (w & Ew & W & Lw). unfold st_text in Ew; cbn [fst snd] in *.
    pose proof (reach_nocaps _ _ _ A (items_gids it Hit)) as C1. cbn [snd] in C1. subst c1.
    pose proof (reach_nocaps _ _ _ B comment_gids) as C2. cbn [snd] in C2. subst c'.
    destruct (app_cut _ _ _ _ Ew) as [(e & -> & E)|(e & EP & E)].
    + (* w = P ++ e, tb ++ cm = e ++ s1 *)
      assert (exists v, tb = e ++ v) as [v ->].
      { destruct (app_cut _ _ _ _ E) as [(f & -> & E')|(f & -> & _)]; [|eauto]. destruct f as [|x f]; [exists []; rewrite !app_nil_r; reflexivity|].
        exfalso. destruct Ht as [_ [-> | (_ & t & z & -> & _)]]; [discriminate|]. cbn [app] in E'. injection E' as <- _.
        rewrite app_assoc, forallb_app in W. apply andb_true_iff in W. destruct W as [_ W]. discriminate. }
      exists e, v. split; [reflexivity|]. split; [|rewrite Lw; reflexivity].
      intros ->. destruct (items_inv it _ _ _ _ Hit A) as [Y|(b & w' & s9 & Es & Nb & Bb & Ww)].
      * injection Y as Y _. unfold ptext in Lw. cbn [map concat app] in Lw. destruct e; [reflexivity|cbn [length] in Lw; lia].
      * exfalso. unfold ptext in Es. cbn [map concat app] in Es. destruct Ht as [Tb Tc].
        destruct (app_cut _ _ _ _ Es) as [(f & -> & E')|(f & E0 & E')].
        -- destruct f as [|x f]; cbn [app] in E'.
           ++ destruct Tc as [-> | (_ & t & z & -> & _)]; [discriminate|]. injection E' as <- _. discriminate Ww.
           ++ destruct Tc as [-> | (_ & t & z & -> & _)]; [discriminate|]. injection E' as <- _.
              rewrite forallb_app in Bb. apply andb_true_iff in Bb. destruct Bb as [_ Bb]. discriminate.
        -- destruct f as [|x f]; cbn [app] in E'.
           ++ destruct Tc as [-> | (_ & t & z & -> & _)]; [discriminate|]. injection E' as -> _. discriminate Ww.
           ++ injection E' as -> _. rewrite E0, forallb_app in Tb. cbn [forallb] in Tb. rewrite !andb_true_iff in Tb. destruct Tb as (_ & Tb & _).
              destruct (word_facts _ Ww) as [X _]. congruence.
    + (* w is a proper prefix of P *)
      destruct e as [|x e]; [exists [], tb; rewrite app_nil_r in *; cbn [app] in E; subst; repeat split; rewrite Lw; reflexivity|].
      exfalso. destruct l as [|bq l']; [unfold ptext in EP; cbn [map concat] in EP; destruct w; discriminate|].
      destruct (ptext_last (bq :: l') Hl ltac:(discriminate)) as (r & d & Er & D). pose proof (ptext_chars _ Hl) as PC.
      assert (exists r', x :: e = r' ++ [d]) as [r' Er'].
      { destruct (@exists_last _ (x :: e) ltac:(discriminate)) as (r' & d' & Ex). exists r'. rewrite Ex in EP |- *. rewrite Er, app_assoc in EP.
        apply app_inj_tail in EP. destruct EP as [_ ->]. reflexivity. }
      rewrite EP, forallb_app in PC. apply andb_true_iff in PC. destruct PC as [_ PC]. apply itemc_not in PC. destruct PC as [P1 P2].
      rewrite Er' in *. subst s1. exact (comment_not_inside _ _ _ _ _ _ _ P1 P2 D B).
  - destruct (comment_ok (p + length (ptext l)) tb cm ((gPAR, (p, p + length (ptext l))) :: c) Ht) as ([[p2 s2] c2] & H2 & E2). cbn [snd] in E2. subst c2.
    exists p2, s2, ((gPAR, (p, p + length (ptext l))) :: c). eexists. split; [|reflexivity].
    apply reach_seq. eexists. split; [|exact H2]. apply reach_grp. exists (p + length (ptext l)), (tb ++ cm), c. split; [|reflexivity].
    destruct Hit as [-> | ->]; [apply items_ok|apply items_src_ok]; exact Hl.
  - cbn [snd] in E3. subst c2. exists e, u, v. auto.
Qed.

(** a text that is no end of statement *)
Definition no_end (s : str) : Prop :=
  (exists x r, s = x :: r /\ is_space x = false /\ x <> "\"%char) \/
  (exists b x r, s = b ++ x :: r /\ b <> [] /\ forallb is_space b = true /\ is_space x = false /\ is_word x = false /\ x <> ";"%char).
Lemma blank_cut : forall b x r b' x' r', b ++ x :: r = b' ++ x' :: r' -> forallb is_space b = true -> forallb is_space b' = true ->
  is_space x = false -> is_space x' = false -> b = b' /\ x = x' /\ r = r'.
Proof.
  intros b x r b' x' r' E B B' X X'. destruct (cut_class is_space b (x :: r) b' (x' :: r') E B B' X X') as [-> E2]. injection E2 as -> ->. auto.
Qed.
Lemma comment_no_end : forall s p c y, no_end s -> reach comment_re (p, s, c) y -> False.
Proof.
  intros s p c y N H. destruct (comment_inv _ _ _ _ H) as [(b & s' & E & Nb & B)|[(s' & E)|E]].
  - destruct N as [(x & r & -> & X & _)|(b0 & x & r & -> & N0 & B0 & X & _ & X2)].
    + destruct b as [|a b]; [contradiction|]. injection E as -> _. cbn [forallb] in B. rewrite X in B. discriminate.
    + destruct (blank_cut _ _ _ _ _ _ E B0 B X eq_refl) as (_ & -> & _). apply X2. reflexivity.
  - destruct N as [(x & r & -> & _ & X)|(b0 & x & r & -> & N0 & B0 & _)]; [injection E as -> _; apply X; reflexivity|].
    destruct b0 as [|a b0]; [contradiction|]. injection E as -> _. discriminate B0.
  - destruct N as [(x & r & -> & X & _)|(b0 & x & r & -> & N0 & B0 & X & _)].
    + cbn [forallb] in E. rewrite X in E. discriminate.
    + rewrite forallb_app in E. cbn [forallb] in E. rewrite X, andb_false_r in E. discriminate.
Qed.
Lemma items_no_end : forall it s p c y, (it = item_re \/ it = item_src_re) -> no_end s -> reach (Star true it) (p, s, c) y -> y = (p, s, c).
Proof.
  intros it s p c y Hit N H. destruct (items_inv it _ _ _ _ Hit H) as [->|(b & w & s' & E & Nb & B & W)]; [reflexivity|]. exfalso.
  destruct (word_facts _ W) as [W' _].
  destruct N as [(x & r & -> & X & _)|(b0 & x & r & -> & N0 & B0 & X & X1 & _)].
  - destruct b as [|a b]; [contradiction|]. injection E as -> _. cbn [forallb] in B. rewrite X in B. discriminate.
  - destruct (blank_cut _ _ _ _ _ _ E B0 B X W') as (_ & -> & _). congruence.
Qed.
Lemma param_re_none : forall (R : Type) s p c (k : @kont R), no_end s -> m param_re p s c k = None.
Proof.
  intros R s p c k N. apply m_none_iff. intros p' s' c' H. exfalso. unfold param_re in H. apply reach_seq in H. destruct H as (z & A & B).
  apply reach_opt in A. destruct A as [A|A].
  - apply reach_grp in A. destruct A as (p1 & s1 & c1 & A & ->). fold item_re in A.
    pose proof (items_no_end item_re _ _ _ _ (or_introl eq_refl) N A) as E. injection E as -> -> ->. exact (comment_no_end _ _ _ _ N B).
  - subst z. exact (comment_no_end _ _ _ _ N B).
Qed.
Lemma param_re_match : forall l tb cm p c, plist_ok l -> tail_ok tb cm ->
  exists e u v, tb = u ++ v /\ (l = [] -> u = []) /\
    m param_re p (ptext l ++ tb ++ cm) c (fun p' _ c' => Some (p', c')) = Some (e, (gPAR, (p, p + length (ptext l ++ u))) :: c).
Proof.
  intros l tb cm p c Hl Ht. destruct (params_match item_re l tb cm p c (or_introl eq_refl) Hl Ht) as (e & u & v & A & B & C).
  exists e, u, v. split; [exact A|]. split; [exact B|]. unfold param_re. rewrite m_seq. apply m_opt_yes. exact C.
Qed.
