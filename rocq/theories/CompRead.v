(** Every family of components: the groups found in the text of a statement. *)
From Coq Require Import String Ascii List Bool Arith Lia.
From Verif Require Import PyStr EngModel EngProofs EngCaseProofs PTokModel PTokSpec PTokProofs Regex RegexProofs RegexInv RegexMore CompModel CompSpec CompMatch CompTail.
Import ListNotations.
Local Open Scope string_scope.
Local Open Scope nat_scope.
Local Open Scope list_scope.

Definition nsp (c : ascii) : bool := negb (is_space c).
Definition modelc (c : ascii) : bool := is_word c || mem_c c (s2l ".-{}").
Lemma modelc_facts : forall c, modelc c = true -> is_space c = false /\ c <> ";"%char /\ c <> "="%char /\ c <> "\"%char.
Proof.
  intros c H. assert (implb (modelc c) (negb (is_space c) && negb (aeqb c ";") && negb (aeqb c "=") && negb (aeqb c "\")) = true) as X.
  { apply (sweep1 (fun c => implb (modelc c) (negb (is_space c) && negb (aeqb c ";") && negb (aeqb c "=") && negb (aeqb c "\")))). vm_cast_no_check (eq_refl true). }
  rewrite H in X. cbn [implb] in X. rewrite !andb_true_iff, !negb_true_iff, !aeqb_neq in X. tauto.
Qed.
Lemma nodec_facts : forall c, nodec c = true -> is_space c = false /\ c <> ";"%char /\ c <> "="%char.
Proof.
  intros c H. assert (implb (nodec c) (negb (is_space c) && negb (aeqb c ";") && negb (aeqb c "=")) = true) as X.
  { apply (sweep1 (fun c => implb (nodec c) (negb (is_space c) && negb (aeqb c ";") && negb (aeqb c "=")))). vm_cast_no_check (eq_refl true). }
  rewrite H in X. cbn [implb] in X. rewrite !andb_true_iff, !negb_true_iff, !aeqb_neq in X. tauto.
Qed.
Lemma nsp_run : forall f s, (forall a, f a = true -> is_space a = false) -> forallb f s = true -> forallb nsp s = true.
Proof. intros f s H. apply forallb_impl. intros a Ha. unfold nsp. rewrite (H a Ha). reflexivity. Qed.

(** blank or empty *)
Definition boe (s : str) : Prop := match s with c :: _ => is_space c = true | [] => True end.
Lemma cut_blank : forall w R t A, w ++ R = t ++ A -> forallb nsp w = true -> forallb nsp t = true -> boe R -> boe A -> w = t /\ R = A.
Proof.
  intros w R t A E W T HR HA. apply (cut_class nsp); try assumption.
  - destruct R; [exact I|]. unfold nsp. cbn in HR. rewrite HR. reflexivity.
  - destruct A; [exact I|]. unfold nsp. cbn in HA. rewrite HA. reflexivity.
Qed.
Lemma tail_boe : forall l tb cm, plist_ok l -> tail_ok tb cm -> boe (ptext l ++ tb ++ cm).
Proof.
  intros [|[b q] l] tb cm Hl [Tb Tc].
  - unfold ptext. cbn [map concat app]. destruct tb as [|a tb].
    + destruct Tc as [-> | (N & _)]; [exact I|contradiction].
    + cbn [forallb] in Tb. apply andb_true_iff in Tb. apply Tb.
  - apply plist_cons in Hl. destruct Hl as [(B & NB & _) _]. destruct b as [|a b]; [contradiction|]. cbn [forallb] in B. apply andb_true_iff in B. apply B.
Qed.
(** after the value: nothing that could be read as one more word, or "name =" *)
Lemma tail_shape : forall l tb cm, plist_ok l -> tail_ok tb cm ->
  (exists b s, ptext l ++ tb ++ cm = b ++ s /\ forallb is_space b = true /\ match s with a :: _ => a = ";"%char | [] => True end) \/
  (exists b n b1 s, ptext l ++ tb ++ cm = b ++ n ++ b1 ++ "="%char :: s /\ b <> [] /\ n <> [] /\ forallb is_space b = true /\ forallb is_word n = true /\ forallb is_space b1 = true).
Proof.
  intros [|[b q] l] tb cm Hl [Tb Tc].
  - left. exists tb, cm. split; [reflexivity|]. split; [exact Tb|]. destruct Tc as [-> | (_ & t & z & -> & _)]; reflexivity || exact I.
  - right. apply plist_cons in Hl. destruct Hl as [(B & NB & Q & Q') _]. pose proof (name_run q Q') as N. destruct Q as (W & B1 & B2 & WV & M).
    exists b, (word_text (p_name q)), (p_b1 q). eexists. split; [|split; [exact NB|split; [apply word_nonempty; exact W|split; [exact B|split; [exact N|exact B1]]]]].
    unfold ptext, param_text. cbn [map concat fst snd]. repeat (rewrite <- app_assoc; cbn [app]). reflexivity.
Qed.

(** a blank run followed by a character that is none is taken whole, or leaves a blank *)
Lemma sp1_then : forall p s c y f b r, reach (Seq sp1 (Plus (Chr f))) (p, s, c) y -> (forall a, f a = true -> is_space a = false) ->
  s = b ++ r -> forallb is_space b = true -> match r with a :: _ => is_space a = false | [] => True end ->
  exists w r', w <> [] /\ forallb f w = true /\ r = w ++ r' /\ y = (p + length b + length w, r', c).
Proof.
  intros p s c y f b r H F -> B R. apply reach_seq in H. destruct H as (z & A & C). apply reach_sp1 in A. destruct A as (u & s' & E & N & U & ->).
  apply reach_plus_run in C. destruct C as (w & r' & -> & NW & W & ->). destruct w as [|a w]; [contradiction|].
  assert (is_space a = false) as Ha. { apply F. cbn [forallb] in W. apply andb_true_iff in W. apply W. }
  destruct (cut_class is_space b r u ((a :: w) ++ r') E B U R) as [-> ->]; [exact Ha|].
  exists (a :: w), r'. auto.
Qed.
Lemma word_head : forall n s, n <> [] -> forallb is_word n = true -> match n ++ s with a :: _ => is_space a = false | [] => True end.
Proof. intros [|a n] s N H; [contradiction|]. cbn [forallb] in H. apply andb_true_iff in H. apply word_facts. apply H. Qed.
Lemma eq_no_end : forall n b1 s, forallb is_word n = true -> forallb is_space b1 = true -> no_end (n ++ b1 ++ "="%char :: s).
Proof.
  intros [|a n] b1 s N B1.
  - destruct b1 as [|a b1].
    + left. exists "="%char, s. split; [reflexivity|split; [reflexivity|discriminate]].
    + right. exists (a :: b1), "="%char, s. repeat split; try assumption; discriminate.
  - left. cbn [forallb] in N. apply andb_true_iff in N. destruct N as [N _]. exists a. eexists. split; [reflexivity|]. split; [apply word_facts; exact N|].
    intros ->. discriminate.
Qed.

(** no value can be found after the value *)
Lemma model_tail_none : forall (R : Type) l tb cm p c (k : @kont R), plist_ok l -> tail_ok tb cm ->
  m (Seq model_re param_re) p (ptext l ++ tb ++ cm) c k = None.
Proof.
  intros R l tb cm p c k Hl Ht. rewrite m_seq. apply m_none_iff. intros p' s' c' H. unfold model_re in H.
  apply reach_seq in H. destruct H as ([[p1 s1] c1] & H1 & H2). apply reach_grp in H2. destruct H2 as (p2 & s2 & c2 & H2 & E). injection E as -> -> ->.
  assert (reach (Seq sp1 (Plus (Chr modelc))) (p, ptext l ++ tb ++ cm, c) (p2, s2, c2)) as H by (apply reach_seq; eexists; split; [exact H1|exact H2]).
  assert (forall a, modelc a = true -> is_space a = false) as MC by (intros a Ha; apply modelc_facts; exact Ha).
  destruct (tail_shape l tb cm Hl Ht) as [(b & s & E & B & S)|(b & n & b1 & s & E & NB & NN & B & N & B1)].
  - assert (match s with a :: _ => is_space a = false | [] => True end) as S' by (destruct s; [exact I|subst; reflexivity]).
    destruct (sp1_then _ _ _ _ modelc b s H MC E B S') as (w & r' & NW & W & -> & _).
    destruct w as [|a w]; [contradiction|]. cbn [app] in S. subst a. cbn [forallb] in W. discriminate.
  - destruct (sp1_then _ _ _ _ modelc b (n ++ b1 ++ "="%char :: s) H MC E B (word_head n _ NN N)) as (w & r' & NW & W & Er & E').
    injection E' as -> -> ->. apply param_re_none.
    destruct (app_cut _ _ _ _ Er) as [(e & -> & Er')|(e & -> & ->)].
    + destruct e as [|a e]; [cbn [app] in Er'; subst r'; apply (eq_no_end []); [reflexivity|assumption]|]. exfalso.
      rewrite forallb_app in W. apply andb_true_iff in W. destruct W as [_ W]. cbn [forallb] in W. apply andb_true_iff in W. destruct W as [W _].
      destruct (modelc_facts a W) as (W1 & _ & W2 & _). destruct b1 as [|x b1]; injection Er' as E1 _; subst.
      * apply W2. reflexivity.
      * cbn [forallb] in B1. apply andb_true_iff in B1. destruct B1. congruence.
    + apply eq_no_end; [|assumption]. rewrite forallb_app in N. apply andb_true_iff in N. apply N.
Qed.
(** nor a further node and then a value *)
Lemma node_sp1 : forall p s c y j, reach (Seq node_re (upto j node_re)) (p, s, c) y -> starts_with_blank s.
Proof.
  intros p s c y j H. apply reach_seq in H. destruct H as (z & H & _). unfold node_re in H. apply reach_seq in H. destruct H as (z' & H & _).
  apply reach_sp1 in H. destruct H as (u & s' & -> & N & U & _). apply swb_app; assumption.
Qed.
Lemma model_needs_blank : forall (R : Type) p s c (k : @kont R), ~ starts_with_blank s -> m (Seq model_re param_re) p s c k = None.
Proof.
  intros R p s c k H. rewrite m_seq. unfold model_re. rewrite m_seq. unfold sp1. apply m_plus_no. destruct s as [|a s]; [exact I|].
  destruct (is_space a) eqn:E; [exfalso; apply H; exact E|reflexivity].
Qed.
Lemma upto_cases : forall j x y, reach (upto j node_re) x y -> y = x \/ exists j', reach (Seq node_re (upto j' node_re)) x y.
Proof.
  intros [|j] x y H; cbn [upto] in H; [left; apply reach_eps in H; exact H|]. apply reach_opt in H. destruct H as [H| ->]; [right; eauto|left; reflexivity].
Qed.
Lemma swb_dec : forall s, starts_with_blank s \/ ~ starts_with_blank s.
Proof. intros [|a s]; [right; intros []|]. cbn. destruct (is_space a); [left; reflexivity|right; discriminate]. Qed.
(** what follows a node cut out of [t]: either the next thing cannot match, or the node is the whole of [t] *)
Lemma node_after : forall p b t A c y, reach node_re (p, b ++ t ++ A, c) y -> forallb is_space b = true -> t <> [] -> forallb nsp t = true -> boe A ->
  exists p' s', y = (p', s', c) /\ (starts_with_blank s' -> s' = A).
Proof.
  intros p b t A c y H B NT T HA.
  destruct (sp1_then p (b ++ t ++ A) c y nodec b (t ++ A) H) as (w & r' & NW & W & E & ->); [intros a Ha; apply nodec_facts; exact Ha|reflexivity|exact B| |].
  - destruct t as [|a t]; [contradiction|]. cbn [app forallb] in *. apply andb_true_iff in T. destruct T as [T _]. unfold nsp in T. apply negb_true_iff in T. exact T.
  - eexists _, _. split; [reflexivity|]. intros S. destruct (cut_blank w r' t A) as [_ ->]; [auto| |exact T| |exact HA|reflexivity].
    + apply (nsp_run nodec); [intros a Ha; apply nodec_facts; exact Ha|exact W].
    + destruct r'; [exact I|exact S].
Qed.
Lemma extra_none : forall (R : Type) gap v l tb cm p c j n (k : @kont R), plist_ok l -> tail_ok tb cm ->
  forallb is_space gap = true -> v <> [] -> forallb nsp v = true ->
  m (Seq node_re (upto j node_re)) p (gap ++ v ++ ptext l ++ tb ++ cm) c (fun p' s' c' => m (Seq model_re param_re) p' s' ((gNODES, (n, p')) :: c') k) = None.
Proof.
  intros R gap v l tb cm p c j n k Hl Ht G NV V. apply m_none_iff. intros p' s' c' H.
  apply reach_seq in H. destruct H as (z & H1 & H2). pose proof (tail_boe l tb cm Hl Ht) as HA.
  destruct (node_after _ _ _ _ _ _ H1 G NV V HA) as (p1 & s1 & -> & S1).
  destruct (upto_cases _ _ _ H2) as [E|(j' & H3)].
  - injection E as -> -> ->. destruct (swb_dec s1) as [S|S]; [rewrite (S1 S); apply model_tail_none; assumption|apply model_needs_blank; exact S].
  - pose proof (S1 (node_sp1 _ _ _ _ _ H3)) as E1. clear S1 H1 H2. subst s1. apply reach_seq in H3. destruct H3 as (z & H1 & H2).
    destruct (tail_shape l tb cm Hl Ht) as [(b & s & E & B & S)|(b & nm & b1 & s & E & NB & NN & B & N & B1)].
    + exfalso. assert (match s with a :: _ => is_space a = false | [] => True end) as S' by (destruct s; [exact I|subst; reflexivity]).
      destruct (sp1_then _ _ _ _ nodec b s H1 ltac:(intros a Ha; apply nodec_facts; exact Ha) E B S') as (w & r' & NW & W & -> & _).
      destruct w as [|a w]; [contradiction|]. cbn [app] in S. subst a. cbn [forallb] in W. discriminate.
    + rewrite E in H1. assert (starts_with_blank s' \/ ~ starts_with_blank s') as [S|S] by apply swb_dec.
      2: { apply model_needs_blank. exact S. }
      destruct (sp1_then _ _ _ _ nodec b (nm ++ b1 ++ "="%char :: s) H1 ltac:(intros a Ha; apply nodec_facts; exact Ha) eq_refl B (word_head nm _ NN N)) as (w & r' & NW & W & Er & ->).
      assert (starts_with_blank r' -> r' = b1 ++ "="%char :: s) as X.
      { intros Sr. destruct (app_cut _ _ _ _ Er) as [(e & -> & Er')|(e & -> & ->)].
        - destruct e as [|a e]; [symmetry; exact Er'|]. exfalso.
          rewrite forallb_app in W. apply andb_true_iff in W. destruct W as [_ W]. cbn [forallb] in W. apply andb_true_iff in W. destruct W as [W _].
          destruct (nodec_facts a W) as (W1 & _ & W2). destruct b1 as [|x b1]; injection Er' as E1 _; subst.
          * apply W2. reflexivity.
          * cbn [forallb] in B1. apply andb_true_iff in B1. destruct B1. congruence.
        - destruct e as [|a e]; [reflexivity|]. exfalso. cbn [app] in Sr. rewrite forallb_app in N. apply andb_true_iff in N. destruct N as [_ N].
          cbn [forallb] in N. apply andb_true_iff in N. destruct N as [N _]. destruct (word_facts a N) as [Y _]. cbn in Sr. congruence. }
      destruct (upto_cases _ _ _ H2) as [E2|(j2 & H3)].
      * injection E2 as -> -> ->. rewrite (X S). rewrite m_seq. apply m_none_iff. intros p3 s3 c3 H3. exfalso. unfold model_re in H3.
        apply reach_seq in H3. destruct H3 as ([[p4 s4] c4] & H3 & H4). apply reach_grp in H4. destruct H4 as (p5 & s5 & c5 & H4 & E4). injection E4 as -> -> ->.
        assert (reach (Seq sp1 (Plus (Chr modelc))) (p1 + length b + length w, b1 ++ "="%char :: s, (gNODES, (n, p1 + length b + length w)) :: c) (p5, s5, c5)) as H
          by (apply reach_seq; eexists; split; [exact H3|exact H4]).
        destruct (sp1_then _ _ _ _ modelc b1 ("="%char :: s) H ltac:(intros a Ha; apply modelc_facts; exact Ha) eq_refl B1 eq_refl) as (w2 & r2 & NW2 & W2 & E5 & _).
        destruct w2 as [|a w2]; [contradiction|]. injection E5 as <- _. discriminate W2.
      * exfalso. pose proof (X (node_sp1 _ _ _ _ _ H3)) as ->. apply reach_seq in H3. destruct H3 as (z & H4 & _).
        destruct (sp1_then _ _ _ _ nodec b1 ("="%char :: s) H4 ltac:(intros a Ha; apply nodec_facts; exact Ha) eq_refl B1 eq_refl) as (w2 & r2 & NW2 & W2 & E5 & _).
        destruct w2 as [|a w2]; [contradiction|]. injection E5 as <- _. discriminate W2.
Qed.
