(** Sub-circuit instances ("X" statements): where their groups are. *)
From Coq Require Import String Ascii List Bool Arith Lia.
From Verif Require Import PyStr Regex RegexProofs RegexInv RegexMore PTokSpec PTokProofs CompModel CompSpec CompMatch CompTail CompRead CompFam EngCaseProofs.
Import ListNotations.
Local Open Scope string_scope.
Local Open Scope nat_scope.
Local Open Scope list_scope.

Definition xpar_re : re :=
  seqs [word1; sp0; lit "="; sp0; Opt (oneof (s2l "'{" ++ ["034"%char])); Star false dot; Opt (oneof (s2l "'}" ++ ["034"%char])); sp0].
Definition xpars_re : re := seqs [sp1; Opt (Seq (ilit (s2l "params:")) sp0); Grp gPAR (Plus xpar_re)].
Definition xtail_re : re := Seq (Opt xpars_re) comment_re.
Lemma x_regex : regex_of "X" = Some (Seq (prefix_nodes "X" 1 98) (Seq model_re xtail_re)).
Proof. reflexivity. Qed.

Lemma xpars_start : forall p s c y, reach xpars_re (p, s, c) y -> exists u x r, s = u ++ x :: r /\ u <> [] /\ forallb is_space u = true /\ is_word x = true.
Proof.
  intros p s c y H. unfold xpars_re in H. cbn [seqs] in H. apply reach_seq in H. destruct H as (z & A & B). apply reach_sp1 in A. destruct A as (u & s' & -> & N & U & ->).
  assert (forall p s c y, reach (Plus xpar_re) (p, s, c) y -> exists x r, s = x :: r /\ is_word x = true) as W.
  { clear. intros p s c y H. unfold Plus in H. apply reach_seq in H. destruct H as (z & A & _). unfold xpar_re in A. cbn [seqs] in A. apply reach_seq in A. destruct A as (z' & A & _).
    unfold word1 in A. apply reach_plus_run in A. destruct A as (w & r & -> & NW & WW & _). destruct w as [|x w]; [contradiction|]. cbn [forallb] in WW. apply andb_true_iff in WW. exists x, (w ++ r). split; [reflexivity|apply WW]. }
  apply reach_seq in B. destruct B as (z & A & B). apply reach_opt in A. destruct A as [A| ->].
  - apply reach_seq in A. destruct A as (z' & A & _). change (ilit (s2l "params:")) with (Seq (ichar "p") (seqs (map ichar (s2l "arams:")))) in A.
    apply reach_seq in A. destruct A as (z2 & A & _). unfold ichar in A. apply reach_chr in A. destruct A as (a & r & -> & Ha & _).
    exists u, a, r. split; [reflexivity|]. split; [exact N|]. split; [exact U|].
    revert a Ha. apply imp_sweep. vm_cast_no_check (eq_refl true).
  - apply reach_grp in B. destruct B as (p1 & s1 & c1 & B & _). destruct (W _ _ _ _ B) as (x & r & -> & Hx). exists u, x, r. auto.
Qed.
Lemma xtail_none : forall (R : Type) s p c (k : @kont R), no_end s -> m xtail_re p s c k = None.
Proof.
  intros R s p c k N. apply m_none_iff. intros p' s' c' H. exfalso. unfold xtail_re in H. apply reach_seq in H. destruct H as (z & A & B).
  apply reach_opt in A. destruct A as [A| ->]; [|exact (comment_no_end _ _ _ _ N B)].
  destruct (xpars_start _ _ _ _ A) as (u & x & r & -> & Nu & U & X). destruct (word_facts _ X) as [X' _].
  destruct N as [(x0 & r0 & E & X0 & _)|(b0 & x0 & r0 & E & N0 & B0 & X0 & X1 & _)].
  - destruct u as [|a u]; [contradiction|]. injection E as -> _. cbn [forallb] in U. rewrite X0 in U. discriminate.
  - destruct (blank_cut _ _ _ _ _ _ E U B0 X' X0) as (_ & -> & _). congruence.
Qed.
Lemma xmodel_tail_none : forall (R : Type) l tb cm p c (k : @kont R), plist_ok l -> tail_ok tb cm ->
  m (Seq model_re xtail_re) p (ptext l ++ tb ++ cm) c k = None.
Proof.
  intros R l tb cm p c k Hl Ht. rewrite m_seq. apply m_none_iff. intros p' s' c' H. unfold model_re in H.
  apply reach_seq in H. destruct H as ([[p1 s1] c1] & H1 & H2). apply reach_grp in H2. destruct H2 as (p2 & s2 & c2 & H2 & E). injection E as -> -> ->.
  assert (reach (Seq sp1 (Plus (Chr modelc))) (p, ptext l ++ tb ++ cm, c) (p2, s2, c2)) as H by (apply reach_seq; eexists; split; [exact H1|exact H2]).
  assert (forall a, modelc a = true -> is_space a = false) as MC by (intros a Ha; apply modelc_facts; exact Ha).
  destruct (tail_shape l tb cm Hl Ht) as [(b & s & E & B & S)|(b & n & b1 & s & E & NB & NN & B & N & B1)].
  - assert (match s with a :: _ => is_space a = false | [] => True end) as S' by (destruct s; [exact I|subst; reflexivity]).
    destruct (sp1_then _ _ _ _ modelc b s H MC E B S') as (w & r' & NW & W & -> & _).
    destruct w as [|a w]; [contradiction|]. cbn [app] in S. subst a. cbn [forallb] in W. discriminate.
  - destruct (sp1_then _ _ _ _ modelc b (n ++ b1 ++ "="%char :: s) H MC E B (word_head n _ NN N)) as (w & r' & NW & W & Er & E').
    injection E' as -> -> ->. apply xtail_none.
    destruct (app_cut _ _ _ _ Er) as [(e & -> & Er')|(e & -> & ->)].
    + destruct e as [|a e]; [cbn [app] in Er'; subst r'; apply (eq_no_end []); [reflexivity|assumption]|]. exfalso.
      rewrite forallb_app in W. apply andb_true_iff in W. destruct W as [_ W]. cbn [forallb] in W. apply andb_true_iff in W. destruct W as [W _].
      destruct (modelc_facts a W) as (W1 & _ & W2 & _). destruct b1 as [|x b1]; injection Er' as E1 _; subst.
      * apply W2. reflexivity.
      * cbn [forallb] in B1. apply andb_true_iff in B1. destruct B1. congruence.
    + apply eq_no_end; [|assumption]. rewrite forallb_app in N. apply andb_true_iff in N. apply N.
Qed.
Lemma xmodel_needs_blank : forall (R : Type) p s c (k : @kont R), ~ starts_with_blank s -> m (Seq model_re xtail_re) p s c k = None.
Proof.
  intros R p s c k H. rewrite m_seq. unfold model_re. rewrite m_seq. unfold sp1. apply m_plus_no. destruct s as [|a s]; [exact I|].
  destruct (is_space a) eqn:E; [exfalso; apply H; exact E|reflexivity].
Qed.
Lemma xextra_none : forall (R : Type) gap v l tb cm p c j n (k : @kont R), plist_ok l -> tail_ok tb cm ->
  forallb is_space gap = true -> v <> [] -> forallb nsp v = true ->
  m (Seq node_re (upto j node_re)) p (gap ++ v ++ ptext l ++ tb ++ cm) c (fun p' s' c' => m (Seq model_re xtail_re) p' s' ((gNODES, (n, p')) :: c') k) = None.
Proof.
  intros R gap v l tb cm p c j n k Hl Ht G NV V. apply m_none_iff. intros p' s' c' H.
  apply reach_seq in H. destruct H as (z & H1 & H2). pose proof (tail_boe l tb cm Hl Ht) as HA.
  destruct (node_after _ _ _ _ _ _ H1 G NV V HA) as (p1 & s1 & -> & S1).
  destruct (upto_cases _ _ _ H2) as [E|(j' & H3)].
  - injection E as -> -> ->. destruct (swb_dec s1) as [S|S]; [rewrite (S1 S); apply xmodel_tail_none; assumption|apply xmodel_needs_blank; exact S].
  - pose proof (S1 (node_sp1 _ _ _ _ _ H3)) as E1. clear S1 H1 H2. subst s1. apply reach_seq in H3. destruct H3 as (z & H1 & H2).
    destruct (tail_shape l tb cm Hl Ht) as [(b & s & E & B & S)|(b & nm & b1 & s & E & NB & NN & B & N & B1)].
    + exfalso. assert (match s with a :: _ => is_space a = false | [] => True end) as S' by (destruct s; [exact I|subst; reflexivity]).
      destruct (sp1_then _ _ _ _ nodec b s H1 ltac:(intros a Ha; apply nodec_facts; exact Ha) E B S') as (w & r' & NW & W & -> & _).
      destruct w as [|a w]; [contradiction|]. cbn [app] in S. subst a. cbn [forallb] in W. discriminate.
    + rewrite E in H1. assert (starts_with_blank s' \/ ~ starts_with_blank s') as [S|S] by apply swb_dec.
      2: { apply xmodel_needs_blank. exact S. }
      destruct (sp1_then _ _ _ _ nodec b (nm ++ b1 ++ "="%char :: s) H1 ltac:(intros a Ha; apply nodec_facts; exact Ha) eq_refl B (word_head nm _ NN N)) as (w & r' & NW & W & Er & ->).
      assert (starts_with_blank r' -> r' = b1 ++ "="%char :: s) as X.
      { intros Sr. destruct (app_cut _ _ _ _ Er) as [(e & -> & Er')|(e & -> & ->)].
        - destruct e as [|a e]; [symmetry; exact Er'|]. exfalso.
          rewrite forallb_app in W. apply andb_true_iff in W. destruct W as [_ W]. cbn [forallb] in W. apply andb_true_iff in W. destruct W as [W _].
          destruct (nodec_facts a W) as (W1 & _ & W2). destruct b1 as [|x b1]; injection Er' as E1 _; subst.
          * apply W2. reflexivity.
          * cbn [forallb] in B1. apply andb_true_iff in B1. destruct B1. congruence.
        - destruct e as [|a e]; [reflexivity|]. exfalso. cbn [app] in Sr. rewrite forallb_app in N. apply andb_true_iff in N. destruct N as [_ N].
          cbn [forallb] in N. apply andb_true_iff in N. destruct N as [N _]. destruct (word_facts a N) as [Y _]. cbn in Sr. congruence. }
      destruct (upto_cases _ _ _ H2) as [E2|(j2 & H3)].
      * injection E2 as -> -> ->. rewrite (X S). rewrite m_seq. apply m_none_iff. intros p3 s3 c3 H3. exfalso. unfold model_re in H3.
        apply reach_seq in H3. destruct H3 as ([[p4 s4] c4] & H3 & H4). apply reach_grp in H4. destruct H4 as (p5 & s5 & c5 & H4 & E4). injection E4 as -> -> ->.
        assert (reach (Seq sp1 (Plus (Chr modelc))) (p1 + length b + length w, b1 ++ "="%char :: s, (gNODES, (n, p1 + length b + length w)) :: c) (p5, s5, c5)) as H
          by (apply reach_seq; eexists; split; [exact H3|exact H4]).
        destruct (sp1_then _ _ _ _ modelc b1 ("="%char :: s) H ltac:(intros a Ha; apply modelc_facts; exact Ha) eq_refl B1 eq_refl) as (w2 & r2 & NW2 & W2 & E5 & _).
        destruct w2 as [|a w2]; [contradiction|]. injection E5 as <- _. discriminate W2.
      * exfalso. pose proof (X (node_sp1 _ _ _ _ _ H3)) as ->. apply reach_seq in H3. destruct H3 as (z & H4 & _).
        destruct (sp1_then _ _ _ _ nodec b1 ("="%char :: s) H4 ltac:(intros a Ha; apply nodec_facts; exact Ha) eq_refl B1 eq_refl) as (w2 & r2 & NW2 & W2 & E5 & _).
        destruct w2 as [|a w2]; [contradiction|]. injection E5 as <- _. discriminate W2.
Qed.

Lemma xpar_ok_reach : forall p q b s c, param_ok q -> par_ok q -> (forall a, In a (param_text q) -> a <> NLc) -> forallb is_space b = true ->
  reach xpar_re (p, param_text q ++ b ++ s, c) (p + length (param_text q ++ b), s, c).
Proof.
  intros p q b s c Q Q' NLq B. pose proof (name_run q Q') as N.
  destruct Q as (W & B1 & B2 & WV & M). unfold param_text in *.
  remember (word_text (p_value q) ++ concat (map (fun bw => ","%char :: fst bw ++ word_text (snd bw)) (p_more q))) as v eqn:Ev.
  assert (forall t, (word_text (p_name q) ++ p_b1 q ++ "="%char :: p_b2 q ++ v) ++ t = word_text (p_name q) ++ p_b1 q ++ "="%char :: p_b2 q ++ v ++ t) as E.
  { intros t. repeat (rewrite <- app_assoc; cbn [app]). reflexivity. }
  rewrite !E. unfold xpar_re. cbn [seqs].
  apply reach_seq. eexists. split; [unfold word1; apply reach_plus_run; exists (word_text (p_name q)); eexists; repeat split; [apply word_nonempty; exact W|exact N]|].
  apply reach_seq. eexists. split; [apply reach_sp0; exists (p_b1 q); eexists; repeat split; exact B1|].
  apply reach_seq. eexists. split; [apply reach_lit; eexists; split; reflexivity|].
  apply reach_seq. eexists. split; [apply reach_sp0; exists (p_b2 q); eexists; repeat split; exact B2|].
  apply reach_seq. eexists. split; [apply reach_opt; right; reflexivity|].
  apply reach_seq. eexists. split.
  { unfold dot. apply reach_star_chr. exists v, (b ++ s). split; [reflexivity|]. split; [|reflexivity]. apply forallb_forall. intros a Ha. unfold not_nl. rewrite negb_true_iff, aeqb_neq. apply NLq.
    rewrite !in_app_iff. right. right. right. rewrite in_app_iff. right. exact Ha. }
  apply reach_seq. eexists. split; [apply reach_opt; right; reflexivity|].
  apply reach_sp0. exists b, s. split; [reflexivity|]. split; [exact B|].
  f_equal. f_equal. rewrite !app_length. cbn [length]. rewrite !app_length. lia.
Qed.
Lemma xpars_reach : forall l b q p s c, plist_ok ((b, q) :: l) -> (forall a, In a (ptext ((b, q) :: l)) -> a <> NLc) ->
  reach (Plus xpar_re) (p, param_text q ++ ptext l ++ s, c) (p + length (param_text q ++ ptext l), s, c).
Proof.
  induction l as [|[b' q'] l IH]; intros b q p s c H HN; destruct (plist_cons _ _ _ H) as [(B & NB & Q & Q') H'].
  - assert (forall a, In a (param_text q) -> a <> NLc) as Nq by (intros a Ha; apply HN; unfold ptext; cbn [map concat fst snd]; rewrite !in_app_iff; tauto).
    unfold ptext. cbn [map concat app]. unfold Plus. apply reach_seq. eexists. split; [apply (xpar_ok_reach p q [] s c Q Q' Nq); reflexivity|]. apply R_star0.
  - assert (forall a, In a (param_text q) -> a <> NLc) as Nq by (intros a Ha; apply HN; unfold ptext; cbn [map concat fst snd]; rewrite !in_app_iff; tauto).
    destruct (plist_cons _ _ _ H') as [(Bb & NBb & Qb & Qb') _].
    unfold ptext. cbn [map concat fst snd]. fold (ptext l). unfold Plus. apply reach_seq.
    rewrite <- !app_assoc. eexists. split; [apply (xpar_ok_reach p q b' (param_text q' ++ ptext l ++ s) c Q Q' Nq Bb)|].
    assert (reach (Plus xpar_re) (p + length (param_text q ++ b'), param_text q' ++ ptext l ++ s, c) (p + length (param_text q ++ b') + length (param_text q' ++ ptext l), s, c)) as R.
    { apply (IH b' q'); [exact H'|]. intros a Ha. apply HN. unfold ptext in *. cbn [map concat fst snd] in *. rewrite !in_app_iff in *. tauto. }
    unfold Plus in R. apply reach_seq in R. destruct R as (z & R1 & R2). replace (p + length (param_text q ++ b' ++ param_text q' ++ ptext l)) with (p + length (param_text q ++ b') + length (param_text q' ++ ptext l)) by (rewrite !app_length; lia).
    eapply R_starS; [exact R1| |exact R2].
    destruct z as [[zp zs] zc]. unfold st_text. cbn [fst snd]. destruct (reach_len _ _ _ _ _ _ _ R1) as (L & u & Eu & Ep).
    assert (u <> []) as Nu.
    { unfold xpar_re in R1. cbn [seqs] in R1. apply reach_seq in R1. destruct R1 as ([[a1 a2] a3] & A & A'). unfold word1 in A. apply reach_plus_run in A. destruct A as (w & r & Ew & NW & _ & E3). injection E3 as -> -> ->.
      destruct (reach_len _ _ _ _ _ _ _ A') as (_ & u' & Eu' & _). apply (f_equal (@length ascii)) in Eu'. rewrite app_length in Eu'. intros ->. assert (length ([] ++ zs) = length (w ++ r)) as LL by congruence. rewrite app_length in LL. destruct w; [contradiction|]. cbn [app length] in LL. rewrite app_length in LL. lia. }
    rewrite Eu, app_length. destruct u; [contradiction|]. cbn [length]. lia.
Qed.
Lemma xpars_gids : gids (Plus xpar_re) = [].
Proof. reflexivity. Qed.

Definition xspan (p : nat) (l : list (str * param)) (u : str) : option (nat * nat) :=
  match l with [] => None | (b, _) :: _ => Some (p + length b, p + length (ptext l ++ u)) end.
Lemma no_params_kw : forall q s p c y, param_ok q -> par_ok q -> reach (Seq (ilit (s2l "params:")) sp0) (p, param_text q ++ s, c) y -> False.
Proof.
  intros q s p c y Q Q' H. pose proof (name_run q Q') as N. destruct Q as (W & B1 & _). pose proof (word_nonempty _ W) as NN.
  apply reach_seq in H. destruct H as (z & H & _).
  assert (exists t r, param_text q ++ s = t ++ ":"%char :: r /\ length t = 6 /\ forallb (fun a => is_word a) t = true) as (t & r & E & L & T).
  { revert z H. change (ilit (s2l "params:")) with (seqs (map ichar (s2l "params:"))). change (s2l "params:") with ["p"; "a"; "r"; "a"; "m"; "s"; ":"]%char. cbn [map seqs].
    assert (forall x, is_word x = true -> forallb (fun a => implb (aeqb (upper_c a) (upper_c x)) (is_word a)) all_chars = true -> forall p s c z, reach (ichar x) (p, s, c) z -> exists a r, s = a :: r /\ is_word a = true /\ z = (S p, r, c)) as X.
    { intros x _ Hs p0 s0 c0 z0 H0. unfold ichar in H0. apply reach_chr in H0. destruct H0 as (a & r & -> & Ha & ->). exists a, r. split; [reflexivity|]. split; [|reflexivity].
      revert a Ha. apply (imp_sweep (fun a => aeqb (upper_c a) (upper_c x))). exact Hs. }
    intros z H.
    do 6 (apply reach_seq in H; let z1 := fresh in let A := fresh in destruct H as (z1 & A & H); apply X in A; [|reflexivity|vm_cast_no_check (eq_refl true)]; let a := fresh "a" in let r := fresh "r" in let E := fresh "E" in let Wd := fresh "Wd" in destruct A as (a & r & E & Wd & ->)).
    unfold ichar in H. apply reach_chr in H. destruct H as (x & r9 & -> & Hx & _).
    assert (x = ":"%char) as Ex. { apply aeqb_eq. clear - Hx. revert x Hx. apply imp_sweep. vm_cast_no_check (eq_refl true). } subst x.
    exists [a; a0; a1; a2; a3; a4], r9. split; [rewrite E, E0, E1, E2, E3, E4; reflexivity|]. split; [reflexivity|]. cbn [forallb]. rewrite Wd, Wd0, Wd1, Wd2, Wd3, Wd4. reflexivity. }
  unfold param_text in E. rewrite <- app_assoc in E.
  destruct (cut_class is_word (word_text (p_name q)) _ t _ E N T) as [_ E2]; [|reflexivity|].
  - destruct (p_b1 q) as [|x b1]; [reflexivity|]. cbn [app]. unfold blank in B1. cbn [forallb] in B1. apply andb_true_iff in B1. apply blank_facts. apply B1.
  - destruct (p_b1 q) as [|x b1]; cbn [app] in E2; injection E2 as E2 _; [discriminate E2|]. subst x. discriminate B1.
Qed.
Lemma xtail_match : forall l tb cm p c, plist_ok l -> tail_ok tb cm -> (l <> [] -> cm = []) -> (forall a, In a (ptext l) -> a <> NLc) ->
  exists e u w, tb = u ++ w /\ (l = [] -> u = []) /\
    m xtail_re p (ptext l ++ tb ++ cm) c fin = Some (e, match xspan p l u with Some x => (gPAR, x) :: c | None => c end).
Proof.
  intros l tb cm p c Hl Ht Hcm HN. destruct l as [|[b q] l].
  - unfold ptext. cbn [map concat app xspan]. unfold xtail_re. rewrite m_seq. rewrite m_opt_no.
    + destruct (m_all _ (fun y => snd y = c) comment_re p (tb ++ cm) c fin) as ([e c2] & Y1 & Y2).
      * intros p' s' c' y H [= <-]. exact (reach_nocaps _ _ _ H comment_gids).
      * destruct (comment_ok p tb cm c Ht) as ([[p2 s2] c2] & H2 & _). exists p2, s2, c2. eexists. split; [exact H2|reflexivity].
      * cbn [snd] in Y2. subst c2. exists e, [], tb. auto.
    + apply m_none_iff. intros p' s' c' H. exfalso. destruct (xpars_start _ _ _ _ H) as (u & x & r & E & Nu & U & X). destruct (word_facts _ X) as [X' _]. destruct Ht as [Tb Tc].
      destruct (app_cut _ _ _ _ E) as [(f & -> & E')|(f & E0 & E')].
      * destruct Tc as [-> | (_ & t & z & -> & _)]; [destruct f; discriminate E'|]. destruct f as [|y f]; cbn [app] in E'; injection E' as <- _; [discriminate X|].
        rewrite forallb_app in U. apply andb_true_iff in U. destruct U as [_ U]. discriminate U.
      * destruct f as [|y f]; cbn [app] in E'.
        -- destruct Tc as [-> | (_ & t & z & -> & _)]; [discriminate E'|]. injection E' as -> _. discriminate X.
        -- injection E' as -> _. rewrite E0, forallb_app in Tb. cbn [forallb] in Tb. rewrite !andb_true_iff in Tb. destruct Tb as (_ & Tb & _). congruence.
  - rewrite (Hcm ltac:(discriminate)) in *. destruct (plist_cons _ _ _ Hl) as [(B & NB & Q & Q') Hl']. pose proof (ptext_chars _ Hl) as PC. apply itemc_not in PC. destruct PC as [P1 P2].
    destruct (ptext_last ((b, q) :: l) Hl ltac:(discriminate)) as (r & d & Er & D).
    assert (ptext ((b, q) :: l) = b ++ param_text q ++ ptext l) as EP by (unfold ptext; cbn [map concat fst snd]; rewrite <- app_assoc; reflexivity).
    destruct (m_all _ (fun y => exists u w, tb = u ++ w /\ snd y = (gPAR, (p + length b, p + length (ptext ((b, q) :: l) ++ u))) :: c)
              xtail_re p (ptext ((b, q) :: l) ++ tb ++ []) c fin) as ([e c2] & Y1 & u & w & Y2 & Y3).
    + intros p' s' c' y H [= <-]. cbn [snd]. unfold xtail_re in H. apply reach_seq in H. destruct H as (z & A & C). apply reach_opt in A. destruct A as [A| ->].
      * unfold xpars_re in A. cbn [seqs] in A. apply reach_seq in A. destruct A as (z1 & A1 & A). apply reach_sp1 in A1. destruct A1 as (u & s1 & E & Nu & U & ->).
        assert (exists x xr, s1 = x :: xr /\ is_word x = true) as (x & xr & Es1 & Hx).
        { destruct (xpars_start p (u ++ s1) c z) as (u2 & x2 & r2 & E2 & N2 & U2 & X2).
          - unfold xpars_re. cbn [seqs]. apply reach_seq. eexists. split; [apply reach_sp1; exists u, s1; auto|exact A].
          - apply reach_seq in A. destruct A as (z2 & A2 & A3). apply reach_opt in A2. destruct A2 as [A2| ->].
            + apply reach_seq in A2. destruct A2 as (z3 & A2 & _). change (ilit (s2l "params:")) with (Seq (ichar "p") (seqs (map ichar (s2l "arams:")))) in A2.
              apply reach_seq in A2. destruct A2 as (z4 & A2 & _). unfold ichar in A2. apply reach_chr in A2. destruct A2 as (a & r5 & -> & Ha & _).
              exists a, r5. split; [reflexivity|]. clear - Ha. revert a Ha. apply imp_sweep. vm_cast_no_check (eq_refl true).
            + apply reach_grp in A3. destruct A3 as (p9 & s9 & c9 & A3 & _). unfold Plus in A3. apply reach_seq in A3. destruct A3 as (z5 & A3 & _). unfold xpar_re in A3. cbn [seqs] in A3. apply reach_seq in A3. destruct A3 as (z6 & A3 & _).
              unfold word1 in A3. apply reach_plus_run in A3. destruct A3 as (w & r6 & -> & NW & WW & _). destruct w as [|x w]; [contradiction|]. cbn [forallb] in WW. apply andb_true_iff in WW. exists x, (w ++ r6). split; [reflexivity|apply WW]. }
        assert (exists y0 yr, param_text q ++ ptext l ++ tb ++ [] = y0 :: yr /\ is_word y0 = true) as (y0 & yr & Ey & Hy0).
        { destruct (ptext_start b q l Hl) as (w & s & E0 & Hw). rewrite EP in E0. apply app_inv_head in E0. exists w, (s ++ tb ++ []). split; [|exact Hw].
          replace (param_text q ++ ptext l ++ tb ++ []) with ((param_text q ++ ptext l) ++ tb ++ []) by (rewrite <- app_assoc; reflexivity). rewrite E0. reflexivity. }
        rewrite EP in E. rewrite <- !app_assoc in E. rewrite Ey, Es1 in E.
        destruct (blank_cut _ _ _ _ _ _ E B U) as (<- & -> & ->); [apply word_facts; exact Hy0|apply word_facts; exact Hx|]. rewrite <- Ey in Es1. subst s1. clear E Nu.
        apply reach_seq in A. destruct A as (z2 & A2 & A3). apply reach_opt in A2. destruct A2 as [A2| ->]; [exfalso; exact (no_params_kw _ _ _ _ _ Q Q' A2)|].
        apply reach_grp in A3. destruct A3 as (p1 & s1 & c1 & A3 & ->). pose proof (reach_nocaps _ _ _ A3 xpars_gids) as C1. cbn [snd] in C1. subst c1.
        pose proof (reach_nocaps _ _ _ C comment_gids) as C2. cbn [snd] in C2. subst c'.
        destruct (reach_len _ _ _ _ _ _ _ A3) as (_ & v & Ev & ->).
        replace (param_text q ++ ptext l ++ tb ++ []) with ((param_text q ++ ptext l) ++ tb ++ []) in Ev by (rewrite <- app_assoc; reflexivity).
        destruct (app_cut _ _ _ _ Ev) as [(e & -> & E)|(e & E1 & E)].
        -- rewrite app_nil_r in E. subst tb. exists e, s1. split; [reflexivity|]. f_equal. f_equal. f_equal. rewrite EP, !app_length. lia.
        -- destruct e as [|x9 e].
           ++ rewrite app_nil_r in E1. cbn [app] in E. exists [], tb. split; [reflexivity|]. f_equal. f_equal. f_equal. rewrite app_nil_r, EP, app_length. rewrite E1. lia.
           ++ exfalso. subst s1. assert (exists r', x9 :: e = r' ++ [d]) as [r' Er'].
              { destruct (@exists_last _ (x9 :: e) ltac:(discriminate)) as (r' & d' & Ex). exists r'. rewrite Ex in E1 |- *. rewrite EP, E1, !app_assoc in Er. apply app_inj_tail in Er. destruct Er as [_ ->]. reflexivity. }
              assert (forall a, In a (x9 :: e) -> In a (ptext ((b, q) :: l))) as In1 by (intros a Ha; rewrite EP, E1, !in_app_iff; tauto).
              rewrite Er' in *. apply (comment_not_inside r' d tb [] (p + length b + length v) ((gPAR, (p + length b, p + length b + length v)) :: c) (p', s', (gPAR, (p + length b, p + length b + length v)) :: c)); [intros G; apply P1, In1; exact G|intros G; apply P2, In1; exact G|exact D|exact C].
      * exfalso. rewrite Er in *. exact (comment_not_inside _ _ _ _ _ _ _ P1 P2 D C).
    + destruct (comment_ok (p + length (ptext ((b, q) :: l))) tb [] ((gPAR, (p + length b, p + length (ptext ((b, q) :: l)))) :: c)) as ([[p2 s2] c2] & H2 & _); [exact Ht|].
      exists p2, s2, c2. eexists. split; [|reflexivity]. unfold xtail_re. apply reach_seq. eexists. split; [|exact H2]. apply reach_opt. left.
      rewrite EP, <- !app_assoc. unfold xpars_re. cbn [seqs]. apply reach_seq. eexists. split; [apply reach_sp1; exists b; eexists; split; [reflexivity|auto]|].
      apply reach_seq. eexists. split; [apply reach_opt; right; reflexivity|]. apply reach_grp.
      exists (p + length b + length (param_text q ++ ptext l)), (tb ++ []), c. split; [apply (xpars_reach l b q); [exact Hl|exact HN]|].
      rewrite (app_length b), Nat.add_assoc. reflexivity.
    + cbn [snd] in Y3. subst c2. exists e, u, w. split; [exact Y2|]. split; [discriminate|]. exact Y1.
Qed.
(** instances *)
Lemma instance_match : forall gap v l tb cm p c, plist_ok l -> tail_ok tb cm -> (l <> [] -> cm = []) -> (forall a, In a (ptext l) -> a <> NLc) -> gap <> [] -> forallb is_space gap = true ->
  v <> [] -> forallb modelc v = true -> cap gPAR c = None ->
  exists y u w, tb = u ++ w /\ (l = [] -> u = []) /\ m (Seq model_re xtail_re) p (gap ++ v ++ ptext l ++ tb ++ cm) c fin = Some y /\
    cap gDES (snd y) = cap gDES c /\ cap gNODES (snd y) = cap gNODES c /\ cap gVAL (snd y) = Some (p + length gap, p + length gap + length v) /\
    cap gPAR (snd y) = xspan (p + length gap + length v) l u.
Proof.
  intros gap v l tb cm p c Hl Ht Hcm HN NG G NV V C0.
  destruct (xtail_match l tb cm (p + length gap + length v) ((gVAL, (p + length gap, p + length gap + length v)) :: c) Hl Ht Hcm HN) as (e & u & w & E1 & E2 & E3).
  eexists (e, _), u, w. split; [exact E1|]. split; [exact E2|]. split.
  - rewrite m_seq. unfold model_re. rewrite m_seq. apply m_sp1_all; [exact NG|exact G| |].
    + destruct v as [|a v]; [contradiction|]. cbn [app forallb] in *. apply andb_true_iff in V. apply modelc_facts. apply V.
    + rewrite m_grp. apply m_plus_run; [exact NV|exact V| |exact E3].
      pose proof (tail_boe l tb cm Hl Ht) as B. destruct (ptext l ++ tb ++ cm) as [|z s]; [exact I|]. cbn in B.
      destruct (blank_facts z B) as (B1 & _ & _ & _ & _ & _ & B2). rewrite B1. exact B2.
  - destruct l as [|[b q] l]; cbn [xspan snd cap Nat.eqb gPAR gVAL gDES gNODES]; auto.
Qed.
Lemma instance_regex : forall x lo hi, family_of x = Some (Instance, lo, hi) -> regex_of x = Some (Seq (prefix_nodes x 1 98) (Seq model_re xtail_re)) /\ lo = 1 /\ hi = 99.
Proof.
  intros x lo hi H. assert (existsb (aeqb x) (s2l "X") = true) as Hx.
  { revert H. unfold family_of. repeat match goal with |- context [if ?c then _ else _] => destruct c eqn:? end; intros H; try discriminate H; assumption. }
  apply mem_c_In in Hx. vm_compute in Hx. destruct Hx as [<-|[]]. injection H as <- <-. auto.
Qed.
