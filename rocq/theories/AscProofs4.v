(** What a setting found on a line is made of. *)
From Coq Require Import String Ascii List Bool Arith ZArith Lia.
From Verif Require Import PyStr EngModel StepsModel StepsProofs Regex RegexProofs RegexMore RegexInv ParModel.
Import ListNotations.
Local Open Scope string_scope. Local Open Scope nat_scope. Local Open Scope list_scope.

Lemma search_reach : forall r s p b e c, search_from r p s = Some (b, e, c) -> exists u s1 s2, s = u ++ s1 /\ b = p + length u /\ reach r (b, s1, []) (e, s2, c).
Proof.
  intros r. assert (M : forall p s e c, m r p s [] (fun p' _ c => Some (p', c)) = Some (e, c) -> exists s2, reach r (p, s, []) (e, s2, c)).
  { intros p s e c H. destruct (m_some _ _ _ _ _ _ _ H) as (p' & s' & c' & R & E). injection E as <- <-. eauto. }
  induction s as [|x s IH]; intros p b e c H; cbn [search_from] in H.
  - destruct (m r p [] [] _) as [[e' c']|] eqn:E; [|discriminate]. injection H as <- <- <-. exists [], [].
    destruct (M _ _ _ _ E) as (s2 & H). exists s2. split; [reflexivity|]. split; [cbn; lia|exact H].
  - destruct (m r p (x :: s) [] _) as [[e' c']|] eqn:E.
    + injection H as <- <- <-. destruct (M _ _ _ _ E) as (s2 & H). exists [], (x :: s), s2. split; [reflexivity|]. split; [cbn; lia|exact H].
    + destruct (IH _ _ _ _ H) as (u & s1 & s2 & -> & -> & R). exists (x :: u), s1, s2. split; [reflexivity|]. split; [cbn [length]; lia|exact R].
Qed.
Lemma find_all_reach : forall r fuel p s b e c, In (b, e, c) (find_all fuel r p s) -> exists u s1 s2, s = u ++ s1 /\ b = p + length u /\ reach r (b, s1, []) (e, s2, c).
Proof.
  intros r. induction fuel as [|fuel IH]; intros p s b e c H; cbn [find_all] in H; destruct (search_from r p s) as [[[b' e'] c']|] eqn:E; try contradiction.
  - destruct H as [H|[]]. injection H as -> -> ->. apply (search_reach _ _ _ _ _ _ E).
  - destruct H as [H|H]; [injection H as -> -> ->; apply (search_reach _ _ _ _ _ _ E)|].
    destruct (search_reach _ _ _ _ _ _ E) as (u & s1 & s2 & -> & -> & R). destruct (reach_len _ _ _ _ _ _ _ R) as (_ & w & -> & ->).
    apply IH in H. destruct H as (u' & t1 & t2 & EQ & -> & R'). replace (p + length u + length w - p) with (length (u ++ w)) in EQ by (rewrite app_length; lia).
    rewrite app_assoc, skipn_app, skipn_all, Nat.sub_diag in EQ. cbn [skipn app] in EQ. subst s2. exists (u ++ w ++ u'), t1, t2. split; [rewrite <- ?app_assoc; reflexivity|]. split; [rewrite ?app_length; lia|exact R'].
Qed.
Lemma slice_at : forall (a w b : str), slice (a ++ w ++ b) (length a, length a + length w) = w.
Proof.
  intros a w b. unfold slice. cbn [fst snd]. rewrite skipn_app, skipn_all, Nat.sub_diag. cbn [skipn app]. replace (length a + length w - length a) with (length w) by lia. rewrite firstn_app, firstn_all, Nat.sub_diag. cbn [firstn]. apply app_nil_r.
Qed.
Lemma sp0_run : forall p s c y, reach sp0 (p, s, c) y -> exists u s', s = u ++ s' /\ (forall x, In x u -> is_space x = true) /\ y = (p + length u, s', c).
Proof.
  intros p s c y H. unfold sp0 in H. apply reach_star_chr in H. destruct H as (u & s' & -> & F & ->). exists u, s'. split; [reflexivity|]. split; [|reflexivity]. intros x X. rewrite forallb_forall in F. apply F. exact X.
Qed.
Lemma consumed : forall r x y, reach r x y -> length (st_text y) <= length (st_text x).
Proof. intros r [[p s] c] [[p' s'] c'] H. apply reach_len in H. unfold st_text. cbn [fst snd]. destruct H as (_ & u & -> & _). rewrite app_length. lia. Qed.
Lemma lit_less : forall f x y, reach (Chr f) x y -> length (st_text y) < length (st_text x).
Proof. intros f [[p s] c] y H. apply reach_chr in H. destruct H as (a & s' & -> & _ & ->). unfold st_text. cbn. lia. Qed.
Lemma line_hit : forall s n c, line_match s n = Some c -> exists a n0 sep old b, s = a ++ n0 ++ sep ++ old ++ b /\ upper n0 = upper n /\ sep <> [] /\
  (forall x, In x sep -> is_space x = true \/ x = "="%char) /\ old <> [] /\ cap gVALUE c = Some (length (a ++ n0 ++ sep), length (a ++ n0 ++ sep) + length old).
Proof.
  intros s n c H. unfold line_match in H. destruct (find _ _) as [[[b e] c']|] eqn:E; [|discriminate]. injection H as ->. apply find_some in E. destruct E as (I & MN). cbn [snd] in *. unfold finditer in I.
  destruct (find_all_reach _ _ _ _ _ _ _ I) as (u & s1 & s2 & -> & -> & R). cbn [Nat.add] in *. unfold setting_re in R.
  apply reach_seq in R. destruct R as (y & R1 & R). apply reach_grp in R1. destruct R1 as (p1 & t1 & c1 & R1 & ->). pose proof (reach_nocaps _ _ _ R1 eq_refl) as NC. cbn [snd] in NC. subst c1. destruct (reach_len _ _ _ _ _ _ _ R1) as (_ & n0 & -> & ->).
  apply reach_seq in R. destruct R as (y & R2 & R). apply sp0_run in R2. destruct R2 as (b1 & t2 & -> & B1 & ->).
  apply reach_seq in R. destruct R as (y & R3 & R). apply reach_chr in R3. destruct R3 as (q & t3 & -> & Q & ->).
  apply reach_seq in R. destruct R as (y & R4 & R). apply sp0_run in R4. destruct R4 as (b2 & t4 & -> & B2 & ->).
  unfold pvalue_re in R. apply reach_grp in R. destruct R as (p' & t5 & c5 & R & K). injection K as -> -> ->.
  destruct (reach_len _ _ _ _ _ _ _ R) as (_ & old & EO & ->). subst t4.
  assert (CN : cap gNAME c5 = Some (length u, length u + length n0)).
  { pose proof (reach_cap gNAME _ _ _ R) as CN. cbn [snd] in CN. rewrite CN; [reflexivity|]. cbn. intuition discriminate. }
  assert (GN : forall x, group gNAME (u ++ n0 ++ b1 ++ q :: b2 ++ old ++ t5) ((gVALUE, x) :: c5) = Some n0).
  { intros x. unfold group. match goal with |- option_map _ (cap gNAME (_ :: c5)) = _ => change (option_map (slice (u ++ n0 ++ b1 ++ q :: b2 ++ old ++ t5)) (cap gNAME c5) = Some n0) end. rewrite CN. cbn [option_map]. f_equal. apply slice_at. }
  unfold match_name in MN. cbn [snd] in MN. rewrite GN in MN. apply str_eqb_eq in MN.
  exists u, n0, (b1 ++ q :: b2), old, t5. split; [rewrite <- !app_assoc; reflexivity|]. split; [exact MN|]. split; [destruct b1; discriminate|]. split; [|split].
  - intros x X. apply in_app_or in X. destruct X as [X|[<-|X]]; [left; apply B1; exact X| |left; apply B2; exact X]. apply orb_true_iff in Q. destruct Q as [Q|Q]; apply aeqb_eq in Q; subst q; [right; reflexivity|left; reflexivity].
  - intros ->. assert (L : length (st_text (S (length u + length n0 + length b1) + length b2 + length (@nil ascii), t5, c5)) < length (st_text (S (length u + length n0 + length b1) + length b2, t5, [(gNAME, (length u, length u + length n0))]))); [|unfold st_text in L; cbn in L; lia].
    cbn [app] in R. apply reach_seq in R. destruct R as (y & RA & R). apply consumed in RA. apply Nat.lt_le_trans with (length (st_text y)); [|exact RA]. clear RA. destruct y as [[yp ys] yc]. apply reach_cond in R.
    assert (L2 : forall f x y z, reach (Star true (Chr f)) x y -> forall g, reach (Chr g) y z -> length (st_text z) < length (st_text x)) by (intros f x y z A g B; apply consumed in A; apply lit_less in B; lia).
    destruct R as [(_ & R)|(_ & R)].
    + apply reach_seq in R. destruct R as (y & A & B). eapply L2; eassumption.
    + apply reach_seq in R. destruct R as (y & A & R). apply consumed in A. apply Nat.lt_le_trans with (length (st_text y)); [|exact A]. destruct y as [[zp zs] zc]. apply reach_cond in R. destruct R as [(_ & R)|(_ & R)].
      * apply reach_seq in R. destruct R as (y & A' & B). eapply L2; eassumption.
      * apply reach_seq in R. destruct R as (y & A' & B). apply consumed in B. unfold Plus in A'. apply reach_seq in A'. destruct A' as (y2 & A1 & A2). apply lit_less in A1. apply consumed in A2. lia.
  - cbn [cap Nat.eqb gVALUE]. rewrite !app_length. cbn [length]. f_equal. f_equal; lia.
Qed.
