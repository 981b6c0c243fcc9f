From Coq Require Import String Ascii List Bool Arith Lia.
From Verif Require Import PyStr Regex RegexProofs RegexInv RegexMore StepsModel StepsSpec StepsProofs LogModel LogSpec LogProofs CompProofs QlogModel QlogSpec.
Import ListNotations.
Local Open Scope string_scope. Local Open Scope nat_scope. Local Open Scope list_scope.

(** ** Literals in a sequence *)
Lemma m_seqs_cons : forall (R : Type) a l p s c (k : @kont R), m (seqs (a :: l)) p s c k = m a p s c (fun p' s' c' => m (seqs l) p' s' c' k).
Proof. intros R a [|b l] p s c k; [reflexivity|]. reflexivity. Qed.
Lemma m_lits : forall (R : Type) t l p s c (k : @kont R), m (seqs (lits t ++ l)) p (s2l t ++ s) c k = m (seqs l) (p + length (s2l t)) s c k.
Proof.
  intros R t l. unfold lits. generalize (s2l t) as l0. induction l0 as [|a w IH]; intros p s c k; [cbn; rewrite Nat.add_0_r; reflexivity|].
  cbn [map app]. rewrite m_seqs_cons. unfold lit at 1. rewrite m_chr_ok by apply aeqb_refl. rewrite IH. cbn [length]. f_equal. lia.
Qed.
Lemma reach_seqs_cons : forall a l x z, reach (seqs (a :: l)) x z -> exists y, reach a x y /\ reach (seqs l) y z.
Proof. intros a [|b l] x z H; [exists z; split; [exact H|constructor]|]. apply (proj1 (reach_seq _ _ _ _)) in H. exact H. Qed.
Lemma reach_lits : forall t l p s c y, reach (seqs (lits t ++ l)) (p, s, c) y -> exists s', s = s2l t ++ s' /\ reach (seqs l) (p + length (s2l t), s', c) y.
Proof.
  intros t l. unfold lits. generalize (s2l t) as l0. induction l0 as [|a w IH]; intros p s c y H; [exists s; split; [reflexivity|]; cbn [length]; rewrite Nat.add_0_r; exact H|].
  cbn [map app] in H. destruct (reach_seqs_cons _ _ _ _ H) as (z & A & B). apply (proj1 (reach_chr _ _ _ _ _)) in A. destruct A as (b & s' & -> & E & ->). apply aeqb_eq in E. subst b.
  destruct (IH _ _ _ _ B) as (s2 & -> & C). exists s2. split; [reflexivity|]. cbn [length]. replace (p + S (length w)) with (S p + length w) by lia. exact C.
Qed.

(** ** Lines of the log *)
Lemma star_dots : forall (R : Type) u p c (k : @kont R) x, ~ In Regex.NLc u -> k (p + length u) [Regex.NLc] c = Some x -> m dots p (u ++ [Regex.NLc]) c k = Some x.
Proof.
  intros R u p c k x NI K. apply m_star_all; [|reflexivity|exact K]. apply forallb_forall. intros y Y. unfold not_nl. apply negb_true_iff. apply aeqb_neq. intros ->. exact (NI Y).
Qed.
Lemma step_match : forall pad n total gap u, forallb is_space pad = true -> gap <> [] -> forallb is_space gap = true -> ~ In Regex.NLc u ->
  let l := pad ++ dec n ++ s2l " of " ++ dec total ++ s2l " steps:" ++ gap ++ s2l ".step " ++ u ++ [Regex.NLc] in
  exists e c, re_match step_re l = Some (e, c) /\ group 1 l c = Some (dec n) /\ group 2 l c = Some u.
Proof.
  intros pad n total gap u HP NG HG NU l. unfold re_match, step_re. cbn [app]. 
  set (g1 := (length pad, length pad + length (dec n))). set (b2 := length pad + length (dec n) + 4 + length (dec total) + 7 + length gap + 6). set (g2 := (b2, b2 + length u)).
  exists (b2 + length u), [(2, g2); (1, g1)]. 
  assert (dn : forall s, exists d r, dec n ++ s = d :: r /\ is_space d = false).
  { intros s. pose proof (dec_not_nil n). pose proof (dec_digits n). destruct (dec n) as [|d r]; [contradiction|]. exists d, (r ++ s). split; [reflexivity|]. cbn in H0. apply andb_true_iff in H0. destruct H0 as [H0 _].
    destruct d as [[] [] [] [] [] [] [] []]; try reflexivity; discriminate H0. }
  split.
  - rewrite m_seqs_cons. apply m_star_all; [exact HP|destruct (dn (s2l " of " ++ dec total ++ s2l " steps:" ++ gap ++ s2l ".step " ++ u ++ [Regex.NLc])) as (d & r & -> & D); exact D|].
    rewrite m_seqs_cons, m_grp. apply m_plus_run; [apply dec_not_nil|apply dec_digits|reflexivity|].
    change (lits " of " ++ digits1 :: lits " steps:" ++ sp1 :: lits ".step " ++ [Grp 2 dots; Eol]) with (lits " of " ++ ([digits1] ++ (lits " steps:" ++ ([sp1] ++ (lits ".step " ++ [Grp 2 dots; Eol]))))).
    rewrite m_lits. cbn [app]. rewrite m_seqs_cons. apply m_plus_run; [apply dec_not_nil|apply dec_digits|reflexivity|].
    rewrite m_lits. rewrite m_seqs_cons. apply m_sp1_all; [exact NG|exact HG|reflexivity|].
    rewrite m_lits. rewrite m_seqs_cons, m_grp. apply star_dots; [exact NU|]. cbn [seqs m at_eol]. unfold g2, g1, b2. cbn [length s2l]. change (length (s2l " of ")) with 4. change (length (s2l " steps:")) with 7. change (length (s2l ".step ")) with 6. reflexivity.
  - unfold group. cbn [cap Nat.eqb option_map]. split; f_equal; unfold l, g1, g2.
    + eapply (slice_at _ pad (dec n)); [reflexivity|reflexivity|reflexivity].
    + eapply (slice_at _ (pad ++ dec n ++ s2l " of " ++ dec total ++ s2l " steps:" ++ gap ++ s2l ".step ") u); [rewrite <- !app_assoc; reflexivity| |reflexivity]. unfold b2. rewrite !app_length. change (length (s2l " of ")) with 4. change (length (s2l " steps:")) with 7. change (length (s2l ".step ")) with 6. lia.
Qed.
Lemma step_no_match : forall l, ~ mentions (s2l "steps:") l -> re_match step_re l = None.
Proof.
  intros l NM. destruct (re_match step_re l) as [[e c]|] eqn:E; [|reflexivity]. destruct NM. apply re_match_reach in E. destruct E as (s' & E). unfold step_re in E.
  cbn [app] in E. destruct (reach_seqs_cons _ _ _ _ E) as ([[p1 s1] c1] & A & B). destruct (reach_text _ _ _ A) as (u1 & T1 & _). unfold st_text in T1. cbn [fst snd] in T1.
  destruct (reach_seqs_cons _ _ _ _ B) as ([[p2 s2] c2] & A2 & B2). destruct (reach_text _ _ _ A2) as (u2 & T2 & _). unfold st_text in T2. cbn [fst snd] in T2.
  change (lits " of " ++ digits1 :: lits " steps:" ++ sp1 :: lits ".step " ++ [Grp 2 dots; Eol]) with (lits " of " ++ ([digits1] ++ (lits " steps:" ++ ([sp1] ++ (lits ".step " ++ [Grp 2 dots; Eol]))))) in B2.
  destruct (reach_lits _ _ _ _ _ _ B2) as (s3 & T3 & B3). cbn [app] in B3. destruct (reach_seqs_cons _ _ _ _ B3) as ([[p4 s4] c4] & A4 & B4). destruct (reach_text _ _ _ A4) as (u4 & T4 & _). unfold st_text in T4. cbn [fst snd] in T4.
  destruct (reach_lits _ _ _ _ _ _ B4) as (s5 & T5 & _). subst. exists (u1 ++ u2 ++ s2l " of " ++ u4 ++ s2l " "), s5. rewrite <- !app_assoc. reflexivity.
Qed.

Section Reader.
Context {V : Type} (conv : str -> V).
Definition items_ok (items : list (str * str)) : Prop := Forall (fun kv => plain (fst kv) /\ plain (snd kv) /\ cell (fst kv) /\ cell (snd kv)) items.
Lemma items_tokens : forall items s, items_ok items -> add_items conv (split_on " " (strip_if is_nl (items_text items))) s = Some (fold_left (add1 conv) items s).
Proof.
  intros items s F.
  assert (C : ~ In NLC (items_text items) /\ ~ In "013"%char (items_text items)).
  { split; (apply (items_cell conv (fun _ => true)); [discriminate|discriminate|]); eapply Forall_impl; try exact F; intros kv (_ & _ & (_ & A & B) & (_ & D & G)); auto. }
  assert (ST : strip_if is_nl (items_text items) = items_text items).
  { unfold strip_if, rstrip_if. rewrite (lstrip_keep is_nl (items_text items)). 
    - rewrite lstrip_keep, rev_involutive; [reflexivity|]. intros c H. apply in_rev in H. unfold is_nl. apply orb_false_iff. split; apply aeqb_neq; intros ->; tauto.
    - intros c H. unfold is_nl. apply orb_false_iff. split; apply aeqb_neq; intros ->; tauto. }
  rewrite ST. assert (F2 : Forall (fun kv : str * str => plain (fst kv) /\ plain (snd kv)) items) by (eapply Forall_impl; [|exact F]; intros x (A & B & _); split; assumption).
  destruct items as [|kv items]; [reflexivity|]. rewrite items_split; [|discriminate|exact F2]. apply add_items_ok. exact F2.
Qed.
Lemma items_nonl : forall items, items_ok items -> ~ In Regex.NLc (items_text items).
Proof. intros items F. apply (items_cell conv (fun _ => true) Regex.NLc); [discriminate|discriminate|]. eapply Forall_impl; try exact F; intros kv (_ & _ & (_ & A & B) & (_ & D & G)); auto. Qed.

Lemma qsteps_ok : forall log count s, Forall qline_ok log ->
  read_qsteps conv (map qline_text log) count s =
  if list_eq_dec Nat.eq_dec (numbers log) (seq (S count) (length (numbers log))) then Some (count + length (numbers log), fold_left (add1 conv) (settings log) s) else None.
Proof.
  induction log as [|x log IH]; intros count s F; [cbn; rewrite Nat.add_0_r; reflexivity|]. inversion F as [|? ? Hx F']; subst. cbn [map read_qsteps].
  destruct x as [pad n total gap items|l]; cbn [qline_text].
  - destruct Hx as (HP & NG & HG & HI). destruct (step_match pad n total gap (items_text items) HP NG HG (items_nonl _ HI)) as (e & c & E & G1 & G2). cbv zeta in *.
    change ["010"%char] with [Regex.NLc]. rewrite E, G1, G2, undec_dec. rewrite (items_tokens items s HI).
    change (numbers (QStep pad n total gap items :: log)) with (n :: numbers log). change (settings (QStep pad n total gap items :: log)) with (items ++ settings log). cbn [length seq].
    destruct (Nat.eqb_spec (S count) n) as [<-|NE].
    + rewrite IH by exact F'. rewrite fold_left_app. destruct (list_eq_dec Nat.eq_dec (numbers log) (seq (S (S count)) (length (numbers log)))) as [D|D]; destruct (list_eq_dec Nat.eq_dec (S count :: numbers log) (S count :: seq (S (S count)) (length (numbers log)))) as [D'|D']; try congruence.
      f_equal. f_equal. lia.
    + destruct (list_eq_dec _ (n :: _) _) as [D|D]; [|reflexivity]. injection D as D _. congruence.
  - rewrite step_no_match by exact Hx. apply IH. exact F'.
Qed.
End Reader.
