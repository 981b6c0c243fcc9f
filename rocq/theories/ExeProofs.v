From Coq Require Import String Ascii List Bool Arith Lia.
From Verif Require Import PyStr ExeModel ExeSpec.
Import ListNotations.
Local Open Scope string_scope. Local Open Scope nat_scope. Local Open Scope list_scope.

Lemma blank_spec c : is_blank c = true <-> blank c.
Proof. apply mem_c_In. Qed.
Lemma quote_spec c : is_quote c = true <-> quote c.
Proof.
  unfold is_quote, quote. rewrite mem_c_In. cbn [In]. intuition congruence.
Qed.
Lemma blank_false c : is_blank c = false <-> ~ blank c.
Proof. rewrite <- blank_spec. destruct (is_blank c); intuition congruence. Qed.
Lemma quote_false c : is_quote c = false <-> ~ quote c.
Proof. rewrite <- quote_spec. destruct (is_quote c); intuition congruence. Qed.
Lemma quote_not_blank q : quote q -> ~ blank q.
Proof. intros [-> | ->] [H|[H|[H|[H|[]]]]]; discriminate. Qed.

Lemma in_quote : forall b q tok qd s, ~ In q b -> lex (InQuote q) tok qd (b ++ q :: s) = lex Word (tok ++ b) true s.
Proof.
  induction b as [|c b IH]; intros q tok qd s NI; cbn [app lex].
  - rewrite aeqb_refl, app_nil_r. reflexivity.
  - destruct (aeqb c q) eqn:E; [apply aeqb_eq in E; subst; exfalso; apply NI; left; reflexivity|].
    rewrite IH by (intros H; apply NI; right; exact H). rewrite <- app_assoc. reflexivity.
Qed.

Lemma lex_word w t : spelled w t -> forall tok qd s, exists qd', lex Word tok qd (t ++ s) = lex Word (tok ++ w) qd' s /\
  (qd = true -> qd' = true) /\ (t <> [] -> qd' = true \/ w <> []).
Proof.
  intros SP. induction SP as [|c w t NB NQ SP IH|q b w t Q NI SP IH]; intros tok qd s.
  - exists qd. cbn [app]. rewrite app_nil_r. split; [reflexivity|]. split; [tauto|]. intros H. contradiction.
  - destruct (IH (tok ++ [c]) qd s) as (qd' & E & M & _). exists qd'. cbn [app lex].
    apply blank_false in NB. apply quote_false in NQ. rewrite NB, NQ, E, <- app_assoc. split; [reflexivity|]. split; [exact M|].
    intros _. right. discriminate.
  - destruct (IH (tok ++ b) true s) as (qd' & E & M & _). exists qd'. cbn [app lex].
    assert (is_blank q = false) as -> by (apply blank_false; apply quote_not_blank; exact Q).
    apply quote_spec in Q. rewrite Q, <- app_assoc. cbn [app]. rewrite in_quote by exact NI. rewrite E, <- app_assoc.
    split; [reflexivity|]. split; [intros _; apply M; reflexivity|]. intros _. left. apply M. reflexivity.
Qed.

Lemma lex_wait c r : is_blank c = false -> lex Wait [] false (c :: r) = lex Word [] false (c :: r).
Proof.
  intros B. cbn [lex]. rewrite B. destruct (is_quote c); [|reflexivity]. destruct r as [|d r]; [reflexivity|]. cbn [lex]. reflexivity.
Qed.

Lemma lex_lead : forall lead s, Forall blank lead -> lex Wait [] false (lead ++ s) = lex Wait [] false s.
Proof.
  induction lead as [|c lead IH]; intros s F; [reflexivity|]. inversion F as [|? ? B F']; subst. cbn [app lex].
  apply blank_spec in B. rewrite B. apply IH. exact F'.
Qed.

Lemma spelled_head w t : spelled w t -> t <> [] -> exists c r, t = c :: r /\ ~ blank c.
Proof.
  intros SP NE. destruct SP as [|c w t NB NQ SP|q b w t Q NI SP]; [contradiction|exists c, t; split; [reflexivity|exact NB]|].
  exists q, (b ++ q :: t). split; [reflexivity|]. apply quote_not_blank. exact Q.
Qed.

Lemma split_ok : forall ws s, command_line ws s -> shlex_split s = Some ws.
Proof.
  unfold shlex_split. intros ws s C. induction C as [s F|lead w t ws s F SP NE BD C IH].
  - rewrite <- (app_nil_r s), lex_lead by exact F. reflexivity.
  - rewrite lex_lead by exact F. destruct (spelled_head w t SP NE) as (c & r & -> & NB). apply blank_false in NB.
    change ((c :: r) ++ s) with (c :: (r ++ s)). rewrite lex_wait by exact NB. change (c :: r ++ s) with ((c :: r) ++ s).
    destruct (lex_word w (c :: r) SP [] false s) as (qd & -> & _ & NZ). cbn [app]. specialize (NZ NE).
    assert (qd || negb (str_eqb w []) = true) as E.
    { destruct NZ as [-> |NW]; [reflexivity|]. destruct w; [contradiction|]. apply orb_true_r. }
    destruct BD as [-> |(b & s' & -> & B)].
    + cbn [lex] in *. rewrite E. injection IH as <-. reflexivity.
    + apply blank_spec in B. cbn [lex] in IH |- *. rewrite B in IH |- *. rewrite IH, E. reflexivity.
Qed.

Lemma quote_inv : forall s q tok qd l, lex (InQuote q) tok qd s = Some l ->
  exists b s1, s = b ++ q :: s1 /\ ~ In q b /\ lex Word (tok ++ b) true s1 = Some l.
Proof.
  induction s as [|c s IH]; intros q tok qd l H; [discriminate|]. cbn [lex] in H. destruct (aeqb c q) eqn:E.
  - apply aeqb_eq in E. subst c. exists [], s. rewrite app_nil_r. split; [reflexivity|]. split; [intros []|exact H].
  - destruct (IH q (tok ++ [c]) true l H) as (b & s1 & -> & NI & L). exists (c :: b), s1. split; [reflexivity|].
    split; [intros [-> |I]; [rewrite aeqb_refl in E; discriminate|contradiction]|]. rewrite <- app_assoc in L. exact L.
Qed.

Definition waits (s : str) : Prop := forall l, lex Wait [] false s = Some l -> command_line l s.
Definition words (s : str) : Prop := forall tok qd l, lex Word tok qd s = Some l ->
  exists w t s' ws qd', s = t ++ s' /\ spelled w t /\ (s' = [] \/ exists c r, s' = c :: r /\ blank c) /\ command_line ws s' /\
    l = (if qd' || negb (str_eqb (tok ++ w) []) then (tok ++ w) :: ws else ws) /\ (qd = true -> qd' = true) /\
    (t <> [] -> qd' = true \/ w <> []).

Lemma cl_blank c ws s : blank c -> command_line ws s -> command_line ws (c :: s).
Proof.
  intros B C. destruct C as [s F|lead w t ws s F SP NE BD C].
  - constructor. constructor; assumption.
  - change (c :: lead ++ t ++ s) with ((c :: lead) ++ t ++ s). constructor; try assumption. constructor; assumption.
Qed.

Lemma words_step s : (forall s', length s' < length s -> waits s' /\ words s') -> words s.
Proof.
  intros IH tok qd l H. destruct s as [|c s].
  - cbn [lex] in H. injection H as <-. exists [], [], [], [], qd. rewrite (app_nil_r tok).
    split; [reflexivity|]. split; [constructor|]. split; [left; reflexivity|]. split; [constructor; constructor|].
    split; [reflexivity|]. split; [tauto|]. intros H. contradiction.
  - cbn [lex] in H. destruct (is_blank c) eqn:B.
    + destruct (lex Wait [] false s) as [l'|] eqn:E; [|discriminate]. injection H as <-.
      apply blank_spec in B.
      exists [], [], (c :: s), l', qd. rewrite (app_nil_r tok). split; [reflexivity|]. split; [constructor|].
      split; [right; exists c, s; split; [reflexivity|exact B]|]. split; [|split; [reflexivity|split; [tauto|intros H; contradiction]]].
      apply cl_blank; [exact B|]. apply (proj1 (IH s (le_n _))). exact E.
    + destruct (is_quote c) eqn:Q.
      * destruct (quote_inv s c tok qd l H) as (b & s1 & -> & NI & HL).
        destruct (proj2 (IH s1 ltac:(cbn [length]; rewrite app_length; cbn [length]; lia)) (tok ++ b) true l HL)
          as (w & t & s' & ws & qd' & E1 & E2 & E3 & E4 & E5 & E6 & E7).
        subst s1. exists (b ++ w), (c :: b ++ c :: t), s', ws, qd'. apply quote_spec in Q.
        split; [cbn [app]; rewrite <- app_assoc; reflexivity|]. split; [constructor; assumption|]. split; [exact E3|]. split; [exact E4|].
        rewrite app_assoc. split; [exact E5|]. split; [intros _; apply E6; reflexivity|]. intros _. left. apply E6. reflexivity.
      * destruct (proj2 (IH s (le_n _)) (tok ++ [c]) qd l H) as (w & t & s' & ws & qd' & E1 & E2 & E3 & E4 & E5 & E6 & E7).
        subst s. exists (c :: w), (c :: t), s', ws, qd'. apply quote_false in Q. apply blank_false in B.
        split; [reflexivity|]. split; [constructor; assumption|]. split; [exact E3|]. split; [exact E4|].
        rewrite <- app_assoc in E5. split; [exact E5|]. split; [exact E6|]. intros _. right. discriminate.
Qed.

Lemma split_inv : forall s, waits s /\ words s.
Proof.
  intros s. remember (length s) as n eqn:N. revert s N. induction n as [n IHn] using lt_wf_ind. intros s N.
  assert (forall s', length s' < length s -> waits s' /\ words s') as IH by (intros s' H; apply (IHn (length s')); [lia|reflexivity]).
  split; [|apply words_step; exact IH]. intros l H. destruct s as [|c s].
  - injection H as <-. constructor. constructor.
  - destruct (is_blank c) eqn:B.
    + cbn [lex] in H. rewrite B in H. apply cl_blank; [apply blank_spec; exact B|]. apply (proj1 (IH s (le_n _))). exact H.
    + rewrite lex_wait in H by exact B. destruct (words_step (c :: s) IH [] false l H) as (w & t & s' & ws & qd' & E1 & E2 & E3 & E4 & E5 & _ & E7).
      cbn [app] in E5.
      assert (t <> []) as NE.
      { intros ->. destruct E3 as [-> |(d & r & -> & BD)]; [discriminate|]. cbn [app] in E1. injection E1 as -> _.
        apply blank_false in B. contradiction. }
      specialize (E7 NE). assert (qd' || negb (str_eqb w []) = true) as E.
      { destruct E7 as [-> |NW]; [reflexivity|]. destruct w; [contradiction|]. apply orb_true_r. }
      rewrite E in E5. rewrite E1, E5. apply (cl_word [] w t ws s'); try assumption. constructor.
Qed.

Lemma split_iff ws s : shlex_split s = Some ws <-> command_line ws s.
Proof. split; [apply split_inv|apply split_ok]. Qed.

(** ** Paths *)
Lemma pieces_part : forall p, ~ In "/"%char p -> pieces p = [p].
Proof.
  induction p as [|c p IH]; intros NI; [reflexivity|]. cbn [pieces].
  destruct (aeqb c "/") eqn:E; [apply aeqb_eq in E; subst; exfalso; apply NI; left; reflexivity|].
  rewrite IH by (intros H; apply NI; right; exact H). reflexivity.
Qed.
Lemma pieces_app : forall p r, ~ In "/"%char p -> pieces (p ++ "/"%char :: r) = p :: pieces r.
Proof.
  induction p as [|c p IH]; intros r NI; [reflexivity|]. cbn [app pieces].
  destruct (aeqb c "/") eqn:E; [apply aeqb_eq in E; subst; exfalso; apply NI; left; reflexivity|].
  rewrite IH by (intros H; apply NI; right; exact H). reflexivity.
Qed.
Lemma part_real p : part p -> real_part p = true.
Proof.
  intros (A & B & _). unfold real_part. apply str_eqb_neq in A. apply str_eqb_neq in B. rewrite A, B. reflexivity.
Qed.
Lemma tidy_parts s : tidy s -> slashed (parts s) = s /\ parts s <> [].
Proof.
  intros T. unfold parts. induction T as [p P|p r P T (IH1 & IH2)].
  - rewrite pieces_part by apply P. cbn [filter]. rewrite part_real by exact P. split; [reflexivity|discriminate].
  - change (p ++ s2l "/" ++ r) with (p ++ "/"%char :: r). rewrite pieces_app by apply P. cbn [filter]. rewrite part_real by exact P.
    split; [|discriminate]. cbn [slashed]. destruct (filter real_part (pieces r)) as [|q qs]; [contradiction|].
    rewrite IH1. reflexivity.
Qed.
Lemma tidy_head s : tidy s -> exists c r, s = c :: r /\ c <> "/"%char.
Proof.
  intros T. assert (forall p, part p -> exists c r, p = c :: r /\ c <> "/"%char) as H.
  { intros p (A & _ & C). destruct p as [|c p]; [contradiction|]. exists c, p. split; [reflexivity|]. intros ->. apply C. left. reflexivity. }
  destruct T as [p P|p r P T]; destruct (H p P) as (c & q & -> & N); eexists; eexists; (split; [reflexivity|exact N]).
Qed.
Lemma root_none c r : c <> "/"%char -> root (c :: r) = [].
Proof. intros N. apply aeqb_neq in N. destruct c as [[] [] [] [] [] [] [] []]; try reflexivity. discriminate N. Qed.
Lemma root_one c r : c <> "/"%char -> root ("/"%char :: c :: r) = s2l "/".
Proof. intros N. apply aeqb_neq in N. destruct c as [[] [] [] [] [] [] [] []]; try reflexivity. discriminate N. Qed.
Lemma posix_plain s : plain_path s -> posix s = s.
Proof.
  intros [T|(r & -> & T)].
  - destruct (tidy_parts s T) as (E & _). destruct (tidy_head s T) as (c & q & -> & N). unfold posix. rewrite E, (root_none c q N). reflexivity.
  - destruct (tidy_parts r T) as (E & _). destruct (tidy_head r T) as (c & q & -> & N). unfold posix.
    change (s2l "/" ++ c :: q) with ("/"%char :: c :: q). rewrite (root_one c q N).
    assert (parts ("/"%char :: c :: q) = parts (c :: q)) as -> by reflexivity. rewrite E. reflexivity.
Qed.
