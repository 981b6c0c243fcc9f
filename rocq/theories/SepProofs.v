(** Proofs for [separate_lines]. *)
From Coq Require Import String Ascii List Bool Arith Lia.
From Verif Require Import PyStr SepModel SepSpec.
Import ListNotations.
Local Open Scope string_scope.
Local Open Scope list_scope.

Lemma is_nl_newline : forall c, is_nl c = true <-> newline c.
Proof. intros c. unfold is_nl, newline. rewrite orb_true_iff, !aeqb_eq. reflexivity. Qed.

Lemma wc_app : forall a b t u, without_continuations t u -> a = b -> without_continuations (a ++ t) (b ++ u).
Proof. intros a b t u H ->. induction b; simpl; [exact H|constructor; assumption]. Qed.

(** General: for every text and state. *)
Lemma sep_wc : forall n s, length s <= n -> forall cm acc st q out, sep cm acc st q s = Some out ->
  exists u, concat out = acc ++ u /\ without_continuations s u.
Proof.
  induction n as [|n IH]; intros s Hn cm acc st q out H.
  - destruct s; [|simpl in Hn; lia]. simpl in H. injection H as <-. exists []. split; [|constructor].
    destruct acc; simpl; rewrite ?app_nil_r; reflexivity.
  - destruct s as [|c r].
    { simpl in H. injection H as <-. exists []. split; [|constructor]. destruct acc; simpl; rewrite ?app_nil_r; reflexivity. }
    simpl in Hn. assert (length r <= n) as Hr by lia.
    assert (forall cm' acc' st' q' out', sep cm' (acc' ++ [c]) st' q' r = Some out' ->
              exists u, concat out' = acc' ++ u /\ without_continuations (c :: r) u) as Keep.
    { intros cm' acc' st' q' out' H'. destruct (IH r Hr _ _ _ _ _ H') as (u & E & W). exists (c :: u).
      split; [rewrite E, <- app_assoc; reflexivity|constructor; exact W]. }
    assert (forall acc' st' q' out', yield_ (acc' ++ [c]) (sep false [] st' q' r) = Some out' ->
              exists u, concat out' = acc' ++ u /\ without_continuations (c :: r) u) as Yield.
    { intros acc' st' q' out' H'. destruct (sep false [] st' q' r) as [l|] eqn:E; [|discriminate]. injection H' as <-.
      destruct (IH r Hr _ _ _ _ _ E) as (u & E' & W). exists (c :: u). simpl. rewrite E'. simpl.
      split; [rewrite <- app_assoc; reflexivity|constructor; exact W]. }
    cbn [sep] in H. destruct cm.
    { destruct (aeqb c LF); [eapply Yield|eapply Keep]; exact H. }
    destruct (is_open c); [eapply Keep; exact H|].
    destruct (is_close c).
    { destruct st as [|o st]; [discriminate|]. destruct (closes o c); [eapply Keep; exact H|discriminate]. }
    destruct (aeqb c QT); [eapply Keep; exact H|].
    destruct (is_nl c) eqn:Hnl.
    { destruct (negb (is_nil st) || q); [eapply Keep; exact H|].
      destruct r as [|d r'].
      - eapply Yield; exact H.
      - destruct (aeqb d "+") eqn:Ed.
        + apply aeqb_eq in Ed. subst d. assert (length r' <= n) as Hr' by (simpl in Hr; lia).
          destruct (IH r' Hr' _ _ _ _ _ H) as (u & E & W). exists u. split; [exact E|].
          apply WC_drop; [apply is_nl_newline; exact Hnl|exact W].
        + destruct ((aeqb d LF && aeqb c CR) || (aeqb d CR && aeqb c LF)); [eapply Keep|eapply Yield]; exact H. }
    destruct (aeqb c "*" && is_nil acc && is_nil st && negb q) eqn:Es.
    { apply andb_true_iff in Es. destruct Es as [Es _]. apply andb_true_iff in Es. destruct Es as [Es _].
      apply andb_true_iff in Es. destruct Es as [_ Es]. destruct acc; [|discriminate].
      apply (Keep true [] st q out). exact H. }
    destruct (aeqb c ";" && is_nil st && negb q); eapply Keep; exact H.
Qed.

Lemma separate_wc : forall s out, separate_lines s = Some out -> without_continuations s (concat out).
Proof.
  intros s out H. destruct (sep_wc (length s) s (le_n _) _ _ _ _ _ H) as (u & E & W). simpl in E. subst u. exact W.
Qed.

Lemma wc_none : forall t u, without_continuations t u ->
  (forall a c b, t = a ++ c :: "+"%char :: b -> ~ newline c) -> t = u.
Proof.
  intros t u H. induction H as [|c t u H IH|c t u Hc H IH]; intros N; [reflexivity| |].
  - f_equal. apply IH. intros a d b E. apply (N (c :: a) d b). rewrite E. reflexivity.
  - exfalso. apply (N [] c t eq_refl Hc).
Qed.

(** * Texts made of well formed statements *)
Lemma open_bracket : forall c, is_open c = true -> bracket c.
Proof.
  intros c. unfold is_open. rewrite !orb_true_iff, !aeqb_eq. unfold bracket. intros [[->| ->]| ->]; vm_compute; intuition congruence.
Qed.
Lemma close_bracket : forall c, is_close c = true -> bracket c.
Proof.
  intros c. unfold is_close. rewrite !orb_true_iff, !aeqb_eq. unfold bracket. intros [[->| ->]| ->]; vm_compute; intuition congruence.
Qed.
Lemma not_bracket : forall c, ~ bracket c -> is_open c = false /\ is_close c = false.
Proof.
  intros c H. split; [destruct (is_open c) eqn:E; [exfalso; apply H, open_bracket, E|reflexivity]|
                      destruct (is_close c) eqn:E; [exfalso; apply H, close_bracket, E|reflexivity]].
Qed.
Lemma not_quote : forall c, c <> quote -> aeqb c QT = false.
Proof. intros c H. apply aeqb_neq. exact H. Qed.
Lemma pair_facts : forall o c, pair o c ->
  is_open o = true /\ is_open c = false /\ is_close c = true /\ closes o c = true.
Proof. intros o c [E|[E|E]]; injection E as -> ->; repeat split; reflexivity. Qed.

Lemma app_one : forall (a : str) c b, (a ++ [c]) ++ b = a ++ c :: b.
Proof. intros. rewrite <- app_assoc. reflexivity. Qed.

Lemma sep_quoted : forall t, quoted t -> forall acc st r,
  sep false acc st true (t ++ r) = sep false (acc ++ t) st true r.
Proof.
  intros t H. induction H as [|c t Hb Hq H IH|o c t u Hp Ht IHt Hu IHu]; intros acc st r.
  - rewrite app_nil_r. reflexivity.
  - destruct (not_bracket c Hb) as [Ho Hc]. cbn [app sep]. rewrite Ho, Hc, (not_quote c Hq).
    rewrite orb_true_r. cbn [negb]. rewrite !andb_false_r.
    destruct (is_nl c); rewrite IH, app_one; reflexivity.
  - destruct (pair_facts o c Hp) as (Ho & Hco & Hc & Hm). cbn [app sep]. rewrite Ho.
    rewrite <- app_assoc, IHt. cbn [app sep]. rewrite Hco, Hc, Hm, IHu. rewrite !app_one, <- app_assoc. reflexivity.
Qed.

Lemma sep_inside : forall t, inside t -> forall acc st r, st <> [] ->
  sep false acc st false (t ++ r) = sep false (acc ++ t) st false r.
Proof.
  intros t H. induction H as [|c t Hb Hq H IH|o c t u Hp Ht IHt Hu IHu|t u Ht Hu IHu]; intros acc st r Hs.
  - rewrite app_nil_r. reflexivity.
  - destruct (not_bracket c Hb) as [Ho Hc]. cbn [app sep]. rewrite Ho, Hc, (not_quote c Hq).
    assert (is_nil st = false) as -> by (destruct st; [contradiction|reflexivity]). cbn [negb orb].
    rewrite !andb_false_r. cbn [andb].
    destruct (is_nl c); rewrite IH, app_one by exact Hs; reflexivity.
  - destruct (pair_facts o c Hp) as (Ho & Hco & Hc & Hm). cbn [app sep]. rewrite Ho.
    rewrite <- app_assoc, IHt by discriminate. cbn [app sep]. rewrite Hco, Hc, Hm, IHu by exact Hs.
    rewrite !app_one, <- app_assoc. reflexivity.
  - cbn [app sep]. change (is_open quote) with false. change (is_close quote) with false. change (aeqb quote QT) with true.
    cbn [negb]. rewrite <- app_assoc, sep_quoted by exact Ht. cbn [app sep].
    change (is_open quote) with false. change (is_close quote) with false. change (aeqb quote QT) with true.
    cbn [negb]. rewrite IHu by exact Hs. rewrite !app_one, <- app_assoc. reflexivity.
Qed.

Lemma sep_body : forall t, body t -> forall acc r, acc <> [] \/ starts_with_none_of (s2l "*") t ->
  sep false acc [] false (t ++ r) = sep false (acc ++ t) [] false r.
Proof.
  intros t H. induction H as [|c t Hb Hq Hn Hs H IH|o c t u Hp Ht Hu IHu|t u Ht Hu IHu]; intros acc r Ha.
  - rewrite app_nil_r. reflexivity.
  - destruct (not_bracket c Hb) as [Ho Hc]. cbn [app sep]. rewrite Ho, Hc, (not_quote c Hq).
    assert (is_nl c = false) as -> by (destruct (is_nl c) eqn:E; [exfalso; apply Hn, is_nl_newline, E|reflexivity]).
    assert (aeqb c ";" = false) as -> by (apply aeqb_neq; exact Hs).
    assert (aeqb c "*" && is_nil acc && is_nil (@nil ascii) && negb false = false) as ->.
    { destruct Ha as [Ha|Ha]; [destruct acc; [contradiction|rewrite andb_false_r; reflexivity]|].
      assert (aeqb c "*" = false) as -> by (apply aeqb_neq; intros ->; apply Ha; left; reflexivity). reflexivity. }
    rewrite IH by (left; destruct acc; discriminate). rewrite app_one. reflexivity.
  - destruct (pair_facts o c Hp) as (Ho & Hco & Hc & Hm). cbn [app sep]. rewrite Ho.
    rewrite <- app_assoc, sep_inside by (exact Ht || discriminate). cbn [app sep]. rewrite Hco, Hc, Hm.
    rewrite IHu by (left; destruct acc; discriminate).
    rewrite !app_one, <- app_assoc. reflexivity.
  - cbn [app sep]. change (is_open quote) with false. change (is_close quote) with false. change (aeqb quote QT) with true.
    cbn [negb]. rewrite <- app_assoc, sep_quoted by exact Ht. cbn [app sep].
    change (is_open quote) with false. change (is_close quote) with false. change (aeqb quote QT) with true.
    cbn [negb]. rewrite IHu by (left; destruct acc; discriminate). rewrite !app_one, <- app_assoc. reflexivity.
Qed.

Lemma sep_comment : forall t acc st q r, ~ In LF t ->
  sep true acc st q (t ++ LF :: r) = yield_ (acc ++ t ++ [LF]) (sep false [] st q r).
Proof.
  induction t as [|c t IH]; intros acc st q r H; cbn [app sep].
  - rewrite aeqb_refl. reflexivity.
  - assert (aeqb c LF = false) as -> by (apply aeqb_neq; intros ->; apply H; left; reflexivity).
    rewrite IH by (intros G; apply H; right; exact G). rewrite app_one. reflexivity.
Qed.

Lemma sep_more : forall m acc r, Forall body m -> acc <> [] ->
  sep false acc [] false (concat (map (fun l => nl ++ "+"%char :: l) m) ++ r) = sep false (acc ++ concat m) [] false r.
Proof.
  induction m as [|l m IH]; intros acc r H Ha; cbn [map concat app].
  - rewrite app_nil_r. reflexivity.
  - inversion H as [|? ? Hl Hm]; subst.
    change (nl ++ "+"%char :: l) with (LF :: "+"%char :: l).
    rewrite <- app_assoc. cbn [app sep]. change (is_open LF) with false. change (is_close LF) with false.
    change (aeqb LF QT) with false. change (is_nl LF) with true. cbn [is_nil negb orb].
    change (aeqb "+" "+") with true. cbv iota.
    rewrite sep_body; [|exact Hl|left; exact Ha].
    rewrite IH by (exact Hm || (destruct acc; [contradiction|discriminate])). rewrite <- app_assoc. reflexivity.
Qed.

Lemma sep_eol : forall acc r, starts_with_none_of ["+"%char; CR] r ->
  sep false acc [] false (LF :: r) = yield_ (acc ++ [LF]) (sep false [] [] false r).
Proof.
  intros acc r H. cbn [sep]. change (is_open LF) with false. change (is_close LF) with false.
  change (aeqb LF QT) with false. change (is_nl LF) with true. cbn [is_nil negb orb].
  destruct r as [|d r]; [reflexivity|].
  assert (aeqb d "+" = false) as -> by (apply aeqb_neq; intros ->; apply H; left; reflexivity).
  change (aeqb LF CR) with false. change (aeqb LF LF) with true. rewrite andb_false_r, andb_true_r. cbn [orb].
  assert (aeqb d CR = false) as -> by (apply aeqb_neq; intros ->; apply H; right; left; reflexivity). reflexivity.
Qed.

Lemma sep_statement : forall s r, statement_ok s -> starts_with_none_of ["+"%char; CR] r ->
  sep false [] [] false (in_file s ++ r) = yield_ (one_line s) (sep false [] [] false r).
Proof.
  intros [t|f m rem] r H Hr.
  - cbn [in_file one_line]. rewrite <- app_comm_cons. cbn [sep].
    change (is_open "*") with false. change (is_close "*") with false. change (aeqb "*" QT) with false.
    change (is_nl "*") with false. cbn [aeqb is_nil negb].
    change (Ascii.eqb "*" "*") with true. cbn [andb]. rewrite <- app_assoc. change (nl ++ r) with (LF :: r).
    rewrite sep_comment by exact H. reflexivity.
  - destruct H as (Hf & Hm & Hs & He & Hrem). cbn [in_file one_line]. rewrite <- !app_assoc.
    rewrite sep_body; [|exact Hf|right; destruct f; [exact I|]; simpl in Hs |- *; intros [G|[]]; apply Hs; left; exact G].
    cbn [app]. assert (sep false f [] false (concat (map (fun l => nl ++ "+"%char :: l) m) ++ remark_text rem ++ nl ++ r)
                       = sep false (f ++ concat m) [] false (remark_text rem ++ nl ++ r)) as ->.
    { destruct f as [|c f]; [rewrite He by reflexivity; reflexivity|]. apply sep_more; [exact Hm|discriminate]. }
    destruct rem as [t|].
    + cbn [remark_text app sep]. change (is_open ";") with false. change (is_close ";") with false.
      change (aeqb ";" QT) with false. change (is_nl ";") with false. change (aeqb ";" "*") with false.
      change (aeqb ";" ";") with true. cbn [is_nil negb andb].
      change (nl ++ r) with (LF :: r). rewrite sep_comment by exact Hrem.
      rewrite <- !app_assoc. reflexivity.
    + cbn [remark_text app]. change (nl ++ r) with (LF :: r). rewrite sep_eol by exact Hr. rewrite <- app_assoc. reflexivity.
Qed.

Lemma body_no_cr : forall f, body f -> starts_with_none_of [CR] f.
Proof.
  intros f H. destruct H as [|c t Hb Hq Hn Hs H|o c t u Hp Ht Hu|t u Ht Hu]; simpl; [exact I| | |].
  - intros [G|[]]. apply Hn. right. symmetry. exact G.
  - intros [G|[]]. destruct Hp as [E|[E|E]]; injection E as -> ->; discriminate.
  - intros [G|[]]. discriminate.
Qed.

Lemma statement_start : forall s r, statement_ok s -> starts_with_none_of ["+"%char; CR] (in_file s ++ r).
Proof.
  intros [t|f m rem] r H; simpl.
  - intros [G|[G|[]]]; discriminate.
  - destruct H as (Hf & _ & Hs & He & _). pose proof (body_no_cr f Hf) as Hc.
    destruct f as [|c f].
    + rewrite He by reflexivity. destruct rem; simpl; intros [G|[G|[]]]; discriminate.
    + simpl in Hs, Hc |- *. intros [G|[G|[]]]; [apply Hs; right; left; exact G|apply Hc; left; exact G].
Qed.

Lemma sep_statements : forall ss, Forall statement_ok ss ->
  separate_lines (concat (map in_file ss)) = Some (map one_line ss).
Proof.
  unfold separate_lines. induction ss as [|s ss IH]; intros H; [reflexivity|].
  inversion H as [|? ? Hs Hss]; subst. cbn [map concat]. rewrite sep_statement.
  - rewrite IH by exact Hss. reflexivity.
  - exact Hs.
  - destruct ss as [|s' ss]; [exact I|]. inversion Hss; subst. cbn [map concat]. apply statement_start. assumption.
Qed.

(** A closing bracket with nothing open fails the whole text. *)
Lemma sep_stray : forall ss f c r, Forall statement_ok ss -> body f -> starts_with_none_of (s2l "*+") f -> is_close c = true ->
  separate_lines (concat (map in_file ss) ++ f ++ c :: r) = None.
Proof.
  unfold separate_lines. intros ss f c r H Hf Hs Hc.
  assert (is_open c = false) as Hco.
  { unfold is_close in Hc. rewrite !orb_true_iff, !aeqb_eq in Hc. destruct Hc as [[->| ->]| ->]; reflexivity. }
  assert (sep false [] [] false (f ++ c :: r) = None) as Hx.
  { rewrite sep_body; [|exact Hf|right; destruct f; [exact I|]; simpl in Hs |- *; intros [G|[]]; apply Hs; left; exact G].
    cbn [sep]. rewrite Hco, Hc. reflexivity. }
  assert (starts_with_none_of ["+"%char; CR] (f ++ c :: r)) as Hst.
  { pose proof (body_no_cr f Hf) as G1. destruct f as [|d f]; simpl in *.
    - intros [G|[G|[]]]; subst; discriminate.
    - intros [G|[G|[]]]; [apply Hs; right; left; exact G|apply G1; left; exact G]. }
  induction ss as [|s ss IH]; [exact Hx|]. inversion H as [|? ? Hs1 Hss]; subst. cbn [map concat]. rewrite <- app_assoc.
  rewrite sep_statement.
  - rewrite IH by exact Hss. reflexivity.
  - exact Hs1.
  - destruct ss as [|s' ss]; [exact Hst|]. inversion Hss; subst. cbn [map concat]. rewrite <- app_assoc.
    apply statement_start. assumption.
Qed.
