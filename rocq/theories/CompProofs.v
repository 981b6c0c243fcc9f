(** Reading a statement. *)
From Coq Require Import String Ascii List Bool Arith Lia.
From Verif Require Import PyStr EngModel EngProofs EngCaseProofs PTokModel PTokSpec PTokProofs Regex RegexProofs RegexInv RegexMore CompModel CompSpec CompMatch CompTail CompRead CompFam CompInst.
Import ListNotations.
Local Open Scope string_scope.
Local Open Scope nat_scope.
Local Open Scope list_scope.

(** the end of the statement, as blanks and comment, for the two texts that are matched: the line itself and the
    line with its newline replaced by a blank *)
Definition tb_of (c : comp) (z : str) : str := match c_note c with None => c_end c ++ z | Some _ => c_end c end.
Definition cm_of (c : comp) (z : str) : str := match c_note c with None => [] | Some t => ";"%char :: t ++ z end.
Definition text_z (c : comp) (z : str) : str := comp_body c ++ z.
Lemma text_split : forall c z, text_z c z = head_text (c_kind c) (c_name c) (c_nodes c) ++ c_gap c ++ c_val c ++ ptext (c_pars c) ++ tb_of c z ++ cm_of c z.
Proof.
  intros c z. unfold text_z, comp_body, head_text, line_text, tb_of, cm_of, note_text. fold (ptext (c_pars c)).
  destruct (c_note c); cbn [app]; repeat (rewrite <- app_assoc; cbn [app]); rewrite ?app_nil_r; reflexivity.
Qed.
Lemma space_z : forall z, z = [NL] \/ z = [" "%char] -> forallb is_space z = true.
Proof. intros z [-> | ->]; reflexivity. Qed.
Lemma body_in : forall c a, (a = c_kind c \/ In a (c_name c) \/ In a (nodes_text (c_nodes c)) \/ In a (c_gap c) \/ In a (c_val c) \/ In a (ptext (c_pars c)) \/ In a (c_end c) \/ In a (note_text (c_note c))) -> In a (comp_body c).
Proof.
  intros c a H. unfold comp_body, line_text. fold (ptext (c_pars c)). cbn [In]. rewrite !in_app_iff. intuition auto.
Qed.
Lemma comp_tail_ok : forall c z, comp_ok c -> z = [NL] \/ z = [" "%char] -> tail_ok (tb_of c z) (cm_of c z).
Proof.
  intros c z (_ & _ & _ & _ & _ & (_ & HE) & _ & HN & HB & _) Hz. unfold tail_ok, tb_of, cm_of. destruct (c_note c) as [t|] eqn:E.
  - split; [exact HE|]. right. split; [apply HN; discriminate|].
    assert (forallb not_nl t = true) as T.
    { apply forallb_forall. intros a Ha. unfold not_nl. rewrite negb_true_iff, aeqb_neq. apply HB. apply body_in. rewrite E. cbn [note_text In]. tauto. }
    destruct Hz as [-> | ->]; [exists t, [NL]; auto|]. exists (t ++ [" "%char]), []. rewrite app_nil_r. split; [reflexivity|]. split; [|auto].
    rewrite forallb_app, T. reflexivity.
  - split; [rewrite forallb_app, (space_z z Hz), andb_true_r; exact HE|left; reflexivity].
Qed.
Lemma comp_plist : forall c, comp_ok c -> plist_ok (c_pars c).
Proof. intros c (_ & _ & _ & _ & _ & (H & _) & H2 & _). split; assumption. Qed.
Lemma close_not_z : forall o q z, In (o, q) delims -> z = [NL] \/ z = [" "%char] -> ~ In q z.
Proof. intros o q z [E|[E|[E|[]]]] Hz; injection E as <- <-; destruct Hz as [-> | ->]; intros [G|[]]; discriminate G. Qed.

(** Where the groups of the statement are: [vu] are the blanks taken into the value, [pu] those into the parameters. *)
Definition par_span (f : family) (b : nat) (l : list (str * param)) (u : str) : option (nat * nat) :=
  match f with Instance => xspan b l u | _ => Some (b, b + length (ptext l ++ u)) end.
Theorem comp_match : forall c z, comp_ok c -> z = [NL] \/ z = [" "%char] ->
  let d := S (length (c_name c)) in let e := d + length (nodes_text (c_nodes c)) in let a := e + length (c_gap c) in
  exists f lo hi r y vu pu w, family_of (c_kind c) = Some (f, lo, hi) /\ regex_of (c_kind c) = Some r /\ re_match r (text_z c z) = Some y /\
    (f <> Controlled -> vu = [] /\ tb_of c z = pu ++ w /\ (c_pars c = [] -> pu = []) /\ groups d e a (a + length (c_val c)) (par_span f (a + length (c_val c)) (c_pars c) pu) y) /\
    (f = Controlled -> vu = c_end c ++ (if str_eqb z [NL] then [] else z) /\ groups d e a (a + length (c_val c ++ vu)) None y).
Proof.
  intros c z HC Hz d e a. pose proof (comp_tail_ok c z HC Hz) as HT. pose proof (comp_plist c HC) as HP.
  assert (HC' := HC). destruct HC' as (NN & HN & Hnodes & HG & NG & (_ & HE) & _ & _ & HB & f & lo & hi & Hf & Hlo & Hhi & Hv & Hctl & Hins).
  assert (Forall node_good (c_nodes c)) as Hng by exact Hnodes.
  assert (forall s, starts_with_blank (c_gap c ++ s)) as Hgs by (intros s; apply swb_app; assumption).
  assert (forall x, In x (c_val c) -> x <> NLc) as NLv by (intros x Hx; apply HB; apply body_in; tauto).
  assert (forall x s, head_text x (c_name c) (c_nodes c) ++ s = x :: c_name c ++ nodes_text (c_nodes c) ++ s) as HH by (intros x s; unfold head_text; cbn [app]; rewrite <- app_assoc; reflexivity).
  destruct f.
  - (* passive *)
    destruct (passive_letters _ _ _ Hf) as (-> & -> & Hx & r & Hr). destruct (suffix_only _ _ Hx Hr) as (suffix & -> & HS & HGd).
    assert (simple_value (c_val c) \/ expression_value (c_val c) (ptext (c_pars c) ++ tb_of c z ++ cm_of c z)) as Hv'.
    { destruct Hv as [Hv|(o & q & t & Hd & E & T & A)]; [left; exact Hv|]. right. exists o, q, t. split; [exact Hd|]. split; [exact E|]. split; [exact T|].
      pose proof (close_not_z o q z Hd Hz) as Nz. intros G. unfold line_text in A. fold (ptext (c_pars c)) in A. unfold tb_of, cm_of, note_text in *.
      destruct (c_note c) as [n|]; rewrite ?in_app_iff in G; rewrite ?in_app_iff in A; cbn [In app] in G, A; rewrite ?in_app_iff in G; rewrite ?in_app_iff in A; cbn [In] in G, A; tauto. }
    destruct (passive_match (c_kind c) suffix (c_gap c) (c_val c) (c_pars c) (tb_of c z) (cm_of c z) e [(gNODES, (d, e)); (gDES, (0, d))] Hx HS HGd) as (y & u & w & Y1 & Y2 & Y3 & Y4); try assumption.
    { split; [|split; [|split]]; reflexivity. }
    exists Passive, 2, 2. eexists. exists y, [], u, w. split; [exact Hf|]. split; [exact Hr|]. split; [|split].
    + rewrite text_split, HH. unfold re_match. rewrite m_seq. apply m_head; [exact NN|exact HN|exact Hng|exact Hlo|lia|apply Hgs|intros j Hj; lia|exact Y3].
    + intros _. split; [reflexivity|]. split; [exact Y1|]. split; [exact Y2|]. apply found_groups. exact Y4.
    + discriminate.
  - (* devices *)
    pose proof (device_regex _ _ _ Hf) as Hr. destruct Hv as [NV V].
    assert (forallb modelc (c_val c) = true) as VM. { apply forallb_forall. intros x Hx. unfold modelc. rewrite orb_true_iff, mem_c_In. apply V. exact Hx. }
    destruct (device_match (c_gap c) (c_val c) (c_pars c) (tb_of c z) (cm_of c z) e [(gNODES, (d, e)); (gDES, (0, d))]) as (y & u & w & Y1 & Y2 & Y3 & Y4); try assumption.
    exists Device, lo, hi. eexists. exists y, [], u, w. split; [exact Hf|]. split; [exact Hr|]. split; [|split].
    + rewrite text_split, HH. unfold re_match. rewrite m_seq. apply m_head; [exact NN|exact HN|exact Hng|exact Hlo|lia|apply Hgs| |exact Y3].
      intros j Hj. apply extra_none; try assumption. apply (nsp_run modelc); [intros x Hx; apply modelc_facts; exact Hx|exact VM].
    + intros _. split; [reflexivity|]. split; [exact Y1|]. split; [exact Y2|]. apply found_groups. exact Y4.
    + discriminate.
  - (* sources *)
    destruct (source_regex _ _ _ Hf) as (-> & -> & Hr).
    destruct (source_match (c_gap c) (c_val c) (c_pars c) (tb_of c z) (cm_of c z) e [(gNODES, (d, e)); (gDES, (0, d))]) as (y & u & w & Y1 & Y2 & Y3 & Y4); try assumption.
    exists Source, 2, 2. eexists. exists y, [], u, w. split; [exact Hf|]. split; [exact Hr|]. split; [|split].
    + rewrite text_split, HH. unfold re_match. rewrite m_seq. apply m_head; [exact NN|exact HN|exact Hng|exact Hlo|lia|apply Hgs|intros j Hj; lia|exact Y3].
    + intros _. split; [reflexivity|]. split; [exact Y1|]. split; [exact Y2|]. apply found_groups. exact Y4.
    + discriminate.
  - (* controlled *)
    destruct (controlled_regex _ _ _ Hf) as (-> & Hr). destruct (Hctl eq_refl) as [Hp Hn].
    assert (exists z1, z1 = (if str_eqb z [NL] then [NL] else []) /\ (z1 = [] \/ z1 = [NLc]) /\ tb_of c z = (c_end c ++ (if str_eqb z [NL] then [] else z)) ++ z1) as (z1 & Ez & Hz1 & Et).
    { unfold tb_of. rewrite Hn. destruct Hz as [-> | ->]; cbn; eexists; (split; [reflexivity|]); (split; [auto|]); rewrite ?app_nil_r; reflexivity. }
    destruct (controlled_match (c_gap c) (c_val c) (c_end c ++ (if str_eqb z [NL] then [] else z)) z1 e [(gNODES, (d, e)); (gDES, (0, d))]) as (y & Y0 & Y1 & Y2 & Y3 & Y4); try assumption.
    { rewrite forallb_app. unfold blank in HE. rewrite HE. destruct Hz as [-> | ->]; reflexivity. }
    { intros x Hx. apply in_app_iff in Hx. destruct Hx as [Hx|Hx]; [apply HB; apply body_in; tauto|]. destruct Hz as [-> | ->]; cbn in Hx; [destruct Hx|destruct Hx as [<-|[]]; discriminate]. }
    exists Controlled, lo, lo. eexists. exists y, (c_end c ++ (if str_eqb z [NL] then [] else z)), [], []. split; [exact Hf|]. split; [exact Hr|]. split; [|split].
    + rewrite text_split, HH, Hp. unfold ptext. cbn [map concat app]. rewrite Et. unfold cm_of. rewrite Hn, app_nil_r. unfold re_match. rewrite m_seq.
      apply m_head; [exact NN|exact HN|exact Hng|exact Hlo|lia|apply Hgs|intros j Hj; lia|exact Y0].
    + intros F. contradiction F. reflexivity.
    + intros _. split; [reflexivity|]. split; [exact Y1|]. split; [exact Y2|]. split; [exact Y3|]. exact Y4.
  - (* instances *)
    pose proof (instance_regex _ _ _ Hf) as (Hr & -> & ->). destruct Hv as [NV V].
    assert (forallb modelc (c_val c) = true) as VM. { apply forallb_forall. intros x Hx. unfold modelc. rewrite orb_true_iff, mem_c_In. apply V. exact Hx. }
    destruct (instance_match (c_gap c) (c_val c) (c_pars c) (tb_of c z) (cm_of c z) e [(gNODES, (d, e)); (gDES, (0, d))]) as (y & u & w & Y1 & Y2 & Y3 & Y4 & Y5 & Y6 & Y7); try assumption; try reflexivity.
    { intros NP. unfold cm_of. rewrite (Hins eq_refl NP). reflexivity. }
    { intros x Hx. apply HB. apply body_in. tauto. }
    exists Instance, 1, 99. eexists. exists y, [], u, w. split; [exact Hf|]. split; [exact Hr|]. split; [|split].
    + rewrite text_split, HH. unfold re_match. rewrite m_seq. apply m_head; [exact NN|exact HN|exact Hng|exact Hlo|lia|apply Hgs| |exact Y3].
      intros j Hj. apply xextra_none; try assumption. apply (nsp_run modelc); [intros x Hx; apply modelc_facts; exact Hx|exact VM].
    + intros _. split; [reflexivity|]. split; [exact Y1|]. split; [exact Y2|]. split; [exact Y4|]. split; [exact Y5|]. split; [exact Y6|exact Y7].
    + discriminate.
Qed.

(** Reading. *)
Definition names_ok (l : list (str * param)) : Prop :=
  Forall (fun bp => name_ok (fst (meaning (snd bp)))) l /\ NoDup (map (fun bp => fst (meaning (snd bp))) l).
Lemma collapse_id : forall s t, (forall a, In a s -> a <> NL /\ a <> CR) -> collapse (s ++ t) = s ++ collapse t.
Proof.
  unfold collapse. induction s as [|a s IH]; intros t H; [reflexivity|]. cbn [app collapse_ andb].
  destruct (H a (or_introl eq_refl)) as [A B]. assert (aeqb a "010" = false) as -> by (apply aeqb_neq; exact A). assert (aeqb a "013" = false) as -> by (apply aeqb_neq; exact B).
  cbn [orb]. rewrite IH; [reflexivity|]. intros b Hb. apply H. right. exact Hb.
Qed.
Lemma collapse_text : forall c, comp_ok c -> collapse (comp_text c) = text_z c [" "%char].
Proof. intros c (_ & _ & _ & _ & _ & _ & _ & _ & HB & _). unfold comp_text, text_z. rewrite collapse_id by exact HB. reflexivity. Qed.
Lemma slice_mid : forall a b r, slice (a ++ b ++ r) (length a, length a + length b) = b.
Proof.
  intros a b r. unfold slice. cbn [fst snd]. replace (length a + length b - length a) with (length b) by lia.
  rewrite skipn_app, skipn_all, Nat.sub_diag. cbn [skipn app]. rewrite firstn_app, firstn_all, Nat.sub_diag. cbn [firstn]. apply app_nil_r.
Qed.
Lemma slice_at : forall s a b r n m, s = a ++ b ++ r -> n = length a -> m = n + length b -> slice s (n, m) = b.
Proof. intros s a b r n m -> -> ->. apply slice_mid. Qed.
Lemma trimmed_strip : forall v u, trimmed v -> blank u -> strip (v ++ u) = v.
Proof.
  intros v u ((a & r & E1 & A) & (b & q & E2 & B)) Hu. unfold strip, strip_if, rstrip_if.
  assert (lstrip_if is_space (v ++ u) = v ++ u) as ->. { rewrite E1. cbn [app lstrip_if]. rewrite A. reflexivity. }
  rewrite rev_app_distr. assert (forall x y, forallb is_space x = true -> lstrip_if is_space (x ++ y) = lstrip_if is_space y) as L.
  { induction x as [|c x IH]; intros y Hx; [reflexivity|]. cbn [forallb] in Hx. apply andb_true_iff in Hx. cbn [app lstrip_if]. rewrite (proj1 Hx). apply IH. tauto. }
  rewrite L; [|apply forallb_forall; intros x Hx; apply in_rev in Hx; unfold blank in Hu; rewrite forallb_forall in Hu; apply Hu; exact Hx].
  rewrite E2, rev_app_distr. cbn [rev app lstrip_if]. rewrite B. cbn [rev]. rewrite rev_involutive. reflexivity.
Qed.
Lemma nsp_trimmed : forall v, v <> [] -> (forall c, In c v -> is_space c = false) -> trimmed v.
Proof.
  intros v N H. split.
  - destruct v as [|a r]; [contradiction N; reflexivity|]. exists a, r. split; [reflexivity|]. apply H. left. reflexivity.
  - destruct (exists_last N) as (r & a & E). exists a, r. split; [exact E|]. apply H. rewrite E. apply in_app_iff. right. left. reflexivity.
Qed.
Lemma value_trimmed : forall f v s, value_ok f v s -> trimmed v.
Proof.
  intros f v s H. destruct f; cbn [value_ok] in H.
  - destruct H as [(N & H & _)|(o & q & t & Hd & E & _)]; [apply nsp_trimmed; [exact N|]; intros c Hc; apply H; exact Hc|]. subst v.
    destruct Hd as [Ed|[Ed|[Ed|[]]]]; injection Ed as <- <-; (split; [eexists; eexists; split; [reflexivity|reflexivity]|eexists; eexists (_ :: t); split; [reflexivity|reflexivity]]).
  - destruct H as [N H]. apply nsp_trimmed; [exact N|]. intros c Hc. apply (proj1 (modelc_facts c (proj2 (orb_true_iff _ _) (match H c Hc with or_introl h => or_introl h | or_intror h => or_intror (proj2 (mem_c_In _ _) h) end)))).
  - apply H.
  - exact H.
  - destruct H as [N H]. apply nsp_trimmed; [exact N|]. intros c Hc. apply (proj1 (modelc_facts c (proj2 (orb_true_iff _ _) (match H c Hc with or_introl h => or_introl h | or_intror h => or_intror (proj2 (mem_c_In _ _) h) end)))).
Qed.
Lemma parse_blank : forall b s, blank b -> parse_params (b ++ s) = parse_params s.
Proof. intros b s H. unfold parse_params, tokenize_params. rewrite (tok_blank b s H). reflexivity. Qed.
Lemma words_cur : forall w cur s, (forall a, In a w -> is_space a = false) -> words_ cur (w ++ s) = words_ (cur ++ w) s.
Proof.
  induction w as [|a w IH]; intros cur s H; cbn [app]; [rewrite app_nil_r; reflexivity|]. cbn [words_]. rewrite (H a (or_introl eq_refl)).
  rewrite IH by (intros b Hb; apply H; right; exact Hb). rewrite <- app_assoc. reflexivity.
Qed.
Lemma words_blank : forall b s, forallb is_space b = true -> words_ [] (b ++ s) = words_ [] s.
Proof. induction b as [|a b IH]; intros s H; [reflexivity|]. cbn [forallb] in H. apply andb_true_iff in H. cbn [app words_]. rewrite (proj1 H). apply IH. tauto. Qed.
Lemma words_flush : forall cur b s, cur <> [] -> b <> [] -> forallb is_space b = true -> words_ cur (b ++ s) = cur :: words_ [] s.
Proof.
  intros cur [|a b] s N Nb H; [contradiction Nb; reflexivity|]. cbn [forallb] in H. apply andb_true_iff in H. cbn [app words_]. rewrite (proj1 H).
  destruct cur; [contradiction N; reflexivity|]. f_equal. apply words_blank. tauto.
Qed.
Lemma words_nodes : forall l cur, Forall node_good l -> cur <> [] -> words_ cur (nodes_text l) = cur :: map snd l.
Proof.
  induction l as [|[b n] l IH]; intros cur H N; cbn [nodes_text map concat]; [destruct cur; [contradiction N|]; reflexivity|].
  apply Forall_cons_iff in H. destruct H as [(A & B & C & D) H]. cbn [fst snd] in *. rewrite <- app_assoc. rewrite words_flush by assumption. f_equal.
  rewrite words_cur by (intros a Ha; apply node_facts, D; exact Ha). cbn [app]. fold (nodes_text l). apply IH; assumption.
Qed.
Lemma words_nodes_text : forall l, Forall node_good l -> words (nodes_text l) = map snd l.
Proof.
  intros [|[b n] l] H; [reflexivity|]. apply Forall_cons_iff in H. destruct H as [(A & B & C & D) H]. cbn [fst snd] in *. unfold words, nodes_text. cbn [map concat fst snd].
  rewrite <- app_assoc. rewrite words_blank by exact A. rewrite words_cur by (intros a Ha; apply node_facts, D; exact Ha). cbn [app]. fold (nodes_text l). apply words_nodes; assumption.
Qed.
Lemma undress_upper : forall k n, n <> [] -> (forall a, In a n -> is_word a = true) -> undress (k :: n) = upper (k :: n).
Proof.
  intros k [|b r] N H; [contradiction N; reflexivity|]. destruct r as [|x r]; [reflexivity|]. unfold undress.
  rewrite (proj2 (proj2 (word_facts b (H b (or_introl eq_refl))))). reflexivity.
Qed.
(** what a statement means *)
Definition attrs_of (c : comp) : attrs :=
  {| a_ref := upper (c_kind c :: c_name c); a_ports := map snd (c_nodes c); a_val := Some (c_val c);
     a_par := match c_pars c with [] => None | l => Some (map entry l) end |}.
Theorem comp_read : forall c, comp_ok c -> names_ok (c_pars c) -> CompModel.parse_line (comp_text c) = Some (attrs_of c).
Proof.
  intros c HC [HN HD]. destruct (comp_match c [" "%char] HC (or_intror eq_refl)) as (f & lo & hi & r & [ye yc] & vu & pu & w & Hf & Hr & Hm & G1 & G2).
  unfold CompModel.parse_line, comp_text, comp_body. cbn [app]. rewrite Hr.
  match goal with |- context [collapse ?t] => replace (collapse t) with (text_z c [" "%char]) end;
    [|rewrite <- (collapse_text c HC); unfold comp_text, comp_body; cbn [app]; reflexivity].
  rewrite Hm. pose proof (text_split c [" "%char]) as TS. unfold head_text in TS. cbn [app] in TS.
  assert (HC' := HC). destruct HC' as (NN & HNm & Hnodes & HG & NG & (HL & HE) & _ & _ & HB & f' & lo' & hi' & Hf' & _ & _ & Hv & Hctl & _).
  rewrite Hf in Hf'. injection Hf' as <- <- <-.
  assert (trimmed (c_val c)) as TV by (apply (value_trimmed f _ _ Hv)).
  set (NT := nodes_text (c_nodes c)) in *. set (P := ptext (c_pars c)) in *. set (T := text_z c [" "%char]) in *.
  assert (slice T (0, S (length (c_name c))) = c_kind c :: c_name c) as S1.
  { eapply (slice_at _ [] (c_kind c :: c_name c)); [rewrite TS; cbn [app]; rewrite <- app_assoc; reflexivity|reflexivity|reflexivity]. }
  assert (slice T (S (length (c_name c)), S (length (c_name c)) + length NT) = NT) as S2.
  { eapply (slice_at _ (c_kind c :: c_name c) NT); [rewrite TS; cbn [app]; rewrite <- app_assoc; reflexivity|reflexivity|reflexivity]. }
  assert (forall u rest, T = (c_kind c :: c_name c ++ NT ++ c_gap c) ++ (c_val c ++ u) ++ rest ->
    slice T (S (length (c_name c)) + length NT + length (c_gap c), S (length (c_name c)) + length NT + length (c_gap c) + length (c_val c ++ u)) = c_val c ++ u) as S3.
  { intros u rest E. eapply slice_at; [exact E|cbn [length]; rewrite !app_length; lia|reflexivity]. }
  assert (f = Controlled \/ f <> Controlled) as [F|F] by (destruct f; auto; right; discriminate).
  - destruct (G2 F) as (-> & A & B & C & D). cbn [snd] in A, B, C, D. change (str_eqb [" "%char] [NL]) with false in C; cbv iota in C. unfold group. rewrite A, B, C, D. cbn [option_map omap_err]. rewrite S1, S2.
    destruct (Hctl F) as [Hp Hn]. unfold attrs_of. rewrite Hp. f_equal. f_equal.
    + apply undress_upper; assumption.
    + apply words_nodes_text. exact Hnodes.
    + f_equal. rewrite (S3 (c_end c ++ [" "%char]) []).
      * apply trimmed_strip; [exact TV|]. unfold blank in *. rewrite forallb_app, HE. reflexivity.
      * rewrite TS. unfold P, ptext, tb_of, cm_of. rewrite Hp, Hn. cbn [map concat app]. rewrite !app_nil_r. rewrite <- !app_assoc. reflexivity.
  - destruct (G1 F) as (-> & Et & Hpu & A & B & C & D). cbn [snd] in A, B, C, D. unfold group. rewrite A, B, C, D. cbn [option_map]. rewrite S1, S2.
    assert (line_ok (c_pars c) pu) as LP. { split; [exact HL|]. pose proof (comp_tail_ok c _ HC (or_intror eq_refl)) as [TB _]. rewrite Et, forallb_app in TB. apply andb_true_iff in TB. exact (proj1 TB). }
    assert (omap_err parse_params match P ++ pu with [] => None | y :: t => Some (y :: t) end = Some (a_par (attrs_of c))) as OP0.
    { unfold attrs_of, a_par. destruct (c_pars c) as [|[b q] l] eqn:E.
      - rewrite (Hpu eq_refl). reflexivity.
      - pose proof (PTokProofs.parse_line _ _ LP HN HD) as PL. unfold line_text in PL. fold (ptext ((b, q) :: l)) in PL. fold P in PL.
        destruct (P ++ pu) as [|y t] eqn:EP; [|cbn [omap_err]; rewrite PL; reflexivity].
        exfalso. apply app_nil_iff in EP. destruct EP as [EP _]. unfold P, ptext in EP. cbn [map concat fst snd] in EP. apply app_nil_iff in EP. destruct EP as [EP _]. apply app_nil_iff in EP. destruct EP as [EP _].
        apply Forall_cons_iff in HL. destruct HL as [(_ & HL & _) _]. apply HL. exact EP. }
    set (b0 := S (length (c_name c)) + length NT + length (c_gap c) + length (c_val c)) in *.
    assert (T = (c_kind c :: c_name c ++ NT ++ c_gap c ++ c_val c) ++ (P ++ pu) ++ w ++ cm_of c [" "%char]) as TE by (rewrite TS, Et; cbn [app]; rewrite <- !app_assoc; reflexivity).
    assert (length (c_kind c :: c_name c ++ NT ++ c_gap c ++ c_val c) = b0) as LB by (unfold b0; cbn [length]; rewrite !app_length; lia).
    assert (omap_err parse_params match option_map (slice T) (par_span f b0 (c_pars c) pu) with Some (y :: t) => Some (y :: t) | _ => None end = Some (a_par (attrs_of c))) as OP.
    { destruct f; try contradiction; cbn [par_span]; cycle 3.
      { unfold attrs_of, a_par. destruct (c_pars c) as [|[b q] l] eqn:E; [reflexivity|]. cbn [xspan option_map].
        pose proof (PTokProofs.parse_line _ _ LP HN HD) as PL. unfold line_text in PL. fold (ptext ((b, q) :: l)) in PL. fold P in PL.
        apply Forall_cons_iff in HL. destruct HL as [(Bb & Nb & Qb) _]. cbn [fst snd] in *.
        assert (P = b ++ param_text q ++ ptext l) as EP by (unfold P, ptext; cbn [map concat fst snd]; rewrite <- app_assoc; reflexivity).
        rewrite (slice_at T ((c_kind c :: c_name c ++ NT ++ c_gap c ++ c_val c) ++ b) ((param_text q ++ ptext l) ++ pu) (w ++ cm_of c [" "%char])).
        - rewrite EP, <- !app_assoc in PL. rewrite (parse_blank b _ Bb) in PL. rewrite <- app_assoc.
          destruct (param_text q ++ ptext l ++ pu) as [|y t] eqn:Ey; [|cbn [omap_err]; rewrite PL; reflexivity].
          exfalso. apply app_nil_iff in Ey. destruct Ey as [Ey _]. unfold param_text in Ey. apply app_nil_iff in Ey. destruct Ey as [Ey _]. destruct Qb as (Wq & _). exact (word_nonempty _ Wq Ey).
        - rewrite TE, EP, <- !app_assoc. cbn [app]. rewrite <- !app_assoc. reflexivity.
        - rewrite app_length, LB. reflexivity.
        - fold P. rewrite EP, !app_length. lia. }
      all: cbn [option_map]; fold P; rewrite (slice_at T _ (P ++ pu) _ b0 (b0 + length (P ++ pu)) TE (eq_sym LB) eq_refl).
      all: exact OP0. }
    match goal with |- context [omap_err parse_params ?X] => replace (omap_err parse_params X) with (Some (a_par (attrs_of c))) by (symmetry; exact OP) end. unfold attrs_of. f_equal. f_equal.
    + apply undress_upper; assumption.
    + apply words_nodes_text. exact Hnodes.
    + f_equal. pose proof (S3 [] (P ++ tb_of c [" "%char] ++ cm_of c [" "%char])) as S5. rewrite !app_nil_r in S5. fold b0 in S5. rewrite S5.
      * rewrite <- (app_nil_r (c_val c)) at 1. apply trimmed_strip; [exact TV|reflexivity].
      * rewrite TS. cbn [app]. rewrite <- !app_assoc. reflexivity.
Qed.
