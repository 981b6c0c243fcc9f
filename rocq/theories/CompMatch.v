(** How the patterns match the text of a statement. *)
From Coq Require Import String Ascii List Bool Arith Lia.
From Verif Require Import PyStr EngModel EngProofs EngCaseProofs PTokModel PTokSpec PTokProofs Regex RegexProofs RegexInv RegexMore CompModel CompSpec.
Import ListNotations.
Local Open Scope string_scope.
Local Open Scope nat_scope.
Local Open Scope list_scope.

(** ** Characters *)
Lemma blank_facts : forall c, is_space c = true -> is_word c = false /\ nodec c = false /\ c <> ";"%char /\ c <> "\"%char /\ c <> "="%char /\ parc c = true /\
  mem_c c (s2l ".-{}") = false.
Proof.
  intros c H. assert (implb (is_space c) (negb (is_word c) && negb (nodec c) && negb (aeqb c ";") && negb (aeqb c "\") && negb (aeqb c "=") && parc c && negb (mem_c c (s2l ".-{}"))) = true) as X.
  { apply (sweep1 (fun c => implb (is_space c) (negb (is_word c) && negb (nodec c) && negb (aeqb c ";") && negb (aeqb c "\") && negb (aeqb c "=") && parc c && negb (mem_c c (s2l ".-{}"))))). vm_cast_no_check (eq_refl true). }
  rewrite H in X. cbn [implb] in X. rewrite !andb_true_iff, !negb_true_iff, !aeqb_neq in X. tauto.
Qed.
Lemma par_facts : forall c, is_word c || is_space c || aeqb c "=" || parc c = true -> c <> ";"%char /\ c <> "\"%char.
Proof.
  intros c H. assert (implb (is_word c || is_space c || aeqb c "=" || parc c) (negb (aeqb c ";") && negb (aeqb c "\")) = true) as X.
  { apply (sweep1 (fun c => implb (is_word c || is_space c || aeqb c "=" || parc c) (negb (aeqb c ";") && negb (aeqb c "\")))). vm_cast_no_check (eq_refl true). }
  rewrite H in X. cbn [implb] in X. rewrite !andb_true_iff, !negb_true_iff, !aeqb_neq in X. tauto.
Qed.
Lemma word_facts : forall c, is_word c = true -> is_space c = false /\ nodec c = true /\ aeqb c SECT = false.
Proof.
  intros c H. assert (implb (is_word c) (negb (is_space c) && nodec c && negb (aeqb c SECT)) = true) as X.
  { apply (sweep1 (fun c => implb (is_word c) (negb (is_space c) && nodec c && negb (aeqb c SECT)))). vm_cast_no_check (eq_refl true). }
  rewrite H in X. cbn [implb] in X. rewrite !andb_true_iff, !negb_true_iff in X. tauto.
Qed.
Lemma node_facts : forall c, node_char c -> nodec c = true /\ is_space c = false.
Proof.
  intros c H.
  assert (implb (is_word c || mem_c c (s2l "+,-.")) (nodec c && negb (is_space c)) = true) as X.
  { apply (sweep1 (fun c => implb (is_word c || mem_c c (s2l "+,-.")) (nodec c && negb (is_space c)))). vm_cast_no_check (eq_refl true). }
  unfold node_char in H. rewrite <- mem_c_In, <- orb_true_iff in H. rewrite H in X. cbn [implb] in X. rewrite andb_true_iff, negb_true_iff in X. exact X.
Qed.
Lemma parc_iff : forall c, par_char c <-> parc c = true.
Proof.
  intros c. unfold par_char, parc. rewrite !orb_true_iff, mem_c_In. tauto.
Qed.

Definition starts_with_blank (s : str) : Prop := match s with c :: _ => is_space c = true | [] => False end.
Definition not_blank (s : str) : Prop := match s with c :: _ => is_space c = false | [] => False end.
Lemma swb_app : forall b s, b <> [] -> forallb is_space b = true -> starts_with_blank (b ++ s).
Proof. intros [|c b] s N H; [contradiction|]. cbn [forallb] in H. apply andb_true_iff in H. exact (proj1 H). Qed.

(** ** Designator and nodes *)
Definition node_re : re := Seq sp1 (Plus (Chr nodec)).
Definition node_good (bn : str * str) : Prop :=
  blank (fst bn) /\ fst bn <> [] /\ snd bn <> [] /\ forall a, In a (snd bn) -> node_char a.
Lemma node_run : forall t, (forall a, In a t -> node_char a) -> forallb nodec t = true.
Proof. intros t H. apply forallb_forall. intros a Ha. apply node_facts. apply H. exact Ha. Qed.
Lemma node_start : forall t s, t <> [] -> (forall a, In a t -> node_char a) -> not_blank (t ++ s).
Proof. intros [|a t] s N H; [contradiction|]. apply (node_facts a). apply H. left. reflexivity. Qed.
Lemma m_node : forall (R : Type) bn p s c (K : @kont R) x, node_good bn -> starts_with_blank s ->
  K (p + length (fst bn ++ snd bn)) s c = Some x -> m node_re p ((fst bn ++ snd bn) ++ s) c K = Some x.
Proof.
  intros R [b t] p s c K x (B & NB & NT & T) S HK. cbn [fst snd] in *. unfold node_re. rewrite m_seq, <- app_assoc.
  apply m_sp1_all; [exact NB|exact B| |].
  - pose proof (node_start t s NT T) as X. destruct (t ++ s); [exact I|exact X].
  - apply m_plus_run; [exact NT|apply node_run; exact T| |].
    + destruct s as [|z s]; [exact I|]. apply blank_facts. exact S.
    + rewrite <- HK. f_equal. rewrite app_length. lia.
Qed.
Lemma nodes_then_blank : forall l s, Forall node_good l -> starts_with_blank s -> starts_with_blank (nodes_text l ++ s).
Proof.
  intros [|[b t] l] s H S; [exact S|]. inversion H as [|? ? (B & NB & _) _]; subst. cbn [fst snd] in *.
  unfold nodes_text. cbn [map concat fst snd]. rewrite <- !app_assoc. apply swb_app; assumption.
Qed.
Lemma m_nodes : forall (R : Type) l n k p s c (K : @kont R) x, Forall node_good l -> n <= length l -> length l <= n + k -> starts_with_blank s ->
  (forall j, S j = n + k - length l -> m (Seq node_re (upto j node_re)) (p + length (nodes_text l)) s c K = None) ->
  K (p + length (nodes_text l)) s c = Some x -> m (rep n k node_re) p (nodes_text l ++ s) c K = Some x.
Proof.
  intros R. induction l as [|bn l IH]; intros n k p s c K x Hl Hn Hk Hs Hx HK.
  - cbn [length] in *. assert (n = 0) as -> by lia. unfold rep. cbn [times]. unfold nodes_text in *. cbn [map concat app length] in *.
    rewrite Nat.add_0_r in HK. destruct k as [|k].
    + exact HK.
    + cbn [upto]. specialize (Hx k). rewrite Nat.add_0_r in Hx. rewrite m_opt_no; [exact HK|]. apply Hx. lia.
  - inversion Hl as [|? ? Hb Hl']; subst. assert (nodes_text (bn :: l) = (fst bn ++ snd bn) ++ nodes_text l) as E by reflexivity.
    rewrite E in *. rewrite app_length in *. cbn [length] in *. rewrite <- (app_assoc (fst bn ++ snd bn)).
    destruct n as [|n]; unfold rep; cbn [times].
    + destruct k as [|k]; [lia|]. cbn [upto]. apply m_opt_yes. rewrite m_seq. apply m_node; [exact Hb|apply nodes_then_blank; assumption|].
      rewrite Nat.add_assoc in HK. refine (IH 0 k _ s c K x Hl' _ _ Hs _ HK); [lia|lia|]. intros j Hj. rewrite <- Nat.add_assoc. apply Hx. lia.
    + rewrite m_seq. apply m_node; [exact Hb|apply nodes_then_blank; assumption|].
      rewrite Nat.add_assoc in HK. refine (IH n k _ s c K x Hl' _ _ Hs _ HK); [lia|lia|]. intros j Hj. rewrite <- Nat.add_assoc. apply Hx. lia.
Qed.
Lemma m_head : forall (R : Type) kd name l n k s (K : @kont R) x, name <> [] -> (forall a, In a name -> is_word a = true) -> Forall node_good l ->
  n <= length l -> length l <= n + k -> starts_with_blank s ->
  let d := S (length name) in let e := d + length (nodes_text l) in
  let c := [(gNODES, (d, e)); (gDES, (0, d))] in
  (forall j, S j = n + k - length l -> m (Seq node_re (upto j node_re)) e s [(gDES, (0, d))] (fun p s' c' => K p s' ((gNODES, (d, p)) :: c')) = None) ->
  K e s c = Some x ->
  m (prefix_nodes kd n k) 0 (kd :: name ++ nodes_text l ++ s) [] K = Some x.
Proof.
  intros R kd name l n k s K x NN HN Hl Hn Hk Hs d e c Hx HK.
  unfold prefix_nodes, designator_re. rewrite m_seq, m_grp. cbn [seqs]. rewrite m_seq.
  unfold ichar. rewrite m_chr_ok by (apply aeqb_refl).
  assert (starts_with_blank (nodes_text l ++ s)) as HB by (apply nodes_then_blank; assumption).
  rewrite m_seq. rewrite m_opt_no.
  - unfold word1. apply m_plus_run; [exact NN|apply forallb_forall; exact HN| |].
    + destruct (nodes_text l ++ s) as [|z r]; [exact I|]. apply blank_facts. exact HB.
    + rewrite m_grp. change (rep n k (Seq sp1 (Plus (Chr nodec)))) with (rep n k node_re).
      apply m_nodes; [exact Hl|exact Hn|exact Hk|exact Hs| |]; cbn [Nat.add].
      * intros j Hj. apply Hx. exact Hj.
      * exact HK.
  - destruct name as [|a name]; [contradiction|]. cbn [app]. apply m_chr_no. apply word_facts. apply HN. left. reflexivity.
Qed.
