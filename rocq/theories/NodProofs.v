From Coq Require Import String Ascii List Bool Arith Lia.
From Verif Require Import PyStr Regex PTokSpec CompModel CompSpec CompMatch CompFam CompProofs NodModel NodSpec.
Import ListNotations.
Local Open Scope string_scope.
Local Open Scope nat_scope.
Local Open Scope list_scope.

Lemma existsb_In : forall n l, existsb (str_eqb n) l = true <-> In n l.
Proof.
  intros n l. rewrite existsb_exists. split.
  - intros (x & Hx & E). apply str_eqb_eq in E. subst x. exact Hx.
  - intros H. exists n. split; [exact H|apply str_eqb_refl].
Qed.
Lemma existsb_not_In : forall n l, existsb (str_eqb n) l = false <-> ~ In n l.
Proof.
  intros n l. rewrite <- existsb_In. destruct (existsb (str_eqb n) l); split; intros H; try reflexivity; try discriminate; try (exfalso; apply H; reflexivity).
Qed.
Lemma first_met_nil : first_met [] [].
Proof. split; [constructor|]. split; [intros n; reflexivity|]. intros [|a p] x q E; discriminate. Qed.
Lemma first_met_one : forall all listed n, first_met all listed ->
  first_met (all ++ [n]) (if existsb (str_eqb n) listed then listed else listed ++ [n]).
Proof.
  intros all listed n (ND & IN & OR). destruct (existsb (str_eqb n) listed) eqn:E.
  - apply existsb_In in E. split; [exact ND|]. split.
    + intros x. rewrite in_app_iff, IN. cbn [In]. split; [tauto|]. intros [H|[<-|[]]]; [exact H|]. apply IN. exact E.
    + intros p x q Hp Np. destruct q as [|b q] using rev_ind.
      * apply app_inj_tail in Hp. destruct Hp as [<- <-]. exfalso. apply Np. apply IN. exact E.
      * clear IHq. rewrite app_comm_cons, app_assoc in Hp. apply app_inj_tail in Hp. destruct Hp as [-> <-]. apply (OR p x q eq_refl Np).
  - apply existsb_not_In in E. split; [|split].
    + apply NoDup_rev in ND. rewrite <- (rev_involutive (listed ++ [n])). apply NoDup_rev. rewrite rev_app_distr. cbn [rev app]. constructor; [rewrite <- in_rev; exact E|exact ND].
    + intros x. rewrite !in_app_iff, IN. reflexivity.
    + intros p x q Hp Np. destruct q as [|b q] using rev_ind.
      * apply app_inj_tail in Hp. destruct Hp as [<- <-]. exists listed, []. split; [reflexivity|]. exact IN.
      * clear IHq. rewrite app_comm_cons, app_assoc in Hp. apply app_inj_tail in Hp. destruct Hp as [-> <-].
        destruct (OR p x q eq_refl Np) as (a & b' & -> & H). exists a, (b' ++ [n]). split; [rewrite <- app_assoc; reflexivity|exact H].
Qed.
Lemma first_met_more : forall ns all listed, first_met all listed -> first_met (all ++ ns) (note_nodes listed ns).
Proof.
  induction ns as [|n ns IH]; intros all listed H; cbn [note_nodes]; [rewrite app_nil_r; exact H|].
  replace (all ++ n :: ns) with ((all ++ [n]) ++ ns) by (rewrite <- app_assoc; reflexivity). apply IH. apply first_met_one. exact H.
Qed.
Lemma collect_met : forall l all listed r, first_met all listed -> collect listed l = Some r -> exists more, first_met (all ++ more) r.
Proof.
  induction l as [|[t p|] l IH]; intros all listed r H E; cbn [collect] in E.
  - injection E as <-. exists []. rewrite app_nil_r. exact H.
  - destruct (nodes_of t) as [ns|]; [|discriminate]. destruct (IH _ _ _ (first_met_more ns _ _ H) E) as [m M]. exists (ns ++ m). rewrite app_assoc. exact M.
  - exact (IH _ _ _ H E).
Qed.
Lemma note_extends : forall ns l, exists new, note_nodes l ns = l ++ new.
Proof.
  induction ns as [|n ns IH]; intros l; cbn [note_nodes]; [exists []; rewrite app_nil_r; reflexivity|].
  destruct (existsb (str_eqb n) l); [apply IH|]. destruct (IH (l ++ [n])) as [new ->]. exists (n :: new). rewrite <- app_assoc. reflexivity.
Qed.
Lemma collect_extends : forall l acc r, collect acc l = Some r -> exists new, r = acc ++ new.
Proof.
  induction l as [|[t p|] l IH]; intros acc r E; cbn [collect] in E.
  - injection E as <-. exists []. rewrite app_nil_r. reflexivity.
  - destruct (nodes_of t) as [ns|]; [|discriminate]. destruct (IH _ _ E) as [n1 ->]. destruct (note_extends ns acc) as [n2 ->]. exists (n2 ++ n1). rewrite app_assoc. reflexivity.
  - exact (IH _ _ E).
Qed.
Lemma collect_app : forall a b acc, collect acc (a ++ b) = match collect acc a with Some x => collect x b | None => None end.
Proof.
  induction a as [|[t p|] a IH]; intros b acc; cbn [app collect]; [reflexivity| |apply IH]. destruct (nodes_of t); [apply IH|reflexivity].
Qed.
(** a well-formed statement gives its nodes *)
Lemma statement_nodes : forall c, comp_ok c -> nodes_of (Some (comp_text c)) = Some (map snd (c_nodes c)).
Proof.
  intros c HC. destruct (comp_match c [NL] HC (or_introl eq_refl)) as (f & lo & hi & r & [ye yc] & vu & pu & w & Hf & Hr & Hm & G1 & G2).
  change (text_z c [NL]) with (comp_text c) in Hm.
  assert (cap gNODES yc = Some (S (length (c_name c)), S (length (c_name c)) + length (nodes_text (c_nodes c)))) as G.
  { assert ({f = Controlled} + {f <> Controlled}) as [E|E] by (destruct f; [right|right|right|left|right]; congruence).
    - destruct (G2 E) as (_ & _ & A & _). exact A.
    - destruct (G1 E) as (_ & _ & _ & _ & A & _). exact A. }
  unfold nodes_of. replace (comp_text c) with (c_kind c :: tl (comp_text c)) at 1 by reflexivity. cbv beta iota. rewrite Hr.
  change (c_kind c :: tl (comp_text c)) with (comp_text c). rewrite Hm. unfold group. rewrite G. cbn [option_map].
  assert (comp_text c = (c_kind c :: c_name c) ++ nodes_text (c_nodes c) ++ (c_gap c ++ c_val c ++ line_text (c_pars c) (c_end c ++ note_text (c_note c)) ++ [NL])) as ->.
  { unfold comp_text, comp_body. cbn [app]. rewrite <- !app_assoc. reflexivity. }
  f_equal. pose proof (slice_mid (c_kind c :: c_name c) (nodes_text (c_nodes c)) (c_gap c ++ c_val c ++ line_text (c_pars c) (c_end c ++ note_text (c_note c)) ++ [NL])) as E.
  cbn [length] in E. rewrite E. apply words_nodes_text. destruct HC as (_ & _ & H & _). exact H.
Qed.
Lemma collect_statements : forall e cs, consists_of e cs -> forall all listed, first_met all listed ->
  exists r, collect listed e = Some r /\ first_met (all ++ nodes_written cs) r.
Proof.
  induction 1 as [|e c H IH|s ports e c HC H IH]; intros all listed M.
  - exists listed. split; [reflexivity|]. unfold nodes_written. cbn [map concat]. rewrite app_nil_r. exact M.
  - cbn [collect]. apply IH. exact M.
  - cbn [collect]. rewrite (statement_nodes s HC). destruct (IH _ _ (first_met_more (map snd (c_nodes s)) _ _ M)) as (r & E & R).
    exists r. split; [exact E|]. unfold nodes_written. cbn [map concat]. rewrite app_assoc. exact R.
Qed.
